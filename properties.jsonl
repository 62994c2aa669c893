{"id": "C01", "title": "Every queued item is in exactly one sub-queue, the one its state names", "statement": "After any sequence of queue operations every item that was added and not removed is held by exactly one of the delay, ready, run, bury and dependent sub-queues, exactly once, and that sub-queue is the one Item.Stats().State reports; nothing else is in any sub-queue. So Stats() sub-queue counts always add up to the number of items.", "quantifier": "all finite sequences of queue API calls and background ticks (with any arguments, clock readings and Go map iteration orders) starting from New()", "why_tests_cant": "Each operation moves items between five containers with manual index bookkeeping; a test checks only the few interleavings it enumerates, while one missed index update corrupts the container only for particular histories.", "anchors": ["queue/queue.go: Add, AddMany, Update, ChangeKey, Reserve, Release, Bury, Kick, Remove, startDelayProcessing, startTTRProcessing, Stats", "queue/subqueue.go", "queue/bury_queue.go", "queue/dependency_queue.go"]}
{"id": "C02", "title": "Reserve returns the best ready item of the requested group", "statement": "A successful Reserve(group) returns an item that was ready in that reserve group, and no other ready item of that group has a higher priority, or equal priority and larger size, or equal both and an earlier creation time. It returns ErrNothingReady exactly when the group has no ready item.", "quantifier": "all reachable queue states and all group names", "why_tests_cant": "The order is kept by a heap edited in the middle (Remove/Fix/group moves); heap breakage shows up only for particular shapes and histories.", "anchors": ["queue/queue.go: Reserve, Update, SetReserveGroup", "queue/subqueue.go: push, pop, remove, update, Less, Swap, Push, Pop"]}
{"id": "C03", "title": "An item is reserved by at most one client at a time", "statement": "Between a Reserve that returns an item and the next event that takes the item out of the run sub-queue (Release, Bury, Remove, TTR expiry, a dependency added by Update), no other Reserve returns that item.", "quantifier": "all histories and all pairs of Reserve calls in them", "why_tests_cant": "Quantifies over every interleaving of clients with background processing.", "anchors": ["queue/queue.go: Reserve, Release, Bury, Remove, Update, startTTRProcessing"]}
{"id": "C04", "title": "Dependent items do not become reservable while a dependency is unresolved", "statement": "While an item has a dependency key that has not been Removed from the queue since the dependency was set, Reserve does not return that item.", "quantifier": "all histories of adds, updates, kicks, removals and reservations, and all dependency graphs (including keys never added)", "why_tests_cant": "Dependency graphs and edit histories are unbounded; the existing tests cover a handful of fixed graphs.", "anchors": ["queue/queue.go: handleItemForAdd, setItemDependencies, setQueueDeps, itemHasDeps, Update, Kick, Remove", "queue/item.go: setDependencies, resolveDependency, ChangedKey"]}
{"id": "C05", "title": "Removing the last dependency makes a dependent item ready", "statement": "When Remove(key) succeeds and key was the only unresolved dependency of a dependent item, that item is ready immediately afterwards; other dependent items stay dependent. No item is left in the dependent sub-queue with nothing left to wait for.", "quantifier": "all reachable states and all removed keys, all iteration orders over the dependants", "why_tests_cant": "Liveness over all histories: a lost registration leaves an item stuck forever, which a finite test sees only if it builds the exact history.", "anchors": ["queue/queue.go: Remove, setQueueDeps, Kick, ChangeKey, Update", "queue/item.go: resolveDependency"]}
{"id": "C06", "title": "Items disappear only through Remove or Destroy", "statement": "An item that was added successfully stays retrievable by its key (following ChangeKey renames) with the same data (until Update/ChangeKey replaces it) after every operation except a Remove of that key or Destroy.", "quantifier": "all histories", "why_tests_cant": "Needs every operation on every state, including error paths, to preserve the item map.", "anchors": ["queue/queue.go: Get, Add, AddMany, Update, ChangeKey, Remove, Destroy"]}
{"id": "C07", "title": "Adding an existing key changes nothing and AddMany accounts for every input", "statement": "Add with a key that is in the queue returns ErrAlreadyExists with the existing item and leaves the queue as it was. AddMany returns added and dups with added + dups equal to the number of definitions, added equal to the number of distinct new keys, and the first definition of each new key wins.", "quantifier": "all queue states and all lists of item definitions, with duplicates inside the list", "why_tests_cant": "Inputs are unbounded lists with arbitrary duplication patterns.", "anchors": ["queue/queue.go: Add, newItemForAdd, handleItemForAdd, AddMany"]}
{"id": "C08", "title": "Delayed items become ready only after their delay and as soon as processing runs", "statement": "An item added or released with delay d > 0 at time t is not ready before t+d; delay processing run at time now moves to ready exactly the delayed items whose ready time is before now and no others.", "quantifier": "all histories, delays and clock readings", "why_tests_cant": "Depends on heap order of the delay sub-queue under every history of SetDelay/Update/Release.", "anchors": ["queue/queue.go: startDelayProcessing, SetDelay, Update, Release", "queue/item.go: isready, restart"]}
{"id": "C09", "title": "Running items time out exactly when their TTR passes untouched", "statement": "TTR processing at time now takes out of the run sub-queue exactly the items whose release time (last reserve or touch plus ttr) is before now, and puts each in the sub-queue chosen by the TTR callback; every other running item stays running.", "quantifier": "all histories, TTRs, callback answers and clock readings", "why_tests_cant": "A wrong heap order silently postpones time-outs behind a later item.", "anchors": ["queue/queue.go: startTTRProcessing, Touch, Reserve, Update", "queue/item.go: touch, releasable, tempDisableTTR"]}
{"id": "C10", "title": "Operations are state guarded", "statement": "Touch, Release and Bury succeed only on running items, Kick only on buried ones; for a missing key they return ErrNotFound, in another state ErrNotRunning or ErrNotBuried, after Destroy ErrQueueClosed; whenever an operation returns an error the queue is unchanged. On success the item ends in the documented state and no other item changes.", "quantifier": "all reachable states, all keys", "why_tests_cant": "Requires all (operation, state) pairs over all reachable states, including that nothing else changes.", "anchors": ["queue/queue.go: Touch, Release, Bury, Kick, Remove, ChangeKey, SetDelay, SetReserveGroup, Update"]}
{"id": "C11", "title": "ChangeKey renames an item and every reference to it", "statement": "After ChangeKey(old,new) succeeds the item is found under new and not under old, in the same state and sub-queue, every dependency on old by another item is a dependency on new (Removing new releases them), and nothing else changes. It fails without effect if old is missing or new exists.", "quantifier": "all reachable states and key pairs", "why_tests_cant": "All dependency graphs around the renamed key.", "anchors": ["queue/queue.go: ChangeKey", "queue/item.go: ChangedKey"]}
{"id": "C12", "title": "Update applies all the given properties", "statement": "After Update(key, group, data, priority, delay, ttr, deps) succeeds the item has exactly those properties, is in the sub-queue the new dependencies call for, and Reserve order reflects the new priority and group.", "quantifier": "all reachable states and all arguments", "why_tests_cant": "The changes interact: which ones are applied depends on which others differ.", "anchors": ["queue/queue.go: Update", "queue/subqueue.go: update"]}
{"id": "C13", "title": "A destroyed queue refuses work", "statement": "After Destroy every operation returns ErrQueueClosed (a second Destroy too), nothing can be reserved and Stats reports zero items.", "quantifier": "all operation sequences after Destroy", "why_tests_cant": "Any later operation sequence must be covered, including background processing still pending.", "anchors": ["queue/queue.go: Destroy"]}
{"id": "C14", "title": "Item statistics count events truthfully", "statement": "Item.Stats() counters equal the number of corresponding events in the item's history: reserves, timeouts, releases, buries and kicks.", "quantifier": "all histories", "why_tests_cant": "Equality with history length counts needs induction over all histories.", "anchors": ["queue/queue.go", "queue/item.go: switch* methods, Stats"]}
{"id": "C15", "title": "The changed callback accounts for every state change", "statement": "Summing the changed-callback notifications (from, to, items) over any history gives the current number of items in each sub-queue: a listener that only adds and subtracts counts knows Stats() exactly.", "quantifier": "all histories", "why_tests_cant": "Equality between an event stream and a state for all histories.", "anchors": ["queue/queue.go: changed, SetChangedCallback and its call sites"]}
{"id": "C16", "title": "The ready-added callback never runs concurrently and never misses ready items", "statement": "At most one ready-added callback runs at a time, and after the last item became ready a callback starts that sees it.", "quantifier": "all schedules of readyAdded calls and callback completions", "why_tests_cant": "Schedules of goroutines are unbounded.", "anchors": ["queue/queue.go: readyAdded"]}
{"id": "C17", "title": "Container/heap operations keep the sub-queue heaps ordered", "statement": "Pushing, popping, removing at any position and fixing after a key change keep the array a heap over exactly the expected multiset of items with exact back indexes; pop returns a minimum.", "quantifier": "all heaps, positions and orderings", "why_tests_cant": "All sizes, positions and tie patterns.", "anchors": ["queue/subqueue.go: Len, Less, Swap, Push, Pop, push, pop, remove, update"]}
{"id": "C18", "title": "A limit group is never exceeded", "statement": "Whatever the calls made, a successful Increment of a count group never takes its current count above the limit in force at that moment.", "quantifier": "all histories of SetLimit, RemoveLimit, Increment, Decrement by any number of callers, all limits", "why_tests_cant": "All interleavings and name lists.", "anchors": ["limiter/limiter.go: Increment, checkGroups, incrementGroups", "limiter/group.go: canIncrement, increment"]}
{"id": "C19", "title": "Increment is all or nothing", "statement": "Increment either adds one to every named limited group and returns true, or changes no count and returns false; it returns true if every named group has capacity.", "quantifier": "all limiter states and group lists", "why_tests_cant": "All overlapping lists and states.", "anchors": ["limiter/limiter.go: Increment, checkGroups, incrementGroups"]}
{"id": "C20", "title": "Limiter counts equal increments minus decrements", "statement": "If every Decrement is paired with an earlier successful Increment of the same groups, the count of each group equals the number of outstanding increments, so capacity is neither leaked nor conjured.", "quantifier": "all paired histories", "why_tests_cant": "Unbounded histories, and groups are forgotten and re-created at zero.", "anchors": ["limiter/limiter.go: Increment, Decrement, vivifyGroup, RemoveLimit", "limiter/group.go: decrement"]}
{"id": "C21", "title": "GetRemainingCapacity says how many increments would succeed", "statement": "GetRemainingCapacity(groups)=n>=0 means exactly n further Increments of those groups would succeed; -1 means they are unlimited.", "quantifier": "all limiter states and group lists", "why_tests_cant": "All states and orderings of the list.", "anchors": ["limiter/limiter.go: GetRemainingCapacity", "limiter/group.go: capacity"]}
{"id": "C22", "title": "Limit group names parse to the limit they spell", "statement": "name:n for n>=0 yields count limit n for name; negative n yields no limit; time and datetime expressions yield a window; other names carry no limit. A window group admits work exactly inside its window.", "quantifier": "all strings, all times", "why_tests_cant": "Infinite input space.", "anchors": ["limiter/group.go: NameToGroupData, countLimitParse, canIncrement"]}
{"id": "C23", "title": "Granted tokens never exceed the maximum", "statement": "At every moment the tokens of granted and unreleased requests sum to at most maxSimultaneous, and the internal count equals that sum.", "quantifier": "all schedules of requests, releases, time-outs and processing", "why_tests_cant": "Goroutine schedules.", "anchors": ["rp/protector.go: Request, process, reprocess, Release", "rp/request.go"]}
{"id": "C24", "title": "Requests are granted in order, at most one per delayBetween", "statement": "Requests are granted in the order they were made (those cancelled excepted) and two grants are at least delayBetween apart.", "quantifier": "all schedules and clocks", "why_tests_cant": "Timing and goroutine schedules.", "anchors": ["rp/protector.go: process, reprocess"]}
{"id": "C25", "title": "Tokens are returned exactly once", "statement": "Each granted request returns its tokens exactly once, on Release or on time-out, whichever is first, whatever repeated or late Touch and Release calls are made; after Shutdown no request is granted.", "quantifier": "all schedules", "why_tests_cant": "Races between release, time-out, touch and shutdown.", "anchors": ["rp/protector.go: Release, Touch, Shutdown, process", "rp/request.go: release, touch, grant, finish"]}
{"id": "C26", "title": "A failing job is retried exactly its Retries then buried", "statement": "A job whose started attempts all end in failure is started at most Retries+1 times after being added or kicked, and is buried by the failure of attempt Retries+1; attempts reserved but never started do not count.", "quantifier": "all histories of reserve/start/release/bury/lost/kick requests and all Retries values", "why_tests_cant": "Counter wrap-around and interplay over all histories.", "anchors": ["jobqueue/server.go: releaseJob, kickJobs, createJobs", "jobqueue/serverCLI.go: reserve, jstart, jrelease, jbury"]}
{"id": "C27", "title": "A job is complete only after it ran and exited 0, and is archived once", "statement": "A job reaches the complete state only by a jarchive request from the client that reserved it, while running, with a started, ended attempt and exit code 0; it then leaves the live set for good unless added again.", "quantifier": "all request histories", "why_tests_cant": "All request orders, including stale clients.", "anchors": ["jobqueue/serverCLI.go: jarchive, getij", "jobqueue/db.go: archiveJob"]}
{"id": "C28", "title": "Only the reserver can change a running job", "statement": "jstart, jtouch, jarchive, jrelease and jbury have no effect on a job unless sent by the client that made its latest reservation.", "quantifier": "all request histories and client ids", "why_tests_cant": "Adversarial request orders.", "anchors": ["jobqueue/serverCLI.go: getij"]}
{"id": "C29", "title": "Accepted jobs survive a crash at any point", "statement": "Once an add request has been acknowledged, then after a crash at any point of any later request and a restart, every job not completed or deleted is in the queue again, each job is either live or complete according to the last durable transaction and never lost, and no job that was not added appears.", "quantifier": "all histories, all crash points between durable writes, repeated crashes", "why_tests_cant": "Crash points between transactions cannot be enumerated by unit tests.", "anchors": ["jobqueue/server.go: Serve, createJobs", "jobqueue/db.go: storeNewJobs, archiveJob, deleteLiveJob(s), recoverIncompleteJobs"]}
{"id": "C30", "title": "Running jobs never exceed their limit groups", "statement": "The number of jobs counted against a limit group is at most its limit, and every increment made for a reservation is undone exactly once when the job leaves the run state, whichever way it leaves.", "quantifier": "all histories of reservations, exits, kills, time-outs, deletions", "why_tests_cant": "A leak or double decrement appears only for particular exits.", "anchors": ["jobqueue/serverCLI.go: reserveWithLimits", "jobqueue/server.go: releaseJob, ttr callback", "jobqueue/job.go: noteIncrementedLimitGroups, decrementLimitGroups, updateAfterExit"]}
{"id": "C31", "title": "Pause and resume nest", "statement": "After any sequence of successful Pause and Resume calls starting unpaused, jobs are reservable exactly when as many resumes as pauses have been made (extra resumes being no-ops); Drain overrides until restart.", "quantifier": "all call sequences", "why_tests_cant": "All nestings.", "anchors": ["jobqueue/server.go: Pause, Resume, Drain", "jobqueue/serverCLI.go: pause, resume, jmod"]}
{"id": "C32", "title": "Deleting jobs never strands a dependant", "statement": "A delete request removes a requested job only if no job left in the queue depends on it; requested jobs whose dependants are all requested too are removed, in any request order; nothing else is removed.", "quantifier": "all dependency graphs and request lists", "why_tests_cant": "All graphs and orders.", "anchors": ["jobqueue/server.go: deleteJobs, deleteJobIfRequested", "queue/queue.go: HasDependents"]}
{"id": "C33", "title": "Listing with limits keeps the total", "statement": "When jobs are listed with a limit, the representatives returned plus their Similar counts add up to the number of matching jobs per (state, exit code, fail reason) group, no job is returned twice and no group returns more than the limit.", "quantifier": "all job lists, limits, offsets, filters", "why_tests_cant": "All list shapes.", "anchors": ["jobqueue/server.go: limitJobs, addJobToGroup, applyOffset, matchesStateFilter"]}
{"id": "C34", "title": "Captured output keeps the head and the tail", "statement": "After writing any bytes in any chunking, the saved output is all of it if at most 2N bytes were written and otherwise exactly the first N bytes, an omission note with the right count, and the last N bytes.", "quantifier": "all byte streams, chunkings and N above zero", "why_tests_cant": "Chunk boundaries interact with the ring buffer.", "anchors": ["jobqueue/utils.go: prefixSuffixSaver.Write, fill, Bytes"]}
{"id": "C35", "title": "Scheduler group counts never go negative and drops are counted once", "statement": "Decrementing a scheduler group's count by any amounts in any order never goes below zero, uses skipped jobs first, and reports the count to schedule exactly when it changed.", "quantifier": "all sequences of decrements and counts", "why_tests_cant": "All sequences.", "anchors": ["jobqueue/server.go: sgroup.decrement, clone, getCount, decrementGroupCount"]}
{"id": "C36", "title": "Schedule calls coalesce to the latest count", "statement": "When several Schedule calls for one command overlap, only one runs at a time and after all have finished the scheduler was last told the count of the latest call.", "quantifier": "all schedules of overlapping calls", "why_tests_cant": "Goroutine schedules.", "anchors": ["jobqueue/scheduler/scheduler.go: Schedule"]}
{"id": "C37", "title": "The local scheduler never over-commits the machine", "statement": "The memory, cores and commands in use by locally running commands never exceed the configured maxima, and everything claimed is returned when the command ends.", "quantifier": "all schedules of starts and ends", "why_tests_cant": "All interleavings.", "anchors": ["jobqueue/scheduler/local.go: processQueue, canCount, runCmd"]}
{"id": "C38", "title": "Requirements sent to the scheduler cover what was asked", "statement": "The requirements derived for scheduling are never smaller than asked: RAM at least the request, time rounded up to a half hour and exceeding the request by less than half an hour, cores and disk unchanged.", "quantifier": "all requirement values, times at least half an hour away from the ends of an int64 (292 years)", "why_tests_cant": "Rounding boundaries.", "anchors": ["jobqueue/utils.go: reqForScheduler"]}
{"id": "C39", "title": "Sorting and deduplication helpers", "statement": "DedupSortStrings returns a strictly sorted list of exactly the distinct inputs; SortMapKeysByIntValue returns every key once in value order.", "quantifier": "all inputs", "why_tests_cant": "All inputs.", "anchors": ["internal/utils.go: DedupSortStrings, SortMapKeysByIntValue"]}
{"id": "C40", "title": "Retry delay is bounded back-off", "statement": "The delay set for attempt n is at least the minimum, grows with n until the maximum and never exceeds the maximum plus the minimum.", "quantifier": "all attempt numbers and random draws", "why_tests_cant": "All attempts including overflow.", "anchors": ["jobqueue/utils.go: calculateItemDelay"]}
{"id": "C41", "title": "bsub resource requirements are rewritten without changing their meaning", "statement": "Parsing a valid -R string and printing it gives the same string modulo whitespace; replacing memory and hosts leaves exactly one of each setting with the new value and keeps the other clauses.", "quantifier": "all requirement strings", "why_tests_cant": "Infinite grammar.", "anchors": ["bsubresource/*.go"]}
{"id": "C42", "title": "Cleaning up a working directory keeps the exceptions", "statement": "removeAllExcept removes everything under a path except the named entries and their parents and contents; rmEmptyDirs removes only empty directories up to the base.", "quantifier": "all directory trees and exception lists", "why_tests_cant": "All trees.", "anchors": ["jobqueue/utils.go: removeAllExcept, removeWithExceptions, rmEmptyDirs"]}
{"id": "C43", "title": "Environment overrides replace variables", "statement": "Applying overrides to an environment yields each overridden variable exactly once with the overriding value and every other variable unchanged.", "quantifier": "all environments and overrides", "why_tests_cant": "All lists.", "anchors": ["jobqueue/utils.go: envOverride", "jobqueue/job.go: Env, Getenv"]}
{"id": "C44", "title": "Batched database writes store every entry", "statement": "Splitting a list of entries into batches stores every entry exactly once and in order, and reports the first failure.", "quantifier": "all lengths and batch counts", "why_tests_cant": "Boundary arithmetic at every length.", "anchors": ["jobqueue/db.go: storeBatched"]}
{"id": "C45", "title": "Job identity", "statement": "Two jobs have the same key exactly when command, relevant working directory, mounts and container settings are the same.", "quantifier": "all pairs of jobs", "why_tests_cant": "All pairs of strings.", "anchors": ["jobqueue/job.go: Job.Key, JobEssence.Key"]}
{"id": "C46", "title": "Dependencies name exactly the incomplete jobs", "statement": "A job added with dependency groups or job keys waits for exactly the live jobs in those groups at that time plus those added to the groups later, and dependants of a group are restored when a job is added to the group.", "quantifier": "all histories of adds with dependency groups", "why_tests_cant": "All histories.", "anchors": ["jobqueue/dependency.go: incompleteJobKeys", "jobqueue/server.go: createJobs, updateJobDependencies", "jobqueue/db.go: retrieveDependentJobs"]}
{"id": "C47", "title": "A waiting Increment is woken when there may be room", "statement": "As long as an Increment waits without having been notified, at least one of its groups is at its limit: room never appears without the waiter being told.", "quantifier": "all histories of calls by any number of callers", "why_tests_cant": "A lost wake-up needs a particular interleaving.", "anchors": ["limiter/limiter.go: Increment, registerGroupNotifications, Decrement, SetLimit, RemoveLimit", "limiter/group.go: decrement, notifyDecrement"]}
{"id": "C48", "title": "A waiting request that fits is granted", "statement": "When the request at the head of the resource protector's queue fits in the free tokens, a process() is on its way and will grant it.", "quantifier": "all schedules of requests, releases, cancellations, time-outs and processing", "why_tests_cant": "A lost wake-up needs a particular interleaving.", "anchors": ["rp/protector.go: Request, WaitUntilGranted, process, reprocess"]}
{"id": "C49", "title": "The resource protector never locks up", "statement": "No sequence of calls leaves the protector's mutex held for ever.", "quantifier": "all schedules of calls and goroutines", "why_tests_cant": "Needs a particular interleaving of time-outs.", "anchors": ["rp/protector.go: WaitUntilGranted, process", "rp/request.go: waitUntilGranted, touch, release"]}
{"id": "C50", "title": "The queue's timers never sleep past the first due item", "statement": "The goroutine that makes delayed items ready wakes up no later than the first delayed item's delay ends, and the one that handles time-outs no later than the first running item's TTR ends.", "quantifier": "all histories of calls", "why_tests_cant": "Which calls re-arm a timer matters only for particular orders of delays and TTRs.", "anchors": ["queue/queue.go: startDelayProcessing, startTTRProcessing, delayNotificationTrigger, ttrNotificationTrigger, and every call that sets a delay or TTR"]}
{"id": "C51", "title": "Output without progress bars is kept unchanged", "statement": "The filter that thins out progress bars leaves text without carriage returns unchanged and reduces a block of carriage-return terminated lines to its first and last line, marking what was left out.", "quantifier": "all byte streams", "why_tests_cant": "All streams and all positions of the special bytes.", "anchors": ["jobqueue/utils.go: stdFilter"]}
{"id": "C52", "title": "The local scheduler runs as many of a command as it was told", "statement": "After the local scheduler was told a count for a command, exactly as many further commands are started as are missing beside those running, never more, and the command leaves its queue only when all have been run.", "quantifier": "all histories of schedule calls, passes over the queue and ends of commands", "why_tests_cant": "Depends on how ends, new counts and passes interleave.", "anchors": ["jobqueue/scheduler/local.go: schedule, processQueue, removeKey, runCmd"]}
{"id": "C53", "title": "Reserve requests are not held for ever", "statement": "Reserve requests that come while jobs are being added or kicked are held until those jobs have been dealt with; whenever the server has nothing left to do, no reserve request is held.", "quantifier": "all schedules of add, kick and reserve requests, queue callbacks, pauses and other queue events", "why_tests_cant": "Which goroutine clears the flag depends on the interleaving, and a test that adds something new never sees what happens when nothing is added.", "anchors": ["jobqueue/serverCLI.go: reserve", "jobqueue/server.go: createQueue (ready added and changed callbacks), enqueueItems, updateJobDependencies, kickJobs", "queue/queue.go: readyAdded, changed, AddMany, Kick"]}
{"id": "C54", "title": "The local scheduler makes every pass over its queue that is asked for", "statement": "After every call of processQueue a whole pass over the queue is made that starts at or after the call, also if the call comes while another pass is going on.", "quantifier": "all histories of calls, passes, claims and ends of commands", "why_tests_cant": "A lost recall needs a call at a particular moment of a pass.", "anchors": ["jobqueue/scheduler/local.go: processQueue"]}
{"id": "C55", "title": "Recommendations come from what jobs used", "statement": "The memory, disk or time recommended for a requirements group is the 95th percentile of what jobs of that group used, or the most if there are too few values or it is close, rounded up.", "quantifier": "all sequences of stored values, all group names and rounding amounts", "why_tests_cant": "All sets of values; the window that finds the percentile in one pass uses float32 arithmetic and a growing size.", "anchors": ["jobqueue/db.go: recommendedReqGroupStat, archiveJob, updateJobAfterExit"]}
{"id": "C56", "title": "Learned requirements respect the override", "statement": "Override 2 keeps the user's values, 1 never goes below them, 0 uses what is recommended; a job that failed for lack of memory, disk or time is tried again with more than it used.", "quantifier": "all sequences of passes, recommendations and runs", "why_tests_cant": "All histories of recommendations and failures.", "anchors": ["jobqueue/server.go: createQueue ready added callback", "jobqueue/job.go: Job.Override"]}
{"id": "C57", "title": "As many runners as jobs that can run", "statement": "After each pass over the ready jobs the scheduler is asked, for each scheduler group, for as many runners as the group has running jobs plus ready jobs its limits leave room for, and for none for groups without jobs.", "quantifier": "all sequences of passes with any ready and running jobs and limits", "why_tests_cant": "All histories of jobs becoming ready and ending between passes.", "anchors": ["jobqueue/server.go: createQueue ready added callback, scheduleRunners"]}
{"id": "C58", "title": "Modifying jobs changes what was asked and nothing else", "statement": "Modifying jobs sets the given values of the jobs asked for that are not running, in memory and on disk, keeping their state; two jobs never end with one key; jobs left out are left out because another job has their new key; other jobs stay as they are; jobs waiting for a job that got a new key go on waiting for it.", "quantifier": "all server histories, all modifiers, all lists of keys and map orders", "why_tests_cant": "All histories and all combinations of colliding keys; what goes wrong shows only at the next modification, failure or restart.", "anchors": ["jobqueue/serverCLI.go: jmod", "jobqueue/job.go: JobModifier.Modify", "jobqueue/db.go: modifyLiveJobs", "queue/queue.go: ChangeKey"]}
{"id": "C59", "title": "Servers are never given more than they have", "statement": "The commands allocated to a cloud server and not yet released together need no more cores, memory and disk than it has, and no more commands without cores are on it than twice its cores; Allocate succeeds just when the command fits beside the others and the server is not destroyed; HasSpaceFor is the number of such commands that fit; a flavor says of itself what a new server of it would.", "quantifier": "all flavors and needs, all schedules of Allocate, Release, Destroy and the server's goroutines in which callers release what they have allocated", "why_tests_cant": "All sequences of allocations and releases of any sizes.", "anchors": ["cloud/server.go: Flavor.HasSpaceFor, Server.Allocate, Release, HasSpaceFor, checkSpace"]}
{"id": "C60", "title": "Idle servers are destroyed, used ones are not", "statement": "A server on which the last command has ended is destroyed when the idle time is over, unless another command comes; a server is never destroyed for being idle while a command runs on it; the goroutines that see to this never block each other forever.", "quantifier": "all schedules of Allocate, Release, Destroy, the countdowns, their cancellation and the goroutines, at the granularity of the mutex and the channel", "why_tests_cant": "Races of goroutines over a mutex and a channel; tests cannot choose the schedule.", "anchors": ["cloud/server.go: Server.Release, Allocate, Destroy"]}
{"id": "C61", "title": "What a runner reports is what happened", "statement": "Whatever Client.Execute tells the manager of a job is so: it archives only commands that exited 0, it gives the exit code the command had, and the reason it gives (memory, disk, time, signal, killed, not found, ...) was observed; a failed command is buried at once only for exit codes 126 to 128, when it was killed, or when it ran longer than its no-retries time; repeated attempts tell the same.  Execute returns nil just for commands that succeeded and were archived.", "quantifier": "all schedules of the goroutines of Execute, all ends of the command, all answers of the manager, at the granularity of mutexes and channels", "why_tests_cant": "Races between the end of the command, signals, the memory check, kills and lost answers.", "anchors": ["jobqueue/client.go: Execute"]}
{"id": "C62", "title": "Execute comes to an end and tells the manager", "statement": "When the command has ended, Execute goes on to tell the manager without blocking on its goroutines; when it has returned, no command runs, its goroutines end, the manager was told of the job and what was mounted is unmounted.  The job is touched from before mounting until the manager is told.", "quantifier": "all schedules, all failures of preparations", "why_tests_cant": "Deadlocks of three goroutines over four channels and two mutexes; failures of preparations.", "anchors": ["jobqueue/client.go: Execute"]}
{"id": "C63", "title": "A killed job stops and is buried", "statement": "When the user kills a running job, its command is killed and the job is buried with reason killed, not run again.", "quantifier": "all schedules", "why_tests_cant": "The kill may come at any moment of Execute.", "anchors": ["jobqueue/client.go: Execute", "jobqueue/client.go: Touch"]}
{"id": "C64", "title": "Behaviours trigger as the command ended", "statement": "OnSuccess behaviours trigger just if the command exited 0, OnFailure ones just if not, OnExit ones always and after these, each once and in the order given, after the command has ended and before unmounting and before the manager is told.", "quantifier": "all lists of behaviours, all schedules", "why_tests_cant": "All combinations of triggers; lost answers of the manager.", "anchors": ["jobqueue/behaviours.go: Behaviour.Trigger, Behaviours.Trigger", "jobqueue/client.go: Execute"]}
{"id": "C65", "title": "When a runner takes no further jobs", "statement": "A runner that receives a signal, or that lost its manager and reconnected, runs no further jobs; otherwise it goes on.", "quantifier": "all schedules of Execute", "why_tests_cant": "Depends on which of several causes Execute reports.", "anchors": ["cmd/runner.go: the loop", "jobqueue/client.go: Execute"]}
{"id": "C66", "title": "The cheapest flavor that will do is picked", "statement": "Servers are created of the flavor with the fewest cores, then least memory, then least disk, among those that are big enough for the job and match the configured regular expression; with flavor sets, of the pick of the earliest set whose pick has not failed of late, else of the earliest set that has one.  Whatever order Go goes through the map of flavors in, the cost of the pick is the same.", "quantifier": "all lists of flavors, all regular expressions, all sets, all map orders, all sets of failed flavors", "why_tests_cant": "All combinations of flavors, sets, failures and map orders.", "anchors": ["cloud/cloud.go: CheapestServerFlavor, CheapestServerFlavors, pickCheapestFlavorFromSubset", "jobqueue/scheduler/openstack.go: determineFlavor"]}
{"id": "C67", "title": "What cannot run in the cloud is refused as impossible, what is accepted gets a server", "statement": "A job is refused as impossible just if there is no flavor on which it can run, given the memory of its operating system and the flavor it names; for a job that is accepted a flavor on which it can run is found in every pass, and servers of it are created as soon as the quota has room.", "quantifier": "all flavors, sets, requirements, quotas and usages", "why_tests_cant": "All combinations of requirements, flavors and quotas.", "anchors": ["jobqueue/scheduler/openstack.go: reqCheck, reqForSpawn, getFlavor, spawnMultiple, checkQuota"]}
{"id": "C68", "title": "Servers are created within quota and configuration, and no more than needed", "statement": "However passes over the queue, creations, failures and destructions interleave: no more servers are being created at once than configured, no more are asked for than the quota allows nor exist than configured, what is reserved of the quota is what those being created will take and is given up when they are done, and no more are created for a command than its jobs need.", "quantifier": "all interleavings of any number of creations, passes and destructions", "why_tests_cant": "Many goroutines between three mutexes; failures at any step.", "anchors": ["jobqueue/scheduler/openstack.go: spawnMultiple, checkQuota, spawn, stateUpdate", "cloud/openstack.go: spawn"]}
{"id": "C69", "title": "LSF queues are tried in a well-defined order, the better ones first", "statement": "The queues that the user may use are tried in the order of a penalty that depends only on what bqueues says of them, not on map orders; a queue that is as good as another on every criterion and better on one comes earlier, and one that runs jobs in smaller chunks comes earlier whatever else.", "quantifier": "all outputs of bqueues with any number of queues and any limits, all map orders", "why_tests_cant": "All combinations of eight criteria over any number of queues; Go's map orders.", "anchors": ["jobqueue/scheduler/lsf.go: initialize", "internal/utils.go: SortMapKeysByIntValue, SortMapKeysByMapIntValue"]}
{"id": "C70", "title": "The best LSF queue that suits a job is picked", "statement": "Without a wish, the first queue in order whose name contains none of the parts to avoid and whose limits allow the job's memory and its time and a minute more is picked; from a list of queues the first such of the list; the job is called impossible only if there is none, and its time limit allows the time it asked for.", "quantifier": "all queues, limits, orders and requirements", "why_tests_cant": "All combinations of queues, limits and requirements.", "anchors": ["jobqueue/scheduler/lsf.go: determineQueue, queueShouldBeAvoided, queueHasTooLittleMemory, queueHasTooLittleTime, maxQueueTime", "jobqueue/scheduler/scheduler.go: MaxQueueTime"]}
{"id": "C71", "title": "LSF gets as many jobs as wanted", "statement": "After the count for a command was set there are at least as many jobs for it as wanted, and no more than wanted and those running; jobs are submitted only when there are too few, killed only when there are too many; jobs that run, or that belong to other commands or deployments, are not touched; setting the same count again does nothing.", "quantifier": "all outputs of bjobs, all counts, all commands", "why_tests_cant": "All outputs of bjobs.", "anchors": ["jobqueue/scheduler/lsf.go: schedule, checkCmd, parseBjobs, generateBsubName", "jobqueue/scheduler/scheduler.go: jobName"]}
{"id": "C72", "title": "bsub is called with what the job needs and the user's options", "statement": "bsub gets the queue picked, a memory limit of what the job asked for, a resource requirement for its memory on one host, as many slots as cores, and the user's own options unchanged but for memory and hosts in their resource requirements; options that bsub would refuse are found when jobs are added.", "quantifier": "all requirements, all lists of option words, all units", "why_tests_cant": "All amounts of memory in float32 arithmetic; all option words.", "anchors": ["jobqueue/scheduler/lsf.go: generateBsubArgs, parseUserArgs, Validate"]}
{"id": "C73", "title": "The JSON that shows a job's behaviours describes all of them", "statement": "The JSON that `wr status`, the web interface and the REST API give for a job's behaviours can be converted back, with a BehavioursViaJSON for each key, to behaviours that do the same things at the same ends in the same order; what was given as JSON is shown so that it reads as the same again.", "quantifier": "all lists of behaviours with any triggers, actions and arguments; all JSON objects", "why_tests_cant": "All combinations and lengths of lists of triggers, actions and arguments.", "anchors": ["jobqueue/behaviours.go: fillBVJM, Behaviours.String, BehaviourViaJSON.Behaviour, BehavioursViaJSON.Behaviours, Behaviours.Trigger"]}
{"id": "C74", "title": "A job's behaviours are those last given for it", "statement": "A job added via JSON does, when its command fails or succeeds, what on_failure or on_success and then on_exit ask for, each or else its default; a modification replaces the behaviours for the ends it names and leaves the others alone; a job is removed when buried only if that was asked for.", "quantifier": "all lists of behaviours given, as defaults and in modifications", "why_tests_cant": "All combinations and lengths of lists given, defaults and modifications.", "anchors": ["jobqueue/serverREST.go: Convert", "jobqueue/job.go: Modify", "jobqueue/behaviours.go: Trigger, RemovalRequested"]}
{"id": "C75", "title": "The setting that counts is the one the documentation says, and its source is said", "statement": "Each setting has the value of its WR_ environment variable; or else that of the first file that sets it, in the current directory, the home directory, then WR_CONFIG_DIR, the file for the deployment before the one for all; or else its default. Source() names where the value came from. The deployment is the one asked for, or that of WR_DEPLOYMENT, or a default, and always production or development.", "quantifier": "all settings, environments and contents of the up to six files", "why_tests_cant": "All combinations of which files exist and what each sets, and of zero values.", "anchors": ["internal/config.go: ConfigLoadFromCurrentDir, ConfigLoadFromParentDir, mergeAllConfigs, mergeAllConfigFiles, merge, configLoadFromFile, getEnvVarsConfig, Source, DefaultDeployment"]}
{"id": "C76", "title": "Managers of different deployments and users do not share files or ports", "statement": "The files of a manager are in its directory, which has the deployment in its name, unless set to absolute paths; the two deployments never share one. Where no port is set, each user has four ports of their own, two for each deployment, that are not privileged; ports that are set are kept.", "quantifier": "all configurations, users and deployments", "why_tests_cant": "All user ids, and all combinations of settings.", "anchors": ["internal/config.go: adjustConfigProperties, convRelativeToAbsPaths, setManagerPort, calculatePort, getMinPort"]}
{"id": "C77", "title": "The manager that runs as a daemon has the configuration of the command that started it", "statement": "`wr manager start` puts its configuration in the environment and starts itself again in the directory /; the daemon has the same value for every setting, whatever files are in / or changed in the meantime.", "quantifier": "all configurations of the parent, and all files that the child sees", "why_tests_cant": "All settings of the parent, and all files the child may see.", "anchors": ["internal/config.go: ToEnv, mergeAllConfigs", "cmd/root.go: daemonize", "cmd/manager.go: startCmd"]}
{"id": "C78", "title": "No change is left out of the database's backups", "statement": "When a backup was asked for after some changes, a backup with at least these changes is made, however requests, changes and backups overlap; also when the database is closed before it was made, as close() then makes a final one.", "quantifier": "all interleavings of changes, requests, backup goroutines and close()", "why_tests_cant": "The interleavings; the loss needs close() at one point in the goroutine.", "anchors": ["jobqueue/db.go: backgroundBackup, backupToBackupFile, close"]}
{"id": "C79", "title": "There is one backup at a time, the backup file is always whole, and backups are spaced out and end", "statement": "At most one goroutine writes a backup; the backup file is never partial, also if the manager is killed at any time; between backups there are at least max(30s, duration of the previous one), and no more; close() does not wait forever.", "quantifier": "all interleavings, all durations", "why_tests_cant": "All interleavings; times of hours.", "anchors": ["jobqueue/db.go: backgroundBackup, backupToBackupFile, close"]}
{"id": "C80", "title": "A lost or corrupt database is recreated from the backup", "statement": "initDB opens the database if it can; if it is missing or corrupt, it is recreated from the backup, which is left as it is; a new one is made only if there is neither.", "quantifier": "all states of the two files, and of downloads and copies", "why_tests_cant": "Combinations of the states of files, failures of S3.", "anchors": ["jobqueue/db.go: initDB"]}
{"id": "C81", "title": "Completed jobs are found by the rep group they were added under", "statement": "Getting jobs by rep group lists exactly the completed jobs added under that rep group that are not being run again, each once, in order of time; names of rep groups, even with the delimiter of the lookups in them, are not confused; what once completed stays listed.", "quantifier": "all histories of adds, archives, deletions, modifications and restarts; all names of rep groups", "why_tests_cant": "All strings as names; histories in which a job is run again, modified, added under other rep groups.", "anchors": ["jobqueue/db.go: prepareNewJobs, generateLookupKey, retrieveCompleteJobsByRepGroup, modifyLiveJobs", "jobqueue/server.go: getDBJobsByRepGroup"]}
{"id": "C82", "title": "The last completion time of a rep group is the latest end time of its jobs", "statement": "GetLastCompletionTimeByRepGroup gives, for every matching rep group with completed jobs, the latest end time of any job ever archived in it.", "quantifier": "all histories, all patterns", "why_tests_cant": "All orders of completions, and re-runs.", "anchors": ["jobqueue/db.go: archiveJob, retrieveLastCompletionTimeByRepGroup", "jobqueue/server.go: getLastCompletionTimeByRepGroup"]}
{"id": "C83", "title": "Queued jobs are found by their rep group, and only those", "statement": "Every job in the queue is listed, once, for its rep group, after any adds, updates, modifications, archives, deletions and restarts, and no other job is listed for it.", "quantifier": "all histories", "why_tests_cant": "The lookup is kept by five different pieces of code.", "anchors": ["jobqueue/server.go: rgToKeys, enqueueItems, getQueueJobsByRepGroup, deleteJobs", "jobqueue/serverCLI.go: jarchive, jmod"]}
{"id": "C84", "title": "Searches by part of a rep group give the jobs of all matching rep groups", "statement": "substr, prefix and suffix mean what they say; a search lists all queued and completed jobs of the matching rep groups; the two requests (getbr, getin) agree on the incomplete jobs and list each once.", "quantifier": "all histories, names and patterns", "why_tests_cant": "All strings; agreement of two implementations, one by lookups and one by scanning.", "anchors": ["jobqueue/client.go: RepGroupMatches", "jobqueue/server.go: getJobsByRepGroup, getRepGroupsList, getJobsCurrent"]}
{"id": "C85", "title": "A failed add adds nothing, a successful one all", "statement": "If adding jobs succeeds all are queued, recorded and found under the given rep groups; if it fails none is.", "quantifier": "all histories and rep groups", "why_tests_cant": "Rep groups that the database refuses: the failure shows itself only after a restart.", "anchors": ["jobqueue/db.go: storeNewJobs", "jobqueue/server.go: createJobs"]}
{"id": "C86", "title": "The limit of a limit group is the last one set", "statement": "Whatever was set, by adding or modifying jobs or by GetOrSetLimitGroup, the limit in force is the last one given, also after restarts of the manager; a group that was never given one is unlimited and is reported as -1; setting -1 makes it unlimited.", "quantifier": "all histories of requests, all group names", "why_tests_cant": "Histories over two stores (database and memory) of which one forgets groups.", "anchors": ["jobqueue/server.go: getSetLimitGroup, storeLimitGroups, handleUserSpecifiedJobLimitGroups", "jobqueue/db.go: storeLimitGroups, retrieveLimitGroup", "limiter/limiter.go: SetLimit, GetLimit, vivifyGroup"]}
{"id": "C87", "title": "No more jobs of a group run than its limit", "statement": "A job starts only if fewer jobs of each of its groups run than the limit in force, and does start if so; never more run than the highest limit that was given.", "quantifier": "all histories of requests by any number of clients, changes of the limit and restarts included", "why_tests_cant": "Unbounded histories in which groups are forgotten and found again in the database.", "anchors": ["jobqueue/serverCLI.go: reserve", "jobqueue/server.go: limiter, getSetLimitGroup", "limiter/limiter.go: Increment, Decrement"]}
{"id": "C88", "title": "The listed limits are those in force", "statement": "GetLimitGroups returns all limit groups that have a limit, with the limits in force.", "quantifier": "all histories of requests", "why_tests_cant": "All histories.", "anchors": ["jobqueue/serverCLI.go: getlgs", "limiter/limiter.go: GetLimits, vivifyGroup, Decrement"]}
{"id": "C89", "title": "Jobs are in the limit groups they were given", "statement": "After adding or modifying jobs each is in exactly the groups it was given, without limit suffixes, sorted and without duplicates, also if jobs share one slice of groups; the limit stored for a group is the last one specified.", "quantifier": "all lists of jobs and groups, all ways of sharing slices", "why_tests_cant": "Aliasing: the slice is rewritten in place while other jobs hold it.", "anchors": ["jobqueue/server.go: handleUserSpecifiedJobLimitGroups, createJobs", "jobqueue/serverREST.go: Convert", "jobqueue/job.go: Modify", "internal/utils.go: DedupSortStrings"]}
{"id": "C90", "title": "A runner starts no job it lacks the time for", "statement": "A runner with a maximum time starts a job only if, when it asked for the job, the job's time requirement still fitted; if the requirement differs from the previous job's, also if it fitted once the job was reserved. No job is started that cannot end in time.", "quantifier": "all sequences of replies, clocks and time requirements", "why_tests_cant": "Depends on how long each reservation waits and on the requirement of the previous job.", "anchors": ["cmd/runner.go: runnerCmd"]}
{"id": "C91", "title": "A job runs with its own environment, and can find wr and its manager", "statement": "A job executed by a runner has its own variables; WR_MANAGERHOST, WR_MANAGERPORT and WR_MANAGERCERTDOMAIN are those of the manager; PATH is its own, with the runner's directory added at the end if missing.", "quantifier": "all sequences of jobs one runner executes, all environments and overrides, all map orders", "why_tests_cant": "Depends on the jobs the same runner executed before and on the order maps are walked.", "anchors": ["cmd/runner.go: runnerCmd", "jobqueue/job.go: Env, EnvAddOverride"]}
{"id": "C92", "title": "A reserved job is executed or released", "statement": "If no job has an environment entry PATH without a value, a runner executes or releases each job it reserves, once, before it reserves another, releases and executes no other jobs, and does nothing after a release.", "quantifier": "all sequences of replies, failures and clocks", "why_tests_cant": "Every path through the loop, including all failures.", "anchors": ["cmd/runner.go: runnerCmd"]}
{"id": "C93", "title": "A REST DELETE of deletable jobs removes what was asked for and nothing that runs", "statement": "DELETE /rest/v1/jobs/ with state=deletable removes only jobs the request names (by key, by rep group, or all), none of them running, and with no job left in the queue that waits for one; named jobs whose dependants are all named too are removed; the answer lists exactly the removed jobs.", "quantifier": "all histories of requests, all ids, limits and map orders", "why_tests_cant": "All queue contents and dependency graphs; the filter is applied to a state that has been rewritten on the way.", "anchors": ["jobqueue/serverREST.go: restJobsCancel, restJobsStatus", "jobqueue/server.go: deleteJobs, limitJobs, matchesStateFilter"]}
{"id": "C94", "title": "A REST DELETE of running or lost jobs acts on jobs in that state only", "statement": "DELETE /rest/v1/jobs/ with state=running tells exactly the named jobs that run and are in touch to stop, with state=lost declares exactly the named lost jobs dead, and changes nothing else; the answer lists exactly the jobs acted on; other states are refused.", "quantifier": "all histories of requests, all ids, limits and map orders", "why_tests_cant": "All queue contents, and ids that can be keys or rep groups.", "anchors": ["jobqueue/serverREST.go: restJobsCancel, restJobsStatus", "jobqueue/server.go: killJob, getJobsByKeys"]}
{"id": "C95", "title": "Nothing happens without the token", "statement": "A request over http without the server's token changes nothing and is answered the same whatever the server's state, unless it is for the version or a static document; with the token it is carried out. A client's request is considered if and only if it has the token or is a ping.", "quantifier": "all requests, all states, whatever the handlers do", "why_tests_cant": "A statement about all requests and states.", "anchors": ["jobqueue/serverREST.go: httpAuthorized", "jobqueue/serverWebI.go: webInterfaceStatic, webInterfaceStatusWS", "jobqueue/serverCLI.go: handleRequest", "jobqueue/utils.go: tokenMatches"]}
{"id": "C96", "title": "A posted job has its own settings, and the request's where it has none", "statement": "A job described in JSON gets each setting from its own description if it has one there, otherwise from the request's parameters, otherwise the documented default; empty texts and lists, and false, count as having none. The requirements group is the program's name if none is given.", "quantifier": "all job descriptions, all defaults and parameters", "why_tests_cant": "About forty settings, each with three sources; all combinations of them.", "anchors": ["jobqueue/serverREST.go: JobViaJSON.Convert, JobDefaults, restJobsAdd"]}
{"id": "C97", "title": "Posted jobs are added all or not at all", "statement": "If anything in a request that posts jobs cannot be used (a parameter, the body, one job's settings), the answer is 400 and nothing is added; otherwise all jobs are added.", "quantifier": "all requests, all server states", "why_tests_cant": "All combinations of good and bad jobs and parameters.", "anchors": ["jobqueue/serverREST.go: restJobsAdd, JobViaJSON.Convert, urlStringToInt, urlStringToFloat"]}
{"id": "C98", "title": "The answer to posted jobs tells which are in the queue", "statement": "The answer to a request that posts jobs has exactly those of its jobs that are in the queue afterwards, in their order: all of them, except complete jobs if the request does not ask for a rerun. No job leaves the queue by it.", "quantifier": "all reachable server states, all requests", "why_tests_cant": "Any history of the server before the request.", "anchors": ["jobqueue/serverREST.go: restJobsAdd", "jobqueue/server.go: inputToQueuedJobs, createJobs"]}
{"id": "C99", "title": "Retrying puts exactly the named buried jobs back in the queue", "statement": "Retry on the status page (for a rep group, exit code and fail reason, or for a key) and wr retry put exactly the buried jobs they are about back in the queue, ready or dependent, with all of their tries; nothing happens to any other job, and nothing in the database changes.", "quantifier": "all reachable server states, all requests, all map orders", "why_tests_cant": "Any history of the server, any mixture of states among the jobs named.", "anchors": ["jobqueue/serverWebI.go: webInterfaceStatusWS, reqToJobs", "jobqueue/server.go: kickJobs"]}
{"id": "C100", "title": "Removing on the status page never takes a running job or strands another", "statement": "Remove on the status page takes only jobs it is about that are not running, and none that a job still in the queue waits for; jobs it is about all go if whoever waits for them goes too. Other jobs are as before, and what was removed is not live in the database.", "quantifier": "all reachable server states, all requests, all map orders", "why_tests_cant": "Any history and any dependencies between the jobs.", "anchors": ["jobqueue/serverWebI.go: webInterfaceStatusWS, reqToJobs", "jobqueue/server.go: deleteJobs"]}
{"id": "C101", "title": "Killing reaches exactly the named running jobs, or those of dead hosts", "statement": "Kill on the status page tells exactly the running jobs it is about to stop, and those of them that were lost run no more. Confirming hosts as dead does so for exactly the jobs that run on these hosts, and reports exactly them. Other jobs are as before.", "quantifier": "all reachable server states, all requests, all hosts, all map orders", "why_tests_cant": "Any history; running and lost jobs on any hosts.", "anchors": ["jobqueue/serverWebI.go: webInterfaceStatusWS, reqToJobs", "jobqueue/server.go: killJobsOnServers, killJob"]}
{"id": "C102", "title": "The counts of the status page are right", "statement": "On connecting, the status page is told for each state that a job of the queue is in how many jobs are in it, reserved ones counting as running.", "quantifier": "all reachable server states, all map orders", "why_tests_cant": "Any history of the server.", "anchors": ["jobqueue/serverWebI.go: webInterfaceStatusSendGroupStateCount, webInterfaceStatusWS"]}
{"id": "C103", "title": "The status page adds up what it is told", "statement": "Once all messages about changes of state have reached the status page, it shows for each rep group and state the number of jobs that went to the state less those that left it, in whatever order the messages came.", "quantifier": "all lists of messages, all orders", "why_tests_cant": "Any number of messages in any order.", "anchors": ["jobqueue/static/js/wr/websocket-handler.js: handleStateChangeMessage", "jobqueue/server.go: jstateCount"]}
{"id": "C104", "title": "The messages to the status page account for every change of state", "statement": "The messages the server sends for a change of state add up, for each rep group and for all jobs, to the jobs that went to a state less those that left it; over any history of the queue those for all jobs add up to the number of jobs in each state.", "quantifier": "all notifications, rep groups and lost jobs; all histories of the queue", "why_tests_cant": "Any history; callbacks that run late.", "anchors": ["jobqueue/server.go: SetChangedCallback in createQueue"]}
