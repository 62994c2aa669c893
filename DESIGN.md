# Formal model of wr (VertebrateResequencing/wr) in Rocq

The repository's Go sources (`/repo`) are read as text; nothing is built or
run. `rocq/theories` contains, for each modelled package,

* a *model* file (`*Model.v`): computable Gallina definitions, each with a
  comment citing the file and lines it models and any simplification;
* *proof* files (`*Proofs.v`, `*Inv.v` ...): lemmas;
* a *specification* file (`*Spec.v`): the small vocabulary used in the
  statements, independent of how the model computes;
* a *properties* file (`*Props.v`): only the property theorems, each closed by
  `exact`, followed by `Print Assumptions`, and beside each a concrete
  non-trivial instance of its hypotheses.

A property that the faithful model violates gets a `..._refuted` theorem with a
concrete witness history, plus the strongest restricted statement that holds,
named `..._partial`.

## Modelling decisions

* **Go panics** (index out of range, nil dereference) are modelled: an operation
  returns `None` when the Go code would panic.
* **Pointers**: queue items are identified by an integer (the item's `iid`,
  which the code also has); `queue.items`, the sub-queues and the dependants
  map hold identities, item records live in a separate store, so aliasing and
  stale references are visible.
* **Locks**: each queue/limiter operation holds the package's mutex from start
  to end, so operations are atomic steps; a blocking Reserve/Increment is one
  attempt, then (later, after other steps) further attempts. Background
  goroutines (delay and TTR processing) are steps that may happen at any time.
* **Time**: integers, supplied by the environment with each step.
* **Go map iteration order**: supplied by the environment as an argument, so
  theorems hold for every order.
* **Go's container/heap** is part of the model (`GoHeap.v`), written from the Go
  standard library's algorithm.

## Plan per property

| id | what is modelled | how it is proved |
|----|------------------|------------------|
| C01 | queue package at pointer/array/index level | inductive invariant over all operation lists |
| C02 | same | heap invariant per reserve group; counterexample for `subQueue.update` acting on the last used group |
| C03 | same | trace property from the state invariant |
| C04 | dependency bookkeeping in the same model | invariant on unresolved sets; counterexample via Kick |
| C05 | same | invariant linking unresolved sets and the dependants map |
| C06 | same | per-step frame lemmas, induction |
| C07 | Add/AddMany | direct + induction over the list |
| C08, C09 | delay/TTR processing loops over the heaps | loop invariant with heap order |
| C10 | guards of each operation | case analysis, frame |
| C11 | ChangeKey | frame + renaming lemma |
| C12 | Update | refuted (only one of delay/priority/ttr is applied); partial |
| C13 | closed flag in the same model | induction |
| C14 | counters | ghost history, induction; refuted where release counts as time-out |
| C15 | emitted changed events | invariant: sum of events = sub-queue sizes |
| C16 | readyAdded state machine | invariant over schedules |
| C17 | container/heap | heap correctness for an arbitrary order |
| C50 | the two goroutines' wake-up times in the queue model of C01-C15 | invariant over histories: every call that sets a time either keeps it after the wake-up time or passes the loop top; partial, refuted for Update |
| C18-C22, C47 | limiter package: every method, the waiting Increment as a thread, the name parser | invariants over histories; printer/parser equivalence for names; refutations |
| C23-C25, C48, C49 | rp package as a step machine: every goroutine's steps between two locks | invariants over schedules; refutations |
| C26-C30 | server request handlers over the queue model of C01-C15 and the database buckets, crashes between any two durable writes | effect of each request on one job, invariants over histories; with the limiter model for C30; refutations |
| C31 | pause counter and requests interleaving at its lock | invariants over interleavings; refutations |
| C32 | the same server model: deleteJobs round by round | the lookup of dependants is exact (invariant over histories), rank argument for the rounds; refuted for circles |
| C46 | the same server model: storing, lookups, updates of dependencies | invariant over histories relating lookups, records and what queued items wait for; partial, with refutations for changed groups, torn adds, ignoreComplete and kicks |
| C33 | the listing functions as pure functions | invariant of the groups over the jobs met; order of the groups an oracle |
| C35, C36 | group counts; Schedule as a step machine of overlapping calls | closed form by induction; invariants over schedules, a rank for termination; refutations |
| C34, C51 | the output saver and the progress bar filter, byte by byte | invariant of the ring buffer over writes; induction on lines |
| C38-C40, C43, C44 | the helpers as pure functions, int64 wrap-around where it can occur | arithmetic, induction on lists |
| C37, C52 | local scheduler: passes over the queue, claims, ends; the counts of one command | invariants over schedules; refutations |
| C53 | requests and callbacks as goroutines that set and clear the flags | invariant over schedules, termination measure; refutations |
| C54 | as C37 | induction over histories |
| C55 | storing of values by key in a sorted bucket, the cursor, float32 windows, rounding | order of padded numbers, contiguity of prefixes, an invariant of the scan; refutations |
| C56 | the pass's changes to one job's requirements | induction over histories; refutations |
| C57 | the counting of jobs by group and what is told to the scheduler | closed forms by induction over jobs, then over passes; refutations |
| C58 | the request jmod, Modify, modifyLiveJobs on the server's state | invariant of the loop over jobs, renaming of queue items as a relation, induction over the changed keys; refutations |
| C59 | cloud/server.go: space, Allocate, Release | invariant over schedules: what is used is the sum over live allocations |
| C60 | the same with goroutines as phases, the mutex and the channel | counting invariant over goroutines, progress, decreasing weight; refutations |
| C61 | client.go Execute as three interleaved goroutines, what the machine and the manager do as labels | invariant linking flags to labels; report decided from them |
| C62 | the same | control invariant over channels and mutexes, decreasing weight; shape of the log; refutations |
| C63 | the same | invariant from the kill on; refutations |
| C64 | behaviours.go Trigger, and the same | lists; shape of the log; refutations |
| C65 | cmd/runner.go:249-266, and the same | shape of the log; refutation |
| C66 | cloud.go CheapestServerFlavor(s), openstack.go determineFlavor; regular expressions and map orders as arguments | induction over flavors and sets |
| C67 | openstack.go initialize, reqCheck, reqForSpawn, checkQuota, spawnMultiple | from C66 and arithmetic; refutations |
| C68 | openstack.go spawnMultiple and spawn as goroutines interleaved with passes | invariants over runs; refutations |
| C69 | lsf.go initialize: defaults, ranking and sorting of queues; map orders as arguments | loop invariant: rank = number of better values; C39 |
| C70 | lsf.go determineQueue, maxQueueTime | induction over the list of queues, C69; refutations |
| C71 | lsf.go schedule, checkCmd, parseBjobs up to the calls of bkill and bsub; jobName with the hash as an argument | induction over the lines of bjobs; refutations |
| C72 | lsf.go generateBsubArgs, parseUserArgs, Validate; float32 by integers; shellwords and bsub's verdict as arguments | induction over words, arithmetic; refutations |
| C73 | behaviours.go: what triggers, String, BehaviourViaJSON; encoding and decoding JSON as the identity | closed form of the fold, permutations; refutations |
| C74 | the behaviours of serverREST.go Convert and job.go Modify; RemovalRequested | closed form of the fold; refutations |
| C75 | config.go: loading and merging files, sources, the deployment; configor after its documentation; reading files as an argument | induction over the list of files; refutations |
| C76 | config.go: paths relative to the manager's directory, ports | computation on the adjusted fields, arithmetic; refutations |
| C77 | config.go ToEnv, then loading it again elsewhere | the adjustments are idempotent on absolute paths; refutations |
| C78 | db.go backgroundBackup, backupToBackupFile, close as goroutines interleaving at the lock, channels and file operations | invariant: the changes are in the backup or some goroutine will put them there; refutation |
| C79 | the same, with time | invariant, measure; refutation |
| C80 | db.go initDB as a function of the states of the files | cases; with C79 for a manager that is killed; refutations |
| C81 | lookup strings in bolt's buckets, with the cursor's walk; adds, archives, deletions, modifications, restarts | refinement of the strings to pairs of rep group and key, by the fixed length of keys; invariants over histories; refutations |
| C82 | the same, bucketRGEndTime | invariant over histories: maximum of the log of completions |
| C83 | the same with the queue's items and s.rpl | invariants over histories; refutation |
| C84 | RepGroupMatches, getRepGroupsList, getJobsByRepGroup, getJobsCurrent | by C81-C83, strings by induction; refutation |
| C85 | the storing of lookups with bolt's limits on keys | from the invariants; refutation |
| C86 | limits in the database and in the limiter; requests that set, ask, try, finish; restarts | invariant relating the two stores, over histories; refutations |
| C87 | the same | invariant: what is counted is what runs; refutations |
| C88 | the same | from the invariant; refutation |
| C89 | arrays of strings and slices into them; the loop over jobs | invariant over the heap: an array holds the groups given or what is left of them; refutation |
| C90 | the loop with the clock, the replies and the failures of each turn as arguments | invariant: the time kept is the previous job's; refutation |
| C91 | the overrides that grow from turn to turn; the environment from UtilModel | invariant: the manager's overrides and then entries for PATH; refutations |
| C92 | what the loop does, in order | induction over turns; refutation without the condition |
| C93 | the request over the server state of ServerModel, the listing of ListModel | what the listing lets through; deletion as for C32; refutation on a reachable state |
| C94 | the same, with killJob | loop invariant over the jobs found; refutations on reachable states |
| C95 | httpAuthorized, the handlers that call it first, the first case of handleRequest | case analysis; answers compared across states |
| C96 | Convert with all of its settings, and the parameters of the request | case analysis against tables of settings; refutation |
| C97 | restJobsAdd; parsers of numbers, durations and JSON are arguments | induction over the jobs; refutations |
| C98 | restJobsAdd on the server of ServerModel | what an add request does to a reachable state (C46) |
| C99 | requests of the status page, kickJobs | invariant of reachable states; induction over the jobs kicked |
| C100 | requests of the status page, deleteJobs | invariant; induction over rounds of deletions |
| C101 | requests of the status page, killJobsOnServers; hosts of jobs are an argument | invariant; induction over the jobs killed |
| C102 | counts by state of the current jobs | induction over the list of jobs |
| C103 | the page's handling of messages | invariant of each count and what is ignored of it; refutations |
| C104 | the changed callback | counting; induction over notifications, with C15 |
| C41 | bsubresource tokeniser, parser, printer | round trip by induction on the AST |
| C42 | removal on a tree model | induction on trees |
| C45 | key construction, hash as an injective oracle | string reasoning, counterexample by concatenation |

## Trusted base

* Coq 8.16.1's kernel, with its `vm_compute` virtual machine (used for the
  witnesses of refutations and for the examples).
* Axioms: none. `Print Assumptions` under every property theorem prints
  "Closed under the global context". std++ and coq-record-update are used as
  libraries; no axiom of theirs is reached.
* The reading of the Go text: no link between the Go code and the model is
  checked by machine. Every model definition cites the lines it was read from.

## What is modelled and what is not

| file | models | left out |
|------|--------|----------|
| `GoHeap.v` | Go `container/heap` Push, Pop, Remove, Fix over a slice with back indexes | - |
| `QueueModel.v` | `queue/queue.go`, `queue/item.go`, `queue/subqueue.go`, `queue/bury_queue.go`, `queue/dependency_queue.go`: New, Add, AddMany, Get, Stats, GetRunningData-like reads, Update, SetDelay, SetReserveGroup, ChangeKey, Reserve, Touch, Release, Bury, Kick, Remove, HasDependents, Destroy, the delay and TTR processing passes | logging, channels that wake waiting goroutines (a wake-up is a step that may happen at any time), the remaining/elapsed time fields of Stats |
| `ReadyModel.v` | readyAdded / TriggerReadyAddedCallback of `queue/queue.go` as threads interleaving at the two mutexes | the user's callback body |
| `LimiterModel.v` | `limiter/limiter.go` (all methods; a waiting Increment is a thread that is notified through channels), `limiter/group.go` | `GetLimit`'s pointer aliasing (a copy is returned), int64 overflow |
| `LimitNameModel.v` | `limiter/group.go` NameToGroupData and its seven parsers, secondsInDay | `time.ParseInLocation`'s zone arithmetic (an oracle); `strconv.ParseInt`, `time.Parse` by contract |
| `RpModel.v` | `rp/protector.go`, `rp/request.go`: Request, WaitUntilGranted, Granted, Touch, Release, Shutdown, process, reprocess, the goroutine of a granted request, the time-out goroutines, all interleaved at their locks and channel operations | uuid errors; receipts are numbered in order of creation; the callback is an argument of each process() |
| `ServerModel.v` | the job state transitions of `jobqueue/serverCLI.go` (add, reserve with limits, jstart, jtouch, jarchive, jrelease, jbury, jkick, jdel, jkill), `jobqueue/server.go` (createJobs, enqueueItems, updateJobDependencies, releaseJob, killJob, deleteJobs, kickJobs, the TTR callback, recovery in Serve), `jobqueue/db.go` (storeNewJobs with prepareNewJobs, archiveJob, deleteLiveJobs, recoverIncompleteJobs, retrieveDependentJobs, write-behind updates), `jobqueue/job.go`, `jobqueue/dependency.go`, on top of `QueueModel.v` (the same queue code). A crash cuts the request being served between any two durable writes and drops the writes that had not landed | jmod, the scheduler and the runners, resource learning, environments, std out/err, behaviours, the web interface; requests are atomic steps except for crashes; database errors other than a crash |
| `StreamModel.v` | `jobqueue/utils.go` prefixSuffixSaver, stdFilter | reader and writer errors |
| `UtilModel.v` | `jobqueue/utils.go` reqForScheduler, calculateItemDelay, envOverride; `jobqueue/job.go` Env, EnvAddOverride, Getenv, Key of Job and JobEssence; `jobqueue/mount.go` MountConfigs.Key; `jobqueue/db.go` storeBatched; `internal/utils.go` SortMapKeysByIntValue, SortMapKeysByMapIntValue, DedupSortStrings | the hash (a function, assumed injective where said), encoding and compression (faithful), floating point of the backoff library (exact for the values used) |
| `ListModel.v` | `jobqueue/server.go` limitJobs and its helpers (2602-2793) | filling in of output and environment |
| `GroupModel.v` | `jobqueue/server.go` sgroup.decrement, decrementGroupCount; `jobqueue/scheduler/scheduler.go` Schedule with its limiter and recall goroutines | what impl.schedule does; requirements |
| `LocalModel.v` | `jobqueue/scheduler/local.go` canCount, the claims of runCmd and recover, the passes of processQueue with their waiting and recall; schedule, processQueue and the end of a command for one key | floating point of cores (exact here), order of the queue, priorities, clean-up |
| `BsubModel.v` | `bsubresource/` tokeniser, parser, printer and the replacement of values | what LSF itself does with the text |
| `CleanModel.v` | `jobqueue/utils.go` removeAllExcept, removeWithExceptions, rmEmptyDirs; `jobqueue/behaviours.go` cleanup | permissions and other failures of the file system, symbolic links in the paths, other processes changing the tree meanwhile |
| `PauseModel.v` | `jobqueue/server.go` Pause, Resume, Drain, shutdown (its state); `jobqueue/serverCLI.go` the requests pause, resume, drain, shutdown, jmod and reserve as goroutines interleaving at ssmutex | what is modified or reserved; the waiting for the ready added callback |
| `WaitModel.v` | `jobqueue/server.go` and `serverCLI.go` racPending, racRunning, waitingReserves: the reserve, add and kick requests, the ready added and changed callbacks, Pause and Resume, interleaved at their locks | what the callbacks do otherwise, the timer that triggers the callback each minute when there are runners and ready jobs, shutdown |
| `LearnModel.v` | `jobqueue/db.go` recommendedReqGroupStat and the stored values it reads; `jobqueue/server.go` the ready added callback's changes to a job's requirements (1331-1455) | errors of bolt other than "no recommendation"; float64 (taken to be exact; float32 is modelled) |
| `RacModel.v` | `jobqueue/server.go` the ready added callback's counting of jobs by scheduler group and its calls of scheduleRunners (1460-1576) | setting of the reserve group, the timer that repeats the pass, order of the goroutines that call Schedule |
| `ModModel.v` | `jobqueue/serverCLI.go` jmod (470-601), `jobqueue/job.go` Modify (1257-1423), `jobqueue/db.go` modifyLiveJobs (1195-1318) | values that ServerModel.v does not keep, the pausing (C31), limits given with the names of limit groups, lookups by rep group, errors of the database |
| `CloudModel.v` | cloud/server.go: Flavor, HasSpaceFor, checkSpace, Allocate, Release with its goroutine, Destroy up to setting destroyed | floating point, ssh, the provider, IsBad/GoneBad, cancelRunCmd |
| `ExecModel.v` | client.go Execute, behaviours.go Trigger, cmd/runner.go:249-266 | peaks found after the end, output, disk usage, messages of errors; preparations are steps that work or fail |
| `FlavorModel.v` | cloud.go 500-642, openstack.go 268-330, 398-530, 625-850 | regular expressions, the cache of determineFlavor, messages |
| `SpawnModel.v` | openstack.go 625-710, 855-1050, 1218-1250, cloud/openstack.go 774-950 | what happens between creation and ready is one step; minimum disk of images; changes in what others use |
| `LsfModel.v` | lsf.go 82-401 (ranking), 455-840; scheduler.go 367-376, 424-433 | reading the output of bqueues, bmgroup and lsadmin; running bsub, bkill, bjobs; waiting for jobs to appear |
| `BehaveModel.v` | behaviours.go 37-177, 275-307 (arguments), 315-445; serverREST.go 396-410; job.go 1384-1398 | encoding of JSON; what the actions do (see CleanModel.v) |
| `ConfigModel.v` | internal/config.go 93-620 | YAML parsing; the inside of configor; looking for free ports and writing them to files |
| `BackupModel.v` | db.go 105-130, 143-271, 1569-1747 | the content of the database; waiting for transactions; S3 by contract |
| `RepModel.v` | db.go 453-787, 839-977, 1195-1317; server.go 188-229, 1840-1941, 2201-2261, 2420-2602 (rep groups only); client.go 142-165 | hashing, dependencies (given), limitJobs, batches of 1000 lookups, deleting within bolt's ForEach |
| `LimitStoreModel.v` | server.go 1947-1979, 3060-3083; db.go 366-431; serverCLI.go 706-720; group.go 222-228 (and limiter.go through `LimiterModel.v`) | int64 overflow (names are parsed within it), failures of bolt other than of its limits on keys |
| `LimitShareModel.v` | server.go 1871-1889, 1947-1963; serverCLI.go 531-534 | slices that do not start at the beginning of their array |
| `RunnerModel.v` | cmd/runner.go 145-268 | logging, connecting, a release that fails (only warned of), overflow of times |
| `RestModel.v` | serverREST.go 551-581, 643-727, 888-937; serverWebI.go 122-136; serverCLI.go 57-61 | adding jobs over REST, the bodies of the other handlers, database errors, changes by others in the middle of a request, timing |
| `ConvertModel.v` | serverREST.go 58-546, 729-881, 1119-1169; server.go 2149-2165 | parsing and JSON decoding (arguments), compression of environments, caches of JobDefaults; cores are thousandths |
| `WebModel.v` | serverWebI.go 253-257, 356-370, 469-534; server.go 2276-2311 | the websocket, details of jobs, messages, later changes of state |
| `PageModel.v` | server.go 232-239, 1639-1692; websocket-handler.js 63-154 | that messages are broadcast and can be lost, the counts sent on connecting (C102), details of jobs sent to subscribers |

## Findings

Each is a theorem with a concrete history (in `*Props.v`).

* `C01_refuted`, `C03_refuted`: `Update` with an explicitly empty dependency
  list calls `depQueue.remove` for any item with unresolved dependencies, also
  for one that is not in that sub-queue (queue.go Update). The item is then in
  two sub-queues, another item is in none, and a running item can be reserved a
  second time.
* `C01_no_panic_refuted`, `C02_refuted`: `subQueue.update` (subqueue.go) fixes
  the heap of the group that was last used rather than the item's own. A
  priority change can leave the group's heap out of order, so that Reserve
  returns a worse item, or panic with an index out of range while the queue's
  mutex is held.
* `C04_refuted`: `Kick` decides by "does one of the item's dependencies exist in
  the queue"; an item waiting for a key that has not been added yet becomes
  ready and is reserved.
* `C05_refuted`: with the same test, an item whose resolved dependency's key has
  been added anew goes to the dependent sub-queue with nothing left to wait
  for, and stays there.
* `C05_clobbered_refuted`: `ChangeKey(old, new)` overwrites `dependants[new]`,
  so items already waiting for `new` are never released.
* `C12_refuted`: `Update` applies only the first of: delay change,
  priority/group change, TTR change.
* `C14_refuted`: `Release` of an item without delay counts a timeout instead of
  a release.
* `C15_refuted`: `Destroy` empties the sub-queues without calling the changed
  callback.
* `C18_duplicate_refuted`: `Increment` given a name twice checks twice, then
  increments twice: a group with one free place ends above its limit.
* `C19_changing_callback_refuted`: `incrementGroups` asks the callback again for
  groups that had no limit when checked; a limit stored meanwhile is counted
  without having been checked.
* `C20_remove_refuted`: `RemoveLimit` forgets what is running; a limit set later
  starts at zero.
* `C21_window_refuted`, `C21_closed_refuted`: `GetRemainingCapacity` uses -1 both
  for "unlimited" and as its initial value: an open time window listed after
  another group resets the minimum.
* `C22_overnight_refuted`: "22:30:00<time<00:30:00" is open from 00:30 to 22:30.
* `C22_clock_change_refuted`: `secondsInDay` is elapsed time since midnight, an
  hour off on days the clocks change.
* `C47_raise_refuted`, `C47_remove_refuted`: raising or removing a limit does not
  wake those waiting for it.
* `C23_shutdown_refuted`: `Shutdown` sets usedTokens to 0 and leaves the pending
  requests; they are then granted above the maximum (also `C25_shutdown_refuted`).
* `C23_negative_refuted`: `Request(-1)` is accepted; returning its tokens puts the
  others above the maximum.
* `C24_apart_refuted`: two `reprocess` goroutines can both pass the delay check
  before either `process` runs; two grants at the same moment.
* `C25_touch_overtaken_refuted`: a touch not received before the time-out may lose
  the race in the select.
* `C25_touch_deadlock_refuted`: `touch` holds r.mu while it sends on a full
  channel; the goroutine that would read it has chosen its time limit and waits
  for r.mu in `finish`. The tokens are never returned.
* `C48_cancel_refuted`: when the request at the head is cancelled nobody looks at
  the next one, even if it fits.
* `C49_stuck_refuted`: two `WaitUntilGranted` with a time-out for one receipt, then
  `Release`: the second time-out goroutine blocks on the full cancel channel with
  p.mu held, and the protector does nothing any more.
* `C26_refused_archive_refuted`: a jarchive that the server refuses (exit code not
  0) has already recorded the exit; when the client then goes silent, the TTR
  callback sends the job to the delay queue without counting the attempt.
* `C26_crash_refuted`: UntilBuried is written behind; a crash before the write
  lands gives the job another attempt.
* `C26_resurrected_refuted`: a complete job that is put back because a job was added
  to a group it depends on keeps the UntilBuried of its first run.
* `C28_restart_refuted`: ReservedBy is written behind too; after a crash the
  previous client is believed to hold the job and the real one is refused.
* `C28_add_moves_running_refuted`, `C30_touched_leak_refuted`: `updateJobDependencies`
  replaces the job of a queue item by the one in the database, also when the job is
  running: the item becomes dependent while its command runs, its client is refused,
  and what it had incremented in its limit groups is never decremented.
* `C30_restart_leak_refuted`: recovery increments the limit groups of jobs recorded
  as running, also those that have exited, for which nothing decrements again.
* `C50_refuted`, `C50_run_refuted`: Update restarts the delay or TTR of an item without
  telling the goroutine: an item whose delay is shortened becomes ready only at the
  end of the old delay. (The clock reading of a call and of the trigger it makes
  are one in the model.)
* `C32_delete_circle_refuted`: jobs that wait for each other in a circle, or one that
  depends on a group it is in, are accepted by add, never run, and cannot be deleted:
  `deleteJobs` skips every job that has dependants, also if these are to be deleted
  too.
* `C46_kicked_refuted`: a buried job that depends on another by key, which was added
  again in the meantime, is made dependent by a kick but registered with nobody: it is
  never released.
* `C46_phantom_refuted`: prepareNewJobs enqueues all requested jobs, not only the kept
  ones, when it also restores dependants: a complete job named in a request with
  ignoreComplete is in the queue without a record, and jobs added later do not wait for it.
* `C46_torn_refuted`: a crash while jobs, lookups and reverse lookups are stored by
  concurrent batches leaves a job whose groups nobody can find.
* `C46_former_refuted`: the lookups of former dependency groups are never removed.
* `C30_tilde_refuted`: `schedGroupToLimitGroups` splits at "~"; a limit group with a
  tilde in its name disables all limits of the job.
* `C51_after_last_return_refuted`, `C51_dos_newline_refuted`: `stdFilter` never writes
  the part of a line after its last carriage return: the last state of a progress bar
  is lost, and text with DOS line ends is joined into one line.
* `request_overflow_refuted`, `request_more_memory_refuted`: `reqForScheduler` wraps
  around in the last half hour of an int64; a job asking for 924MB is scheduled with
  less memory than one asking for 923MB.
* `dedup_input_kept_refuted`: `DedupSortStrings` compacts and sorts its argument in
  place though it says it returns a new slice.
* `C43_duplicate_name_refuted`: `envOverride` replaces only the first of two entries
  with the same name; the later one is what a program sees.
* `C43_getenv_refuted`: `Job.Getenv` cuts a value at its first "=" and panics on an
  entry without "=".
* `C45_dots_refuted`, `C45_mounts_refuted`: keys join the settings with dots (mounts
  with ":", "-" and ";") without escaping, so different jobs share a key; mounts are
  sorted before the default mount point is filled in, so equal ones may differ.
* `C45_essence_container_refuted`: `JobEssence.Key` knows nothing of containers; a job
  with one cannot be found by its essence.
* `reason_filter_refuted`, `deletable_refuted`: `limitJobs` ignores a fail reason filter
  when there is no limit and no state; the "deletable" filter shows running jobs, whose
  state has been turned into "reserved" before it is compared.
* `told_count_stale_refuted`: two `decrementGroupCount` at once can schedule their counts
  in the wrong order.
* `C31_pause_lost_refuted`: a client's pause that comes during a jmod is answered and then
  undone by the end of the jmod. `C31_modify_resumed_refuted`: a client's resume takes the
  jmod's own pause away. `C31_given_while_modifying_refuted`: pausing does not wait for
  reserves under way, so a job can start to run while it is being modified.
  `C31_drain_running_refuted`: for the same reason Drain can stop with a job running.
* `C36_overtaken_refuted`, `priority_lost_refuted`: the recall of `Schedule` is a goroutine;
  a later call can overtake it, and then the older count is told last. The recall uses the
  priority of the call that was running, not of the latest.
* `C37_slow_start_refuted`, `C37_recovered_refuted`: a pass that gives up waiting after a
  minute over-commits; so do recovered commands, which claim without a check.
* `C41_cut_off_refuted`, `C41_split_bang_refuted`: input after an invalid token is silently
  dropped; "! =" with white space is read as one operator only the second time round.
* `C41_exactly_one_refuted`, `C41_compound_refuted`, `C41_reversed_refuted`: replacing adds
  nothing that was not there and keeps duplicates; in compound requirements
  (`{rusage[mem=5]}`, `4*{...}`) it writes a comparison in the wrong section or leaves the old
  memory; `500 < mem` is untouched.
* `C42_outside_never_ends`, `C42_excepted_file_refuted`, `C42_unclean_base_refuted`: a mount
  such as "." or "../x" makes the clean-up loop for ever; an exception that is a file is
  removed; a base written with a slash at its end is removed itself when empty.
* `C52_lost_after_cancel_refuted`: a command cancelled (count 0) and scheduled again while
  some are still running is removed from the queue when one of those ends: the new count
  is never run.
* `C52_failed_start_refuted`: scheduleDecrements is not adjusted when a command could not
  be started; one too many is run.
* `C53_duplicates_refuted`: `enqueueItems` and `updateJobDependencies` set racPending before
  they know whether anything will become ready. When all jobs of an add request exist
  already no callback follows, and every reserve request is held until something else
  happens to the queue (with a runner command, a timer of a minute ends it if jobs are ready).
* `C53_failed_kick_refuted`, `C53_failed_update_refuted`: the paths for failing calls clear
  the flag without closing the channels of held requests, or leave it set.
  `C53_paused_refuted`: the callback returns early on a paused server; held requests
  stay so until it is resumed.
* recommendedReqGroupStat: keys of the stored values are searched by the group's name
  without the delimiter, so a group gets the values of all groups whose name begins with
  its name, and the value met last (of the last such group) is taken for the maximum
  (C55_other_group_refuted).
* recommendedReqGroupStat: with 6 to 99 different values the recommendation is the sixth
  from the top, with six the smallest of all; and since the value is part of the key, a
  value used by a thousand jobs counts once (C55_few_values_refuted,
  C55_repeated_values_refuted).
* Ready added callback: after a failure for lack of disk the new value, which is in GB,
  is rounded up to a multiple of 100, so a job that used 1 GB asks for 100 GB
  (C56_disk_refuted).
* Ready added callback: if recommendations cannot be read, a nil pointer is dereferenced
  for jobs that failed for lack of memory, disk or time, and the manager exits
  (C56_database_error_refuted).
* jmod: dependencies on a job are kept by its key and are not changed when the job gets
  a new key, so that setting the priority of the waiting job, or a restart, makes it
  ready before the other has run (C58_dependency_lost_refuted, C58_restart_refuted).
* modifyLiveJobs: putting a job in a dependency group copies complete jobs that depend
  on the group to the live bucket, but unlike when adding jobs they are not queued; jobs
  added later that depend on these wait until the server restarts (C58_raised_refuted).
* JobModifier.Modify: sets Retries but not UntilBuried, so new retries do not count
  until the job is kicked (C58_retries_refuted).
* updateJobAfterExit and friends write behind; a job modified in between is overwritten
  on disk by its old version (C58_old_write_refuted).
* jmod and Queue.Update: the item's priority is set only if its delay is not changed;
  jmod gives no delay and reserving sets one, so the new priority of a job that has run
  is not used (C58_priority_refuted).
* jmod and Queue.Update: for a buried job that was made to depend on an unfinished one,
  removing the dependency takes the item from the dependent sub-queue, in which it is
  not; the manager panics (C58_panics_refuted).
* Server.Allocate succeeds on a server whose countdown is over but which is not yet
  destroyed (checkSpace looks at destroyed, not at toBeDestroyed): the server is
  destroyed with the command on it (C60_countdown_over_refuted).
* Server.Release's goroutine checks used cores and memory but not commands without
  cores: a command that needs neither, allocated before it runs, does not stop the
  countdown (C60_disk_only_refuted).
* A command that starts on a server counting down and ends before the cancellation is
  received leaves the server idle and never destroyed (C60_stays_refuted).
* Server.Destroy sends on cancelDestruction while holding the mutex that the receiving
  goroutine may be waiting for: both block forever, and with them every call on that
  server (C60_deadlock_refuted).
* Flavor.HasSpaceFor gives 0 for commands without cores on a flavor without cores, where
  the server itself allows 4 (C59_flavor_refuted).
* Client.Execute, upload failure after exit code 0: the job is released with reason
  `failed to upload' and exit code 0, but nil is returned and the behaviours for success
  have been triggered (C61_upload_refuted).
* Client.Execute returns without telling the manager when the pipes or the LSF links
  cannot be made (C62_told_refuted); it does not unmount when the JSON cannot be made or
  docker cannot be asked (C62_unmounted_refuted).
* A kill that arrives while Execute prepares is lost: the touching goroutine ends, the
  stop message it leaves ends the watching goroutine at once, and the command runs to
  its end, neither watched nor touched (C63_early_refuted).
* A killed command that had exceeded its memory (or for which disk or a signal was
  noted) is released and run again instead of buried (C63_memory_refuted).
* A behaviour with OnExit|OnSuccess triggers twice (C64_each_once_refuted); failure
  behaviours run for archived jobs (C64_failure_refuted).
* A runner that received a signal goes on reserving if the reason reported is time,
  memory or disk; one that lost its manager goes on if the command failed, as the error
  is then wrapped and not a jobqueue.Error (C65_stops_refuted).
* FlavorSets ending in `;' or `,' give a set with an empty name, which compiles to a nil
  regexp that is used to match: the scheduler panics (C66_empty_name_refuted).
* openstack.go determineFlavor returns cloud.ErrNoFlavor (467-469) before the code that
  would turn it into ErrImpossible (479-483), so without flavor sets jobs too big for
  any flavor are retried for ever instead of buried (C67_no_sets_refuted); the same for
  unknown cloud_flavors (C67_unknown_flavor_refuted).
* reqCheck looks for a flavor with the memory of the job, servers are created with that
  of the operating system if that is more: the job can be accepted and never run
  (C67_os_ram_refuted). It compares the needs with the quota, not the flavor picked
  (C67_quota_refuted).
* Shares of the quota are reserved by the goroutines that create servers, not by the
  pass that starts them, so that the next pass may start too many (C68_race_refuted); a
  booting server counts neither as reserved nor as known (C68_booting_refuted);
  MaxInstances is ignored when the cloud has no quota of instances
  (C68_no_quota_refuted).
* When an image or flavor is not found, cloud/openstack.go spawn returns before it
  signals usingQuotaCh: what was reserved stays reserved for good, until no server is
  created any more (C68_leak_refuted).
* How many jobs fit on a new server is reckoned with the memory of the operating system
  for each: too many servers are created for small jobs (C68_too_many_refuted).
* LSF queues of lower priority are preferred (criteriaHandling sorts prio ascending,
  C69_priority_refuted), and those with longer time limits though the comment says
  otherwise (C69_time_refuted).
* A comma at the end of a list of queues picks the queue with no name when the others do
  not suit (C70_unknown_refuted); one at the end of queues_avoid avoids all queues, and
  jobs are buried as impossible (C70_avoid_all_refuted).
* A queue without a memory limit is taken to have one 1 MB above the highest seen, also
  on queues the user may not use; jobs that need more are buried as impossible
  (C70_unlimited_refuted).
* lsf.go checkCmd counts a pending job that is not of an array as killed, but gives
  nothing to bkill (C71_single_refuted); it kills suspended jobs, which have started
  (C71_suspended_refuted).
* With LSF_UNIT_FOR_LIMITS=GB the limit given with -M is rounded to whole GB: 0 for jobs
  of up to 500 MB (C72_gigabytes_refuted).
* Misc options that end in -R make parseUserArgs read beyond its slice and panic, in wr
  add and in the server (C72_panic_refuted). BsubValidator remembers verdicts by
  options, though they depend on the queue (C72_validate_refuted). Options without
  values, like -x, are refused before others (C72_flags_refuted).
* Modifying a job with two behaviours for one end keeps only the last (job.go:1384-1398
  replaces the one it has just put in, C74_first_lost_refuted), and of two that the job
  had only the first is replaced (C74_second_stays_refuted).
* A Remove behaviour for success removes jobs that failed and were buried
  (RemovalRequested ignores When, C74_removal_when_refuted).
* Behaviours for OnExit together with success or failure are not shown (fillBVJM,
  C73_hidden_refuted).
* A setting to a zero value in one configuration file (clouddisk: 0) is undone by the
  mere presence of a file of higher precedence, and Source() then names that file
  (C75_zero_refuted).
* managerumask is octal in files, but in WR_MANAGERUMASK leading zeros are cut and the
  rest is decimal: 022 becomes 22, which is 026; 000 is ignored (C75_umask_refuted).
* managerweb set without managerport is replaced by the default (C76_web_refuted); root
  gets the privileged port 1021 (C76_root_refuted).
* With a relative managerdir the daemon puts the deployment on a second time and uses
  another directory than its parent (C77_relative_refuted); a umask of 0 and empty
  settings do not reach the daemon either (C77_umask_refuted, C77_empty_refuted).
* close() just after a backup ended and before the queued one started makes no final
  backup: queued was reset and backingUp not yet set (db.go:1682-1685,
  C78_final_refuted).
* After one backup that took longer than 30 s, backupWait never gets shorter again
  (db.go:1667-1670, C79_wait_refuted).
* If the database file is missing and the download of its S3 backup fails for any
  reason, the manager starts with an empty database, and the next backup replaces the
  one in S3 (db.go:187-193, C80_download_refuted).
* A job that completed, is added again and then modified so that its key changes, is no
  longer listed for its rep group as completed: modifyLiveJobs removes all lookups of
  the old key (db.go:1216-1236, C81_modified_refuted).
* Adding a job again under another rep group while it is queued lists it for both, and a
  search lists it twice (server.go:1852-1858, C83_other_refuted, C84_twice_refuted).
* A job with a blank RepGroup cannot be added through the API (bolt takes no blank
  keys), but its record is kept; after a restart it is queued and run, and archiving it
  fails for ever (db.go:481-488, 742-757, C85_blank_refuted).
* Setting the limit of a group to -1 removes it only from memory, and with it the count
  of running jobs: NewCountGroupData(-1) is not a count group, so the deleting branches
  of storeLimitGroups are never reached; the limit comes back from the database at the
  next look-up, and that many jobs again may start (db.go:374-400, C86_removed_refuted,
  C87_removed_refuted).
* wr limit -g of a group without a limit prints 9223372036854775807 instead of -1
  (group.go:222-228, C86_unknown_refuted).
* wr limit does not list groups whose limit was set while adding jobs until one of the
  jobs is looked at, nor those whose jobs are all done (limiter.go:80-93,
  C88_complete_refuted).
* Jobs that started before their group got its first limit are not counted
  (C87_earlier_refuted).
* Through the REST API, jobs without limit groups of their own share the default's
  slice, which is stripped of its limits by the first: jobs with default a:1, own a:5,
  default a:1 leave a limit of 5, not the last one specified (server.go:1949-1956,
  serverREST.go:351-355, C89_last_limit_refuted).
* A runner keeps the PATH override it made for one job and gives it to all later jobs
  whose own PATH already has the runner's directory: they run with another job's PATH
  (cmd/runner.go:233, C91_path_kept_refuted).
* A runner looks for its directory in PATH as a substring, so /opt/wr2 passes for
  /opt/wr (cmd/runner.go:232, C91_on_path_refuted); an entry PATH without "=" makes it
  panic with the job reserved (C92_reserved_is_done_refuted).
* A runner does not look at the clock again after a reservation if the job's time
  requirement is the previous job's, so a job can be started too late to end before the
  maximum time (cmd/runner.go:203, C90_started_late_refuted).
* DELETE /rest/v1/jobs/?state=deletable removes running jobs: limitJobs has rewritten
  their state to "reserved" when the filter excludes "running", and deleteJobs does not
  look at the state as jdel and the web interface do before calling it. The job's client
  is refused everything from then on, the job's limit groups stay counted, and nothing
  is recorded as complete (server.go:2697-2707, serverREST.go:911-914,
  C93_running_refuted).
* A REST DELETE ignores the state for jobs named by their keys: state=lost kills a job
  that is in touch, state=running declares a lost one dead so that it is started again;
  and the key of a complete job makes the request fail half way with some jobs already
  killed (serverREST.go:693-699, 926-930, C94_key_kills_refuted,
  C94_key_confirms_refuted, C94_half_way_refuted).
* JobDefaults.CloudOSRam is documented to default to 1000, but Convert uses it only if
  it is not 0 (serverREST.go:487-489, C96_os_ram_refuted).
* A null in the list of jobs posted to the REST interface is a nil pointer dereference
  in Convert (serverREST.go:859-860, 237; C97_null_refuted).
* Parameters cpus, disk, override, priority, retries and cloud_ram of a REST request
  that are not numbers are taken as 0 without an error (serverREST.go:1122-1145,
  C97_malformed_refuted); negative cores, times and disks of jobs are accepted
  (C97_negative_refuted).
* Reserving a job does not reset Lost, only starting it does (serverCLI.go:244-262,
  295). From being reserved until it is started, a job whose earlier run was lost counts
  as lost, and killing it releases it although a runner holds it
  (C102_reserved_refuted).
* The status page copes with messages out of order only if they are about one job each:
  a count that is ignored later is compared and subtracted as a whole (websocket-
  handler.js:93-105, 131-148). If two jobs are added and one is reserved at once, the
  page can show three ever after (C103_order_refuted).
* A rep group called "+all+" is taken for the group of all jobs by the status page
  (server.go:1682-1685, C104_all_refuted).
* If a job that was lost is reserved again and released before it was started, the
  status page is told that a lost job is delayed, because Lost is still set
  (server.go:1667-1675): it shows a running job ever after (C104_stale_refuted).
