{
 "claims": [
  {
   "property": "C01",
   "status": "partial",
   "theorems": [
    "C01_partial",
    "C01_never_clears",
    "C01_stats_partial",
    "C01_refuted",
    "C01_no_panic_partial",
    "C01_no_panic_refuted"
   ],
   "note": "False in full: Update with an explicitly empty dependency list on a buried, ready or running item that still has unresolved dependencies files the item twice (C01_refuted). Proved for every history without such calls. C01_no_panic_*: also no call panics if, besides, Update does not change only the priority of a ready item of a group other than the last used one (C01_no_panic_refuted shows the panic)."
  },
  {
   "property": "C02",
   "status": "partial",
   "theorems": [
    "C02_ready_partial",
    "C02_partial",
    "C02_never_updates",
    "C02_refuted"
   ],
   "note": "That the returned item is ready in the requested group, and that ErrNothingReady means the group has none, holds without the priority restriction (C02_ready_partial). That it is the best one is false after Update changed a ready item's priority (C02_refuted); proved for all histories in which such an Update only happens right after an operation on the same group."
  },
  {
   "property": "C03",
   "status": "partial",
   "theorems": [
    "C03_partial",
    "C03_refuted"
   ],
   "note": "False after the same misuse of Update as C01 (C03_refuted); proved for every other history."
  },
  {
   "property": "C04",
   "status": "partial",
   "theorems": [
    "C04_partial",
    "C04_refuted"
   ],
   "note": "False: Kick makes an item with a not yet added dependency ready (C04_refuted). Proved for all histories in which Kick is used on an item with unresolved dependencies only while one of its dependencies is in the queue."
  },
  {
   "property": "C05",
   "status": "partial",
   "theorems": [
    "C05_partial",
    "C05_never_stuck_partial",
    "C05_refuted",
    "C05_clobbered_refuted"
   ],
   "note": "False in full: Kick can leave an item dependent on nothing (C05_refuted) and ChangeKey can lose the items waiting for the new key (C05_clobbered_refuted). Proved for all histories without these."
  },
  {
   "property": "C06",
   "status": "proved",
   "theorems": [
    "C06_items_stay"
   ],
   "note": "No restriction on the history."
  },
  {
   "property": "C07",
   "status": "proved",
   "theorems": [
    "C07_add_known",
    "C07_add_many"
   ],
   "note": "No restriction on the history."
  },
  {
   "property": "C08",
   "status": "partial",
   "theorems": [
    "C08_added_partial",
    "C08_released_partial",
    "C08_processing_partial"
   ],
   "note": "Proved for all histories without the misuse of Update of C01_refuted (which corrupts the sub-queues)."
  },
  {
   "property": "C09",
   "status": "partial",
   "theorems": [
    "C09_processing_partial",
    "C09_reserved_partial",
    "C09_touched_partial"
   ],
   "note": "As C08, with clock readings after Go's zero time and non-negative TTRs."
  },
  {
   "property": "C10",
   "status": "proved",
   "theorems": [
    "C10_error_unchanged",
    "C10_guards",
    "C10_lands"
   ],
   "note": "The documented landing state of Kick is taken to be dependent when one of the item's dependencies is in the queue, as the code does; see C04 for what is wrong with that."
  },
  {
   "property": "C11",
   "status": "partial",
   "theorems": [
    "C11_partial"
   ],
   "note": "Histories without the misuse of Update of C01_refuted. That dependants on the new key made before the rename are kept is false (C05_clobbered_refuted)."
  },
  {
   "property": "C12",
   "status": "partial",
   "theorems": [
    "C12_partial",
    "C12_refuted"
   ],
   "note": "False: only one of delay, priority/group and TTR is applied (C12_refuted). Proved that the item's data, delay and state are always as asked, and the rest too when at most one of these is changed."
  },
  {
   "property": "C13",
   "status": "proved",
   "theorems": [
    "C13_destroyed",
    "C13_no_panic"
   ],
   "note": "A Reserve that was already waiting when Destroy happened gets ErrNothingReady, and the background goroutines do nothing; every other call returns ErrQueueClosed."
  },
  {
   "property": "C14",
   "status": "partial",
   "theorems": [
    "C14_partial",
    "C14_start_partial",
    "C14_refuted"
   ],
   "note": "False: a Release without delay is counted as a timeout (C14_refuted). Reserves, kicks and buries are exact; releases and timeouts are exact in total."
  },
  {
   "property": "C15",
   "status": "partial",
   "theorems": [
    "C15_partial",
    "C15_refuted"
   ],
   "note": "Histories without the misuse of Update of C01_refuted and without Destroy, which empties the sub-queues without notifying (C15_refuted)."
  },
  {
   "property": "C16",
   "status": "proved",
   "theorems": [
    "C16_one_at_a_time",
    "C16_seen",
    "C16_settles"
   ],
   "note": "Scheduling granularity: the two mutexes. The one second pause before a recall is a step that may take any time."
  },
  {
   "property": "C17",
   "status": "proved",
   "theorems": [
    "C17_push",
    "C17_remove",
    "C17_pop",
    "C17_fix"
   ],
   "note": "For an arbitrary strict weak order."
  },
  {
   "property": "C18",
   "status": "partial",
   "theorems": [
    "C18_increment_within_limit_partial",
    "C18_never_exceeded_partial",
    "C18_duplicate_refuted"
   ],
   "note": "False if a name is given twice (C18_duplicate_refuted). Otherwise every success leaves the group within its limit, and no count ever exceeds its limit unless SetLimit lowers it below the count."
  },
  {
   "property": "C19",
   "status": "partial",
   "theorems": [
    "C19_all_or_nothing_partial",
    "C19_changing_callback_refuted"
   ],
   "note": "For a callback that answers the same throughout a call; otherwise false (C19_changing_callback_refuted)."
  },
  {
   "property": "C20",
   "status": "partial",
   "theorems": [
    "C20_counts_outstanding_partial",
    "C20_remove_refuted"
   ],
   "note": "For histories that do not RemoveLimit a used group (C20_remove_refuted: the group is re-created at zero)."
  },
  {
   "property": "C21",
   "status": "partial",
   "theorems": [
    "C21_capacity_exact_partial",
    "C21_window_refuted",
    "C21_closed_refuted",
    "C21_duplicate_refuted"
   ],
   "note": "Exact for lists without open windows and for lists of open windows only; false for mixtures (C21_window_refuted, C21_closed_refuted) and duplicates (C21_duplicate_refuted)."
  },
  {
   "property": "C22",
   "status": "partial",
   "theorems": [
    "C22_names_spell",
    "C22_spelling_unambiguous",
    "C22_time_windows_partial",
    "C22_datetime_windows",
    "C22_overnight_refuted",
    "C22_clock_change_refuted"
   ],
   "note": "Name parsing is exact for all strings, date-time windows for all times. Time-of-day windows: false over midnight (C22_overnight_refuted) and on days the clocks change (C22_clock_change_refuted), exact otherwise."
  },
  {
   "property": "C23",
   "status": "partial",
   "theorems": [
    "C23_at_most_max_partial",
    "C23_shutdown_refuted",
    "C23_negative_refuted"
   ],
   "note": "Proved for all schedules without Shutdown and without negative requests; false with either (C23_shutdown_refuted, C23_negative_refuted)."
  },
  {
   "property": "C24",
   "status": "partial",
   "theorems": [
    "C24_in_order",
    "C24_apart_partial",
    "C24_apart_refuted"
   ],
   "note": "Order: proved for all schedules. Spacing: false in general (C24_apart_refuted); proved for schedules in which a started process() is not overtaken."
  },
  {
   "property": "C25",
   "status": "partial",
   "theorems": [
    "C25_returned_once",
    "C25_touch_renews",
    "C25_touch_overtaken_refuted",
    "C25_granted_once",
    "C25_release_returns_partial",
    "C25_timeout_returns_partial",
    "C25_touch_deadlock_refuted",
    "C25_shutdown_refuted"
   ],
   "note": "At most once and never early, counting from the grant and from every touch the goroutine received: proved for all schedules. At least once: proved as reachability by the protector's own steps, except in the touch deadlock (C25_touch_deadlock_refuted). Grants after Shutdown do happen (C25_shutdown_refuted); a touch not received before the time-out may be lost (C25_touch_overtaken_refuted)."
  },
  {
   "property": "C26",
   "status": "partial",
   "theorems": [
    "C26_retried_then_buried_partial",
    "C26_refused_archive_refuted",
    "C26_crash_refuted",
    "C26_resurrected_refuted"
   ],
   "note": "Proved for every service period without a crash in which clients ask to archive only successful attempts. False otherwise: a refused archive gives an extra attempt (C26_refused_archive_refuted), a crash loses the write of a failure (C26_crash_refuted), a complete job that runs again has only the retries left over (C26_resurrected_refuted)."
  },
  {
   "property": "C27",
   "status": "partial",
   "theorems": [
    "C27_completed_by_its_client_partial",
    "C27_completed_by_cut_request_partial",
    "C27_gone_for_good_partial"
   ],
   "note": "Proved for all histories, with crashes at any point, in which no add request touches a running or buried job."
  },
  {
   "property": "C28",
   "status": "partial",
   "theorems": [
    "C28_foreign_refused_partial",
    "C28_idle_not_moved_partial",
    "C28_restart_refuted",
    "C28_add_moves_running_refuted"
   ],
   "note": "Proved within a service period; false across a crash (C28_restart_refuted). Adding a job to a group that a running job depends on changes the running job (C28_add_moves_running_refuted)."
  },
  {
   "property": "C29",
   "status": "partial",
   "theorems": [
    "C29_owed_in_queue_partial",
    "C29_never_lost_partial",
    "C29_restart_partial",
    "C29_nothing_invented_partial"
   ],
   "note": "Proved for all histories, with crashes at any point, in which no add request touches a running or buried job."
  },
  {
   "property": "C30",
   "status": "partial",
   "theorems": [
    "C30_counted_once_partial",
    "C30_charged_for_its_reservation_partial",
    "C30_scheduler_group_partial",
    "C30_tilde_refuted",
    "C30_running_within_limits_partial",
    "C30_restart_leak_refuted",
    "C30_touched_leak_refuted"
   ],
   "note": "Proved, together with the limiter model, for all histories without the two kinds of steps that leak a place (C30_restart_leak_refuted, C30_touched_leak_refuted) and without what is missing for C18; limit group names with a tilde are not limited at all (C30_tilde_refuted)."
  },
  {
   "property": "C31",
   "status": "partial",
   "theorems": [
    "C31_nesting",
    "C31_drain",
    "C31_drain_interleaved",
    "C31_drain_idle",
    "C31_drain_running_refuted",
    "C31_requests_partial",
    "C31_pause_lost_refuted",
    "C31_modify_paused_partial",
    "C31_modify_resumed_refuted",
    "C31_given_when_open",
    "C31_given_while_paused_refuted",
    "C31_given_while_modifying_refuted"
   ],
   "note": "The methods nest exactly as stated and Drain is final (also for interleaved requests). For requests served one at a time a resume undoes all pauses. Overlapping requests: a pause during a jmod is lost (C31_pause_lost_refuted), a reserve under way gets its job after the pause (C31_given_while_paused_refuted)."
  },
  {
   "property": "C32",
   "status": "partial",
   "theorems": [
    "C32_delete_safe",
    "C32_delete_complete_partial",
    "C32_delete_circle_refuted"
   ],
   "note": "Over the server model (ServerModel.v), all histories in which no add request concerns a running or buried job: a delete request is answered with the number of jobs it removed, removes only requested jobs that are not running, never one that a job left in the queue waits for, and leaves the rest untouched. Requested jobs whose waiters are all requested too are removed in any order of the request, provided they do not wait for each other in a circle; that this proviso is needed is C32_delete_circle_refuted."
  },
  {
   "property": "C33",
   "status": "proved",
   "theorems": [
    "C33_limited_listing",
    "C33_shown_once",
    "C33_unlimited_listing"
   ],
   "note": "For job lists with known states and Similar 0, as the server makes them. Outside the statement: a fail reason filter without a limit is ignored (reason_filter_refuted), \"deletable\" shows running jobs (deletable_refuted)."
  },
  {
   "property": "C34",
   "status": "proved",
   "theorems": [
    "C34_output_kept",
    "C34_command_output_kept"
   ],
   "note": "For every size above zero (the code uses 4096; with zero everything is lost silently, size_zero_refuted). C34_command_output_kept joins it with the filter of C51."
  },
  {
   "property": "C35",
   "status": "proved",
   "theorems": [
    "C35_skipped_first",
    "C35_any_order",
    "C35_reported",
    "C35_scheduled_when_changed"
   ],
   "note": "Closed form for any drops, reports, and sequential calls of decrementGroupCount. Concurrent calls can tell the scheduler an old count last: told_count_stale_refuted (outside the statement)."
  },
  {
   "property": "C36",
   "status": "partial",
   "theorems": [
    "C36_one_at_a_time",
    "C36_counts_asked_for",
    "C36_comes_to_rest",
    "C36_latest_count_partial",
    "C36_overtaken_refuted"
   ],
   "note": "One at a time, only counts asked for and coming to rest hold for all schedules; the latest count is told last if no call overtakes a recall. Otherwise false: C36_overtaken_refuted. The latest priority can be lost (priority_lost_refuted)."
  },
  {
   "property": "C37",
   "status": "partial",
   "theorems": [
    "C37_claims_returned",
    "C37_never_too_much_partial",
    "C37_slow_start_refuted",
    "C37_recovered_refuted"
   ],
   "note": "Claims are always exactly those of running commands. Never above the maxima if no pass gave up waiting (C37_slow_start_refuted) and nothing was recovered (C37_recovered_refuted). Cores are exact numbers, not floats."
  },
  {
   "property": "C38",
   "status": "proved",
   "theorems": [
    "C38_request_covered"
   ],
   "note": "For times at least half an hour away from the ends of an int64; beyond that the sum wraps (request_overflow_refuted). More memory asked for can give less: request_more_memory_refuted."
  },
  {
   "property": "C39",
   "status": "proved",
   "theorems": [
    "C39_keys_by_value",
    "C39_keys_by_inner_value",
    "C39_dedup_sort"
   ],
   "note": "All inputs and map orders. DedupSortStrings changes the slice it is given (dedup_input_kept_refuted)."
  },
  {
   "property": "C40",
   "status": "proved",
   "theorems": [
    "C40_delay_bounded",
    "C40_delay_grows"
   ],
   "note": "All attempt numbers and random draws with the default minimum, maximum and factor; the backoff library by its source."
  },
  {
   "property": "C41",
   "status": "partial",
   "theorems": [
    "C41_answers",
    "C41_same_text_partial",
    "C41_cut_off_refuted",
    "C41_beginning",
    "C41_reads_back_partial",
    "C41_split_bang_refuted",
    "C41_replaced",
    "C41_determined",
    "C41_exactly_one_refuted",
    "C41_compound_refuted",
    "C41_reversed_refuted"
   ],
   "note": "Printing gives the text back if its tokens are all valid (otherwise it is silently cut: C41_cut_off_refuted) and is read back as the same if no \"! =\" is split by white space (C41_split_bang_refuted). Replacing is characterised exactly; \"exactly one of each\" is false (C41_exactly_one_refuted), and compound requirements are treated wrongly (C41_compound_refuted)."
  },
  {
   "property": "C42",
   "status": "partial",
   "theorems": [
    "C42_remove_all_except_partial",
    "C42_outside_never_ends_refuted",
    "C42_outside_never_ends",
    "C42_excepted_file_refuted",
    "C42_rm_empty_dirs",
    "C42_unclean_base_refuted",
    "C42_cleanup"
   ],
   "note": "removeAllExcept keeps exactly the excepted directories, what is in them and the directories on the way, for every tree and every list of clean relative exceptions; an excepted file is removed (C42_excepted_file_refuted) and an exception not inside the directory makes it loop for ever (C42_outside_never_ends). rmEmptyDirs removes only empty directories below the base, unless the base is written uncleanly (C42_unclean_base_refuted). The whole clean-up of a job is proved on top of these."
  },
  {
   "property": "C43",
   "status": "partial",
   "theorems": [
    "C43_overridden_once_partial",
    "C43_duplicate_name_refuted",
    "C43_added_overrides_partial",
    "C43_getenv_partial",
    "C43_getenv_refuted"
   ],
   "note": "Proved for environments that have each variable at most once, also for overrides added call by call; with duplicates false (C43_duplicate_name_refuted). Getenv is right for values without '=' only (C43_getenv_refuted)."
  },
  {
   "property": "C44",
   "status": "proved",
   "theorems": [
    "C44_all_stored"
   ],
   "note": "All lists and all ways of failing."
  },
  {
   "property": "C45",
   "status": "partial",
   "theorems": [
    "C45_same_settings_same_key",
    "C45_one_difference_partial",
    "C45_key_tells_settings_partial",
    "C45_mounts_tell_partial",
    "C45_same_key_same_job_partial",
    "C45_dots_refuted",
    "C45_mounts_refuted",
    "C45_essence_key_partial",
    "C45_essence_container_refuted"
   ],
   "note": "Proved in full, mounts compared up to order and defaults, for jobs without dots in their settings, whose mounts have mount points without colons or semicolons and profiles without dashes (C45_same_key_same_job_partial). With those characters different jobs can share a key (C45_dots_refuted, C45_mounts_refuted)."
  },
  {
   "property": "C46",
   "status": "partial",
   "theorems": [
    "C46_waits_partial",
    "C46_added_partial",
    "C46_kept_partial",
    "C46_restored_partial",
    "C46_nothing_else_partial",
    "C46_kicked_refuted",
    "C46_phantom_refuted",
    "C46_torn_refuted",
    "C46_former_refuted"
   ],
   "note": "For all histories in which jobs keep their groups and dependencies, requests spare running and buried jobs, no crash cuts the storing of jobs and no ignoreComplete request both names a complete job and brings one back: a queued job waits for all queued members of its groups and for nothing else but jobs it named, an added job waits for exactly these, it keeps waiting until they leave the queue, complete dependants of a group come back when a job joins it, and nothing else comes back. Each of the first three conditions is shown to be needed by a refutation, and a kicked job is shown to be stuck as dependent while it waits for nothing."
  },
  {
   "property": "C47",
   "status": "partial",
   "theorems": [
    "C47_no_lost_wakeup_partial",
    "C47_raise_refuted",
    "C47_remove_refuted"
   ],
   "note": "When room is only made by Decrement; raising or removing a limit wakes nobody (C47_raise_refuted, C47_remove_refuted)."
  },
  {
   "property": "C48",
   "status": "partial",
   "theorems": [
    "C48_no_lost_wakeup_partial",
    "C48_cancel_refuted"
   ],
   "note": "Proved for all schedules without cancellation and Shutdown; false with cancellation (C48_cancel_refuted)."
  },
  {
   "property": "C49",
   "status": "partial",
   "theorems": [
    "C49_never_stuck_partial",
    "C49_stuck_refuted"
   ],
   "note": "Proved for all schedules with at most one WaitUntilGranted with a time-out per receipt; false with two (C49_stuck_refuted)."
  },
  {
   "property": "C50",
   "status": "partial",
   "theorems": [
    "C50_partial",
    "C50_refuted",
    "C50_run_refuted"
   ],
   "note": "Proved for every history in which Update never makes the delay or TTR of a delayed or running item end sooner and never empties the dependencies of an item outside the dependent sub-queue; C50_refuted and C50_run_refuted: Update restarts the delay or TTR without telling the goroutine, which goes on sleeping until the old time. The clock reading of a call and of the trigger it makes are taken to be the same."
  },
  {
   "property": "C51",
   "status": "partial",
   "theorems": [
    "C51_plain_unchanged",
    "C51_block_first_and_last",
    "C51_after_last_return_refuted",
    "C51_dos_newline_refuted"
   ],
   "note": "Proved for text without carriage returns and for blocks in which every line ends in one. What follows the last carriage return of a line is dropped: C51_after_last_return_refuted, C51_dos_newline_refuted."
  },
  {
   "property": "C52",
   "status": "partial",
   "theorems": [
    "C52_count_run_partial",
    "C52_goes_on_partial",
    "C52_failed_starts_partial",
    "C52_lost_after_cancel_refuted",
    "C52_failed_start_refuted"
   ],
   "note": "Exact if running commands are not cancelled by a count of 0 and every command can be started, or if the count is not lowered below what is running (then starts may fail); otherwise false: C52_lost_after_cancel_refuted, C52_failed_start_refuted."
  },
  {
   "property": "C53",
   "status": "partial",
   "theorems": [
    "C53_partial",
    "C53_let_go_partial",
    "C53_comes_to_rest",
    "C53_held",
    "C53_kept",
    "C53_duplicates_refuted",
    "C53_failed_kick_refuted",
    "C53_failed_update_refuted",
    "C53_paused_refuted"
   ],
   "note": "Proved for all schedules in which every add request puts a job in the queue that was not there, no call to the queue fails, and the server is not paused at the end. False otherwise: an add request all of whose jobs are known already makes the server hold all reserve requests until something else happens to the queue (C53_duplicates_refuted); C53_failed_kick_refuted, C53_failed_update_refuted, C53_paused_refuted. That the server comes to rest holds for all schedules. Which requests are held is settled for all schedules (C53_held, C53_kept)."
  },
  {
   "property": "C54",
   "status": "proved",
   "theorems": [
    "C54_pass_made"
   ],
   "note": "All histories until the scheduler is cleaned up, at which calls are ignored. That passes come to an end is a hypothesis (no_pass): it depends on the number of calls."
  },
  {
   "property": "C55",
   "status": "partial",
   "theorems": [
    "C55_recommended_partial",
    "C55_few_values_refuted",
    "C55_repeated_values_refuted",
    "C55_other_group_refuted"
   ],
   "note": "Exact for what is computed: the value with a twentieth, but not less than five, of the different values above it (with the error of float32 beyond a million values), for groups whose name is not mistaken for another. Refuted as a percentile of what jobs used: with six values the smallest is recommended; a value used by many jobs counts once; values of groups whose name begins with the name are taken too, and then the last is taken for the maximum."
  },
  {
   "property": "C56",
   "status": "partial",
   "theorems": [
    "C56_always_partial",
    "C56_higher_partial",
    "C56_recommended_partial",
    "C56_failed_gets_more_partial",
    "C56_not_too_much_partial",
    "C56_old_recommendation_refuted",
    "C56_disk_refuted",
    "C56_database_error_refuted"
   ],
   "note": "All histories of passes and runs of a job that is not modified. Refuted: with override 1 an old recommendation stays though it is higher than both the user's and the present one; the new disk space is a multiple of 100 GB; an error of the database with a job that failed for lack of something ends the manager. Floats are taken to be exact."
  },
  {
   "property": "C57",
   "status": "partial",
   "theorems": [
    "C57_runners_wanted_partial",
    "C57_told_partial",
    "C57_group_partial",
    "C57_shared_limit_refuted",
    "C57_priority_refuted",
    "C57_old_skips_refuted"
   ],
   "note": "Counts are exact per group, for all sequences of passes, taking the calls of Schedule for a group to be made in order (C36). Refuted: groups that share a limit are each given all the room; the priority told can be lower than that of the first job; a group with only running jobs keeps an old number of jobs left out."
  },
  {
   "property": "C58",
   "status": "partial",
   "theorems": [
    "C58_modified_partial",
    "C58_dependency_lost_refuted",
    "C58_restart_refuted",
    "C58_raised_refuted",
    "C58_retries_refuted",
    "C58_priority_refuted",
    "C58_panics_refuted",
    "C58_old_write_refuted"
   ],
   "note": "All of it for the first modification after any history, if neither priorities nor dependencies are set. Refuted beyond: a job that depends on one that got a new key becomes ready when its priority is set or the server restarts; putting a job in a dependency group marks complete jobs as to do without queueing them; new retries count only after a kick; the new priority of a job that has run is not that of its queue item; making a buried job depend on another job and then on none panics; a late write of the old job undoes the modification on disk."
  },
  {
   "property": "C59",
   "status": "partial",
   "theorems": [
    "C59_never_more",
    "C59_allocate",
    "C59_space",
    "C59_flavor",
    "C59_flavor_refuted"
   ],
   "note": "All of it, with cores computed exactly in thousandths, except that a flavor without cores is refuted for commands without cores (it says 0, its server 4)."
  },
  {
   "property": "C60",
   "status": "partial",
   "theorems": [
    "C60_in_use_partial",
    "C60_goes_on_partial",
    "C60_stops",
    "C60_idle_partial",
    "C60_mutex",
    "C60_countdown_over_refuted",
    "C60_disk_only_refuted",
    "C60_stays_refuted",
    "C60_deadlock_refuted"
   ],
   "note": "Who holds the mutex, for all schedules. The rest for schedules in which nothing is allocated between the end of a countdown and the destruction, no command without cores and memory comes between a Release and the start of the countdown, no countdown ends and no last command ends while one is being cancelled, and Destroy is not called from outside. Without these it is refuted, each by its own theorem: a server is destroyed in use, an idle one stays, all goroutines and calls block forever."
  },
  {
   "property": "C61",
   "status": "partial",
   "theorems": [
    "C61_report_true",
    "C61_one_story",
    "C61_reason",
    "C61_nil_partial",
    "C61_upload_refuted"
   ],
   "note": "All of what is told to the manager; of the value returned the `only' half, up to commands whose files could not be uploaded, for which it is refuted (released with exit code 0, nil returned)."
  },
  {
   "property": "C62",
   "status": "partial",
   "theorems": [
    "C62_comes_to_tell",
    "C62_leaves_nothing",
    "C62_stop_fits",
    "C62_touched",
    "C62_told_partial",
    "C62_unmounted_partial",
    "C62_told_refuted",
    "C62_unmounted_refuted"
   ],
   "note": "Progress with a bound of 16 steps, the ends of the goroutines and touching in full. That the manager was told and that all is unmounted hold unless certain preparations fail, and are refuted for those (SLinks, SPrepare; SJson, SDocker, SContainers)."
  },
  {
   "property": "C63",
   "status": "partial",
   "theorems": [
    "C63_killed_partial",
    "C63_buried_partial",
    "C63_memory_refuted",
    "C63_early_refuted"
   ],
   "note": "For kills that come when the command is being watched, and if neither a signal to the runner nor memory nor disk can be the cause; refuted for kills that come during the preparations (the command runs to its end, unwatched and untouched) and for commands over their memory (released and retried)."
  },
  {
   "property": "C64",
   "status": "partial",
   "theorems": [
    "C64_which",
    "C64_each_once_partial",
    "C64_each_once_refuted",
    "C64_order",
    "C64_success",
    "C64_triggered",
    "C64_before_report",
    "C64_failure_refuted"
   ],
   "note": "Which trigger and in which order in full; those for success at most once and only after exit code 0; at least once for every command started. Refuted: one with OnExit|OnSuccess triggers twice; those for failure trigger for archived jobs after a kept error or a lost answer."
  },
  {
   "property": "C65",
   "status": "partial",
   "theorems": [
    "C65_only",
    "C65_signal_partial",
    "C65_lost_partial",
    "C65_stops_refuted"
   ],
   "note": "`Only then' in full; that it stops if the reported reason is the signal, or if the manager was lost and the command had succeeded; refuted for signals after the time or memory is exceeded and for lost managers with failed commands."
  },
  {
   "property": "C66",
   "status": "partial",
   "theorems": [
    "C66_cheapest",
    "C66_sets",
    "C66_determine",
    "C66_any_order",
    "C66_empty_name_refuted"
   ],
   "note": "For sets of valid non-empty names; refuted for a set with an empty name (FlavorSets ending in a separator), for which the scheduler panics."
  },
  {
   "property": "C67",
   "status": "partial",
   "theorems": [
    "C67_refused_partial",
    "C67_accepted_partial",
    "C67_created",
    "C67_no_sets_refuted",
    "C67_unknown_flavor_refuted",
    "C67_os_ram_refuted",
    "C67_quota_refuted"
   ],
   "note": "Refused only if impossible: yes, within the volume quota. Accepted only if possible: for jobs that name a flavor or need at least the memory of the operating system. Creation when there is room in full. Refuted: without flavor sets or with an unknown flavor another error comes, for which jobs are not buried; the memory of the operating system and the quota are not held against the flavor picked."
  },
  {
   "property": "C68",
   "status": "partial",
   "theorems": [
    "C68_simultaneous",
    "C68_counts",
    "C68_quota_partial",
    "C68_max_partial",
    "C68_released_partial",
    "C68_needed_partial",
    "C68_known",
    "C68_race_refuted",
    "C68_booting_refuted",
    "C68_no_quota_refuted",
    "C68_leak_refuted",
    "C68_too_many_refuted"
   ],
   "note": "Simultaneous creations and the counts in full. Quota and maximum if the goroutines of a pass have reserved before the next pass (and, for the maximum, no server is booting), else refuted; the maximum is not looked at without a quota of instances. Reserved amounts are given up unless a creation fails before the server is asked for, which is refuted (leak). No more than needed for jobs that need at least the memory of the operating system, else refuted."
  },
  {
   "property": "C69",
   "status": "partial",
   "theorems": [
    "C69_order",
    "C69_worth",
    "C69_better",
    "C69_chunks_partial",
    "C69_priority_refuted",
    "C69_time_refuted"
   ],
   "note": "In full for values that are not negative; chunks for at most 197 queues. Refuted: that queues of higher priority, or more limited in time, come first."
  },
  {
   "property": "C70",
   "status": "partial",
   "theorems": [
    "C70_best_partial",
    "C70_listed",
    "C70_time",
    "C70_unknown_refuted",
    "C70_avoid_all_refuted",
    "C70_unlimited_refuted"
   ],
   "note": "In full, but for queues without a memory limit, for which wr takes one more than the highest of any queue. Refuted: that only queues that exist are picked from a list, that an empty part of the list to avoid avoids nothing, and that a queue without a memory limit takes any job."
  },
  {
   "property": "C71",
   "status": "partial",
   "theorems": [
    "C71_enough",
    "C71_not_more_partial",
    "C71_settled",
    "C71_ours",
    "C71_single_refuted",
    "C71_suspended_refuted"
   ],
   "note": "At least as many, what is killed, nothing when settled, and whose jobs are counted (up to hash collisions) in full. No more than wanted if the waiting jobs are of arrays; refuted for a job submitted alone, which is never killed. Suspended jobs are killed though they have started."
  },
  {
   "property": "C72",
   "status": "partial",
   "theorems": [
    "C72_arguments",
    "C72_memory_partial",
    "C72_gigabytes_refuted",
    "C72_no_panic_partial",
    "C72_panic_refuted",
    "C72_flags_refuted",
    "C72_validate_refuted",
    "C72_validate_partial"
   ],
   "note": "The arguments in full; the limit in MB and KB to one part in four million (exact up to 16 TB and 134 GB), refuted in GB, where it is rounded to whole GB and may be 0. No panic for pairs of words, refuted for a trailing -R. Validation for one queue; refuted for several, since answers are remembered by options alone. Options without a value are refused when others follow."
  },
  {
   "property": "C73",
   "status": "partial",
   "theorems": [
    "C73_shown_partial",
    "C73_same_deeds",
    "C73_same_order_partial",
    "C73_order_refuted",
    "C73_json_stable",
    "C73_hidden_refuted",
    "C73_invalid_refuted"
   ],
   "note": "Documented behaviours are all shown and do the same things when read back, in the same order unless one is for failure and success at once (C73_order_refuted); what came from JSON reads as exactly the same again. Refuted for combinations with OnExit, which are not shown, and for arguments of the wrong type, which read as a command. The JSON text is taken to be decoded as what was encoded."
  },
  {
   "property": "C74",
   "status": "partial",
   "theorems": [
    "C74_given",
    "C74_empty_refuted",
    "C74_several_refuted",
    "C74_modified",
    "C74_replaced_partial",
    "C74_first_lost_refuted",
    "C74_second_stays_refuted",
    "C74_removal",
    "C74_removal_when_refuted"
   ],
   "note": "What is done, and what a modification leaves, in full (closed form C74_modified). That a modification replaces holds if there is at most one behaviour for each end before and in the modification; refuted beyond: of two set only the last is kept, of two that the job had the second stays. Removal asked for on success happens for jobs that failed. An empty list does not turn a default off."
  },
  {
   "property": "C75",
   "status": "partial",
   "theorems": [
    "C75_environment",
    "C75_file_partial",
    "C75_default",
    "C75_source_partial",
    "C75_zero_refuted",
    "C75_umask_refuted",
    "C75_deployment"
   ],
   "note": "The environment, defaults and the deployment in full; files and the source if no file sets a zero value for a setting whose default is another, which is refuted otherwise (C75_zero_refuted). A umask means something else in the environment than in a file (C75_umask_refuted). The library configor is modelled after its documentation: zero values get the default, then the file, then the environment."
  },
  {
   "property": "C76",
   "status": "partial",
   "theorems": [
    "C76_inside",
    "C76_elsewhere",
    "C76_files_apart",
    "C76_ports",
    "C76_ports_apart",
    "C76_ports_range_partial",
    "C76_root_refuted",
    "C76_port_set",
    "C76_web_refuted"
   ],
   "note": "Directories and ports in full for users whose ports are below 65536. Refuted: a web port set alone is ignored (C76_web_refuted); root's ports are privileged (C76_root_refuted). For users with larger ids free ports are looked for, which is an argument of the model."
  },
  {
   "property": "C77",
   "status": "partial",
   "theorems": [
    "C77_daemon_partial",
    "C77_relative_refuted",
    "C77_umask_refuted",
    "C77_empty_refuted"
   ],
   "note": "For every setting, provided the manager's directory is absolute, the umask is not 0, and settings that are empty are so by default and in none of the child's files; each of the three provisos is shown to be needed by a refutation. The parser for numbers is assumed to read what strconv prints."
  },
  {
   "property": "C78",
   "status": "partial",
   "theorems": [
    "C78_kept",
    "C78_final_partial",
    "C78_final_refuted"
   ],
   "note": "While the database is open in full. For close() it is proved unless a goroutine has just ended a backup and not yet started the queued one; there it is false (C78_final_refuted). Backups that fail are excluded (errors are documented to be ignored)."
  },
  {
   "property": "C79",
   "status": "partial",
   "theorems": [
    "C79_whole",
    "C79_stays",
    "C79_spaced",
    "C79_wait_refuted",
    "C79_ends",
    "C79_goes_on"
   ],
   "note": "All in full but for the maximum of the wait: after one slow backup all later waits are as long (C79_wait_refuted)."
  },
  {
   "property": "C80",
   "status": "partial",
   "theorems": [
    "C80_used",
    "C80_development",
    "C80_restored",
    "C80_not_fresh_partial",
    "C80_download_refuted",
    "C80_corrupt_refuted",
    "C80_killed"
   ],
   "note": "In full for backups on disk and for S3 if the download works; if it does not, a new database is made and its backups replace the one in S3 (C80_download_refuted). A corrupt database without a backup is an error and not a fresh start (C80_corrupt_refuted). Opening and copying files are arguments."
  },
  {
   "property": "C81",
   "status": "partial",
   "theorems": [
    "C81_listed",
    "C81_order",
    "C81_added",
    "C81_found_partial",
    "C81_modified_refuted",
    "C81_ignored_refuted"
   ],
   "note": "What is listed is characterised in full. That every completed job stays listed is proved for histories without modifications of jobs that completed before, and without adds that both ignore known jobs and bring back dependants; it is false for both (C81_modified_refuted, C81_ignored_refuted). Hashing is not modelled: keys are any pairs of 64-bit numbers printed as byteKey does."
  },
  {
   "property": "C82",
   "status": "partial",
   "theorems": [
    "C82_latest",
    "C82_search_partial",
    "C82_search_refuted"
   ],
   "note": "For an exact rep group in full; for patterns unless a rep group came only with an add that ignores known jobs and brings back dependants (C82_search_refuted)."
  },
  {
   "property": "C83",
   "status": "partial",
   "theorems": [
    "C83_found",
    "C83_only_partial",
    "C83_other_refuted"
   ],
   "note": "That they are found in full (for rep groups that can be stored). Only those: if no job is added under another rep group while it is queued; then it is listed for both (C83_other_refuted)."
  },
  {
   "property": "C84",
   "status": "partial",
   "theorems": [
    "C84_matches",
    "C84_finds_partial",
    "C84_same_partial",
    "C84_twice_refuted"
   ],
   "note": "Under the conditions of C81 and C83; otherwise a job is listed twice (C84_twice_refuted)."
  },
  {
   "property": "C85",
   "status": "partial",
   "theorems": [
    "C85_added",
    "C85_blank_refuted"
   ],
   "note": "The first half in full, and that rep groups of 1 to 32732 bytes do not make it fail. A blank rep group makes the add fail, but the job is recorded, queued at the next start, and can then never be archived (C85_blank_refuted). Other failures of the database are excluded here (see C46)."
  },
  {
   "property": "C86",
   "status": "partial",
   "theorems": [
    "C86_last_limit_in_force_partial",
    "C86_no_limit",
    "C86_removed_refuted",
    "C86_unknown_refuted"
   ],
   "note": "The last limit given is in force, and without one there is none: in full. Setting -1 does not make a group unlimited (C86_removed_refuted), and groups without a limit are reported as 9223372036854775807 (C86_unknown_refuted). Group names without a colon; the failures of the database are those of bolt's limits on keys."
  },
  {
   "property": "C87",
   "status": "partial",
   "theorems": [
    "C87_start_below_limit_partial",
    "C87_start_if_below_partial",
    "C87_running_within_limits_partial",
    "C87_removed_refuted",
    "C87_earlier_refuted"
   ],
   "note": "For groups that had a limit before their first job asked to start, whose limit is never taken away, with each job naming a group once. Otherwise false: C87_removed_refuted, C87_earlier_refuted."
  },
  {
   "property": "C88",
   "status": "partial",
   "theorems": [
    "C88_listed_in_force",
    "C88_running_listed_partial",
    "C88_complete_refuted"
   ],
   "note": "The limits listed are in force, and groups of which counted jobs run are listed. Groups whose limit came with added jobs, or whose last job is done, are not listed (C88_complete_refuted)."
  },
  {
   "property": "C89",
   "status": "partial",
   "theorems": [
    "C89_names",
    "C89_last_limits_partial",
    "C89_last_limit_refuted"
   ],
   "note": "The groups in full. The last limit if no two jobs share a slice; with shared default groups through the REST API it is not the last one (C89_last_limit_refuted)."
  },
  {
   "property": "C90",
   "status": "partial",
   "theorems": [
    "C90_time_left",
    "C90_checked_again",
    "C90_started_late_refuted"
   ],
   "note": "Both checks as stated. That no job is started too late is false: for a job with the previous one's requirement the time the reservation took is not looked at (C90_started_late_refuted)."
  },
  {
   "property": "C91",
   "status": "partial",
   "theorems": [
    "C91_other_variables",
    "C91_manager",
    "C91_path_added",
    "C91_path_kept_partial",
    "C91_no_server",
    "C91_path_kept_refuted",
    "C91_on_path_refuted"
   ],
   "note": "Everything but PATH in full; a PATH lacking the directory in full. A PATH that has it is kept only if the runner had no job before that lacked it (C91_path_kept_refuted), and a directory whose name begins like the runner's passes for it (C91_on_path_refuted)."
  },
  {
   "property": "C92",
   "status": "proved",
   "theorems": [
    "C92_reserved_is_done",
    "C92_done_was_reserved",
    "C92_release_is_last",
    "C92_reserved_is_done_refuted"
   ],
   "note": "For environments in which PATH, if there, has a value; an entry PATH without \"=\" makes the runner panic with the job reserved (C92_reserved_is_done_refuted)."
  },
  {
   "property": "C93",
   "status": "partial",
   "theorems": [
    "C93_rest_delete_partial",
    "C93_rest_delete_all",
    "C93_running_refuted"
   ],
   "note": "All but the sparing of running jobs, which is false: the filter lets them through and deleteJobs does not look (C93_running_refuted)."
  },
  {
   "property": "C94",
   "status": "partial",
   "theorems": [
    "C94_rest_kill_partial",
    "C94_refused",
    "C94_key_kills_refuted",
    "C94_key_confirms_refuted",
    "C94_half_way_refuted"
   ],
   "note": "For requests that name no job by its key. A job named by its key is acted on whatever its state (C94_key_kills_refuted, C94_key_confirms_refuted), and the key of a complete job makes the request fail half way (C94_half_way_refuted)."
  },
  {
   "property": "C95",
   "status": "proved",
   "theorems": [
    "C95_authorized",
    "C95_without_token",
    "C95_with_token",
    "C95_client"
   ],
   "note": "The handlers are arbitrary functions; which of them ask for the token first is read off the code. Timing is not modelled."
  },
  {
   "property": "C96",
   "status": "partial",
   "theorems": [
    "C96_texts",
    "C96_lists",
    "C96_numbers",
    "C96_flags",
    "C96_req_group",
    "C96_options",
    "C96_parameters",
    "C96_behaviours",
    "C96_os_ram_refuted"
   ],
   "note": "All settings; behaviours are C74. The documented default of 1000 MB for the operating system is never used (C96_os_ram_refuted)."
  },
  {
   "property": "C97",
   "status": "partial",
   "theorems": [
    "C97_usable",
    "C97_refused_partial",
    "C97_taken",
    "C97_null_refuted",
    "C97_malformed_refuted",
    "C97_negative_refuted"
   ],
   "note": "Which jobs can be used, exactly; all or nothing for them and for the checked parameters. Not for null in place of a job, a panic (C97_null_refuted), nor malformed numbers among the parameters, which are 0 (C97_malformed_refuted); negative cores, times and disks are taken (C97_negative_refuted)."
  },
  {
   "property": "C98",
   "status": "partial",
   "theorems": [
    "C98_answer_partial"
   ],
   "note": "For the histories and requests of C46 (no request concerns a running or buried job; dependencies of a job stay the same; see there)."
  },
  {
   "property": "C99",
   "status": "proved",
   "theorems": [
    "C99_retry",
    "C99_kick"
   ],
   "note": ""
  },
  {
   "property": "C100",
   "status": "proved",
   "theorems": [
    "C100_remove"
   ],
   "note": "That all jobs go is for dependencies without cycles (a rank)."
  },
  {
   "property": "C101",
   "status": "proved",
   "theorems": [
    "C101_kill",
    "C101_hosts"
   ],
   "note": "Which host a job runs on is an argument."
  },
  {
   "property": "C102",
   "status": "partial",
   "theorems": [
    "C102_counts_partial",
    "C102_reserved_refuted"
   ],
   "note": "The counts of all jobs together; those of one rep group are counted by the same function. Reserved jobs an earlier run of which was lost count as lost (C102_reserved_refuted). Later changes of state are C103 and C104."
  },
  {
   "property": "C103",
   "status": "partial",
   "theorems": [
    "C103_in_order_partial",
    "C103_single_partial",
    "C103_order_refuted",
    "C103_surplus_refuted"
   ],
   "note": "For each count that does not fall below 0 on the way, and for messages about one job each in any order. False for larger counts out of order (C103_order_refuted, C103_surplus_refuted)."
  },
  {
   "property": "C104",
   "status": "partial",
   "theorems": [
    "C104_groups",
    "C104_all_partial",
    "C104_all_refuted",
    "C104_stale_refuted"
   ],
   "note": "For the histories of C15; running and lost jobs are taken together there, since Lost is read by goroutines, and may be that of an earlier run (C104_stale_refuted). A rep group called +all+ is counted twice (C104_all_refuted)."
  }
 ]
}
