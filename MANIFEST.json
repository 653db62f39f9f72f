{
 "claims": [
  {
   "property": "C01",
   "status": "proved",
   "theorems": [
    "C01_reserved_key_rejected",
    "C01_other_keys_forwarded"
   ],
   "note": "For every backend, state, source, event and mode."
  },
  {
   "property": "C02",
   "status": "proved",
   "theorems": [
    "C02_iter_shows_exactly_user_events",
    "C02_iter_membership",
    "C02_len",
    "C02_is_empty",
    "C02_clear"
   ],
   "note": "The visible events are characterised by the inductive relation `seen`."
  },
  {
   "property": "C03",
   "status": "proved",
   "theorems": [
    "C03_wait_counts_events",
    "C03_contended_wait_is_inert"
   ],
   "note": "For every list of backend attempts."
  },
  {
   "property": "C04",
   "status": "proved",
   "theorems": [
    "C04_interruptions_are_skipped",
    "C04_first_uninterrupted_attempt_decides"
   ],
   "note": "Any number of interrupted attempts before the deciding one."
  },
  {
   "property": "C05",
   "status": "proved",
   "theorems": [
    "C05_one_deadline",
    "C05_no_timeout_is_unbounded",
    "C05_timeouts_never_grow"
   ],
   "note": "One deadline; the timeout handed down is exactly the remaining time."
  },
  {
   "property": "C06",
   "status": "proved",
   "theorems": [
    "C06_errors_reported_flag_kept",
    "C06_error_is_the_platforms"
   ],
   "note": "Any non-interrupted error is returned and the flag is kept."
  },
  {
   "property": "C07",
   "status": "proved",
   "theorems": [
    "C07_at_most_one_waiter",
    "C07_contended_wait_returns_at_once",
    "C07_uncontended_wait_proceeds"
   ],
   "note": "Any number of threads, every interleaving."
  },
  {
   "property": "C08",
   "status": "proved",
   "theorems": [
    "C08_epoll_notify_not_lost",
    "C08_kick_can_complete",
    "C08_ready_wait_can_return",
    "C08_calls_are_bounded",
    "C08_calls_come_to_rest",
    "C08_notified_wait_returns"
   ],
   "note": "Unbounded threads and schedules; premise: neither the write to the notifier nor its re-arming fails. C08_notified_wait_returns: whatever the schedule, once no call under way can go on the blocked wait() has returned; premise for the pipe: fewer threads than the bytes it holds."
  },
  {
   "property": "C09",
   "status": "proved",
   "theorems": [
    "C09_notified_wait_returns",
    "C09_kqueue_notify_not_lost"
   ],
   "note": "As C08, with C09_notified_wait_returns, for EVFILT_USER and the socket pair."
  },
  {
   "property": "C10",
   "status": "proved",
   "theorems": [
    "C10_notified_wait_returns",
    "C10_port_notify_not_lost"
   ],
   "note": "As C08, with C10_notified_wait_returns, for port_send."
  },
  {
   "property": "C11",
   "status": "partial",
   "theorems": [
    "C11_failed_notify_silences_later_refuted",
    "C11_failed_trigger_silences_later_refuted",
    "C11_recovers_after_next_wait_partial"
   ],
   "note": "Refuted: when the platform's notify fails the flag of src/lib.rs:792 stays set and later notify() calls return Ok without waking anyone. Proved: the next wait() that returns Ok repairs it."
  },
  {
   "property": "C12",
   "status": "partial",
   "theorems": [
    "C12_failed_wait_silences_later_refuted",
    "C12_other_wait_errors_harmless_partial",
    "C12_recovers_after_next_wait_partial"
   ],
   "note": "Refuted when re-arming the notifier fails after the notification was consumed. Proved: every other wait error is harmless, and the next wait() that returns Ok repairs any failure."
  },
  {
   "property": "C13",
   "status": "partial",
   "theorems": [
    "C13_iocp_refuted",
    "C13_iocp_partial",
    "C13_poll_wait_does_not_append_refuted",
    "C13_poll_wait_replaces_partial"
   ],
   "note": "Refuted for the poll backend, which clears the container (src/poll.rs:215); what holds is that the container then has exactly one event for each descriptor for which the last poll(2) call of this wait returned flags. Refuted in the same way for IOCP (src/iocp/mod.rs)."
  },
  {
   "property": "C14",
   "status": "proved",
   "theorems": [
    "C14_wakeups_bounded_by_waits",
    "C14_wakeups_bounded_when_nobody_waits",
    "C14_one_wakeup_pending",
    "C14_next_wait_not_woken"
   ],
   "note": "Exactly one wake-up pending after any number of notify() calls; the wait that reports it leaves none."
  },
  {
   "property": "C15",
   "status": "proved",
   "theorems": [
    "C15_epoll_timeout_is_ceiling",
    "C15_ceiling_exists",
    "C15_ceiling_unique",
    "C15_epoll_timeout_in_range",
    "C15_epoll_timeout_zero_iff",
    "C15_epoll_no_timeout_is_infinite"
   ],
   "note": "Ceiling in milliseconds, saturating at i32::MAX."
  },
  {
   "property": "C16",
   "status": "proved",
   "theorems": [
    "C16_timerfd_exact",
    "C16_timerfd_zero_disarms",
    "C16_timerfd_none_disarms",
    "C16_public_timeouts_accepted",
    "C16_accepted",
    "C16_huge_timeouts_would_be_rejected"
   ],
   "note": "timerfd value exact; every value reachable from the public wait is accepted."
  },
  {
   "property": "C17",
   "status": "proved",
   "theorems": [
    "C17_poll_timeout_is_ceiling",
    "C17_deadlines_are_wellformed",
    "C17_poll_infinite_iff_no_deadline",
    "C17_poll_zero_iff_deadline_passed"
   ],
   "note": "Ceiling in milliseconds of the time left, saturating at i32::MAX."
  },
  {
   "property": "C18",
   "status": "proved",
   "theorems": [
    "C18_iocp_timeout_is_ceiling_or_infinite",
    "C18_iocp_no_timeout_is_infinite"
   ],
   "note": "Ceiling in milliseconds below u32::MAX, INFINITE otherwise."
  },
  {
   "property": "C19",
   "status": "proved",
   "theorems": [
    "C19_not_early",
    "C19_no_deadline"
   ],
   "note": "Any number of loop iterations, any clock. The events returned are exactly those this wait delivered."
  },
  {
   "property": "C20",
   "status": "proved",
   "theorems": [
    "C20_set_interrupt",
    "C20_set_priority",
    "C20_set_interrupt_touches_one_bit",
    "C20_set_priority_touches_one_bit",
    "C20_clear_extra",
    "C20_new",
    "C20_constructors"
   ],
   "note": "Set/get laws on the four flag-word platforms and the Hermit shim."
  },
  {
   "property": "C21",
   "status": "proved",
   "theorems": [
    "C21_kqueue_extra_noop"
   ],
   "note": "kqueue extras are no-ops."
  },
  {
   "property": "C22",
   "status": "proved",
   "theorems": [
    "C22_epoll",
    "C22_poll",
    "C22_port",
    "C22_kqueue",
    "C22_iocp",
    "C22_iocp_accessors",
    "C22_equal_reports",
    "C22_key_roundtrip"
   ],
   "note": "Exact classification of every flag word on five platforms."
  },
  {
   "property": "C23",
   "status": "proved",
   "theorems": [
    "C23_epoll",
    "C23_poll",
    "C23_port",
    "C23_iocp",
    "C23_kqueue"
   ],
   "note": "Exact bits of the kernel interest; for epoll and IOCP for interests built through the API."
  },
  {
   "property": "C24",
   "status": "partial",
   "theorems": [
    "C24_epoll_priority_partial",
    "C24_iocp_priority_partial",
    "C24_poll_priority_refuted",
    "C24_port_priority_refuted"
   ],
   "note": "Holds for epoll and IOCP. Refuted for poll (src/poll.rs:343) and event ports (src/port.rs:65), which ignore the extra flags of the interest."
  },
  {
   "property": "C25",
   "status": "partial",
   "theorems": [
    "C25_epoll_refuted",
    "C25_iocp_refuted",
    "C25_epoll_partial",
    "C25_iocp_partial",
    "C25_poll_port_partial"
   ],
   "note": "Refuted for epoll and IOCP when an event received from wait() is passed back with readable cleared: its extra flags still request reads. Holds for interests built through the API, and for poll and event ports always."
  },
  {
   "property": "C26",
   "status": "proved",
   "theorems": [
    "C26_table_is_notifier_then_registrations",
    "C26_calls_never_panic",
    "C26_wait_never_panics"
   ],
   "note": "Every history of calls and waits, every hash order, every conforming answer of poll(2)."
  },
  {
   "property": "C27",
   "status": "proved",
   "theorems": [
    "C27_call_results",
    "C27_successful_calls_update_one_registration",
    "C27_other_registrations_never_touched"
   ],
   "note": "Exact result of every call in every reachable state, and its exact effect."
  },
  {
   "property": "C28",
   "status": "partial",
   "theorems": [
    "C28_failed_modify_has_effect_refuted",
    "C28_other_failures_change_nothing_partial"
   ],
   "note": "Refuted: modify with an edge mode returns Unsupported after having replaced key and interest (src/poll.rs:158-168). Every other failing call leaves the state equal."
  },
  {
   "property": "C29",
   "status": "proved",
   "theorems": [
    "C29_wait_delivers_exactly_what_poll_returned",
    "C29_wait_disarms_only_reported_oneshots",
    "C29_wait_repeats_only_for_internal_wakeups",
    "C29_poll_error_returned"
   ],
   "note": "Exactly the reported descriptors, with the current key, in any hash order; only reported one-shots are disarmed."
  },
  {
   "property": "C30",
   "status": "partial",
   "theorems": [
    "C30_oneshot_delivered_twice_refuted",
    "C30_oneshot_once_unless_hup_partial"
   ],
   "note": "Refuted: POLLHUP/POLLERR/POLLNVAL are still reported for a disarmed one-shot (src/poll.rs:285). Proved as long as poll(2) returns only requested flags for it."
  },
  {
   "property": "C31",
   "status": "proved",
   "theorems": [
    "C31_table_used_by_one_thread",
    "C31_table_frozen_while_polling",
    "C31_calls_take_effect_one_at_a_time",
    "C31_poll_uses_current_table"
   ],
   "note": "Any number of threads, every interleaving, every channel, with failing system calls included."
  },
  {
   "property": "C32",
   "status": "proved",
   "theorems": [
    "C32_change_wakes_poll",
    "C32_sleeper_has_waker"
   ],
   "note": "While writes of wake-ups succeed; C32_sleeper_has_waker holds without that."
  },
  {
   "property": "C33",
   "status": "proved",
   "theorems": [
    "C33_calls_bounded",
    "C33_only_settled_states_are_stuck",
    "C33_calls_finish"
   ],
   "note": "Explicit bound 30n+12 for n threads; every run that cannot go on is settled. While writes of wake-ups succeed."
  },
  {
   "property": "C34",
   "status": "partial",
   "theorems": [
    "C34_notify_lost_refuted",
    "C34_waiter_stays_deaf_refuted",
    "C34_not_lost_partial",
    "C34_eventfd_not_lost_partial",
    "C34_nobody_left_waiting_partial"
   ],
   "note": "Refuted for the pipe: a wait() between the flag and the byte of notify() fails, leaves the flag of src/lib.rs set, and later notify() calls do nothing. Proved when no wait() fails that way, hence for the ESP-IDF eventfd, while writes succeed."
  },
  {
   "property": "C35",
   "status": "partial",
   "theorems": [
    "C35_wait_fails_spuriously_refuted",
    "C35_failures_need_a_notify_partial",
    "C35_no_other_failure_partial",
    "C35_other_channels_partial"
   ],
   "note": "Refuted for the pipe: wait() returns WouldBlock without any failing call. Proved: at most one such failure per notify(), no other failure, and none with the other channels."
  },
  {
   "property": "C36",
   "status": "partial",
   "theorems": [
    "C36_deadlock_refuted",
    "C36_only_blocked_reads_partial"
   ],
   "note": "Refuted for Vita and Hermit: a computed deadlock from which nothing moves without new calls. Proved: a blocking read of the empty channel is the only way to get stuck."
  },
  {
   "property": "C37",
   "status": "proved",
   "theorems": [
    "C37_channel_bounded",
    "C37_writes_never_block"
   ],
   "note": "Bound 2n+2 in every reachable state; a write never blocks if the pipe is larger."
  },
  {
   "property": "C38",
   "status": "proved",
   "theorems": [
    "C38_add",
    "C38_modify",
    "C38_delete"
   ],
   "note": "Exact result and exact effect of every call, in every reachable state, with failing system calls included."
  },
  {
   "property": "C39",
   "status": "proved",
   "theorems": [
    "C39_one_delivery_per_arming",
    "C39_once_per_batch"
   ],
   "note": "Every history; also at most once per batch."
  },
  {
   "property": "C40",
   "status": "proved",
   "theorems": [
    "C40_reported_while_ready",
    "C40_level_reported_while_ready",
    "C40_no_starvation"
   ],
   "note": "Also for armed one-shot sources, with the exact flags; a container too small for all ready sources passes one over at most (number of registrations - 1) times."
  },
  {
   "property": "C41",
   "status": "proved",
   "theorems": [
    "C41_reports_bounded_by_events",
    "C41_new_events_reported"
   ],
   "note": "The bound counts wake-ups by the file; also proved that a new event stays due until reported."
  },
  {
   "property": "C42",
   "status": "proved",
   "theorems": [
    "C42_reports_are_current",
    "C42_own_reports_have_reserved_key"
   ],
   "note": "Exactly the flags both watched and ready at the kernel call."
  },
  {
   "property": "C43",
   "status": "proved",
   "theorems": [
    "C43_add",
    "C43_modify",
    "C43_delete",
    "C43_delete_filter",
    "C43_no_collision"
   ],
   "note": "Premise: no two threads work on the same source at once (C72 is about that). The premise that deletes are not refused with ENOENT or EPIPE while the filter is there is part of `legal`."
  },
  {
   "property": "C44",
   "status": "partial",
   "theorems": [
    "C44_failed_add_partial",
    "C44_failed_add_refuted",
    "C44_panicking_add_refuted"
   ],
   "note": "Refuted: the source is entered before the kernel is asked (and before an unknown signal number panics) and is not taken out again. Proved: if adds fail only as duplicates, registered means successfully added."
  },
  {
   "property": "C45",
   "status": "proved",
   "theorems": [
    "C45_results",
    "C45_receipts"
   ],
   "note": "For any number of threads, overlapping calls included; and for every list of receipts."
  },
  {
   "property": "C46",
   "status": "partial",
   "theorems": [
    "C46_installed_partial",
    "C46_deleted",
    "C46_ignored_error_refuted"
   ],
   "note": "Refuted: EPIPE or ENOENT answered to an add is ignored, add succeeds and the filter is not installed. Proved if the kernel refuses nothing, and for delete."
  },
  {
   "property": "C47",
   "status": "proved",
   "theorems": [
    "C47_one_delivery_per_arming",
    "C47_always_oneshot",
    "C47_armings_are_calls"
   ],
   "note": "Two theorems, for kernels that replace the mode of an existing filter and for all kernels."
  },
  {
   "property": "C48",
   "status": "partial",
   "theorems": [
    "C48_iocp_events_visible_partial",
    "C48_iocp_refuted",
    "C48_kqueue_events_visible_partial",
    "C48_kqueue_refuted"
   ],
   "note": "Refuted for kqueue: add_filter takes the reserved key and the events are hidden. Proved: visible if the reserved key is not used. Refuted for IOCP: add_waitable and post take the reserved key, and the events they cause are put in the container and hidden. Proved: every event is shown if no waitable and no packet of the program has the reserved key."
  },
  {
   "property": "C49",
   "status": "proved",
   "theorems": [
    "C49_only_oneshot",
    "C49_add",
    "C49_modify",
    "C49_delete",
    "C49_watched_iff_registered"
   ],
   "note": "Including that the kernel watches exactly what the history of calls and deliveries says."
  },
  {
   "property": "C50",
   "status": "proved",
   "theorems": [
    "C50_one_delivery",
    "C50_once_per_batch",
    "C50_answers",
    "C50_no_loss_without_events",
    "C50_reports_current",
    "C50_claims",
    "C50_own_reports_have_reserved_key"
   ],
   "note": "Also: reports are about the current registration and carry exactly the covered conditions since it was made."
  },
  {
   "property": "C51",
   "status": "partial",
   "theorems": [
    "C51_poll_partial",
    "C51_epoll_partial",
    "C51_kqueue_partial",
    "C51_ports_refuted",
    "C51_iocp_partial",
    "C51_iocp_refuted"
   ],
   "note": "Refuted for event ports: modify and delete of an unknown source and a second add succeed. Refuted for IOCP: deleting an unknown socket succeeds. Proved for poll, epoll and kqueue, and for modify and a second add on IOCP (C81_exists_partial)."
  },
  {
   "property": "C52",
   "status": "proved",
   "theorems": [
    "C52_one_request",
    "C52_request_buffer",
    "C52_buffer_kept"
   ],
   "note": "Including that the buffer is not changed by anything but the completion while the request is in flight. Any number of threads."
  },
  {
   "property": "C53",
   "status": "proved",
   "theorems": [
    "C53_not_forgotten",
    "C53_update_installs",
    "C53_call_arms"
   ],
   "note": "Premise `spared`: the system refused nothing about the socket and it was not lost from the update queue (that a refusal about another socket can lose it is C82). Also: performing the update installs the interest."
  },
  {
   "property": "C54",
   "status": "partial",
   "theorems": [
    "C54_other_sources_partial",
    "C54_all_returned_partial",
    "C54_blocked_partial",
    "C54_refuted"
   ],
   "note": "Refuted: an add that has read the `polling` flag before wait() sets it can queue its update after wait() has drained the queue, and the blocked wait does not see it. Proved if no call was in progress at that moment, and for every source of which no add or modify was in progress then, whatever is done about other sources."
  },
  {
   "property": "C55",
   "status": "proved",
   "theorems": [
    "C55_only_asked",
    "C55_justified",
    "C55_oneshot"
   ],
   "note": "Every history; also that every delivery is justified by an arming."
  },
  {
   "property": "C56",
   "status": "partial",
   "theorems": [
    "C56_none_after_removal",
    "C56_after_delete_partial",
    "C56_refuted",
    "C56_unknown"
   ],
   "note": "Refuted: a second delete of the same socket returns before the first has reached the packet, so its event is delivered after. Proved: nothing after the removal itself, and nothing after delete if no other delete of the source is in progress (and no waiting thread has died); deleting an unknown socket changes nothing."
  },
  {
   "property": "C57",
   "status": "partial",
   "theorems": [
    "C57_oneshot_partial",
    "C57_no_more_partial",
    "C57_after_removal_partial",
    "C57_refuted"
   ],
   "note": "Refuted: a waitable whose callback has fired, or that is being updated, delivers after remove_waitable returned, repeatedly. Proved: nothing once no reference to the packet is left; with no modify in progress at the removal, nothing beyond the last interest, and from a one-shot waitable at most one event that says something."
  },
  {
   "property": "C58",
   "status": "partial",
   "theorems": [
    "C58_sockets_partial",
    "C58_refuted"
   ],
   "note": "Refuted for waitables (an empty interest still waits and delivers). Proved for sockets."
  },
  {
   "property": "C59",
   "status": "partial",
   "theorems": [
    "C59_cancel_partial",
    "C59_refuted"
   ],
   "note": "Refuted: the request block stays marked in use after a failed submission. Proved while a request is in flight (a cancellation, not a submission, is what is then needed)."
  },
  {
   "property": "C60",
   "status": "partial",
   "theorems": [
    "C60_processed_partial",
    "C60_accounted_partial",
    "C60_at_most_once",
    "C60_refuted"
   ],
   "note": "Refuted: an error in the middle of a batch drops the rest, and the sockets stay without a request for ever. Proved: at most once always; exactly once if the system refuses nothing; otherwise every completion is accounted for: processed, outstanding or thrown away after a refusal."
  },
  {
   "property": "C61",
   "status": "partial",
   "theorems": [
    "C61_only_closed_partial",
    "C61_deadlock_refuted",
    "C61_panic_refuted",
    "C61_other_refuted",
    "C61_asked_only_partial"
   ],
   "note": "Refuted three times: the waiting thread deadlocks on the source lock, panics on an empty map, or removes another registration of a reused socket number. Each needs AFD to report LOCAL_CLOSE, which the poller never asks for. Proved: only such a report can kill the waiting thread, and it never dies if AFD reports only what it was asked about."
  },
  {
   "property": "C62",
   "status": "proved",
   "theorems": [
    "C62_exact_count",
    "C62_no_use_after_free",
    "C62_leaks",
    "C62_freed"
   ],
   "note": "Exact count = owners + leaks in every reachable state; leaks are characterised: refused submissions and removed waitables."
  },
  {
   "property": "C63",
   "status": "proved",
   "theorems": [
    "C63_at_most_32",
    "C63_never_blocked",
    "C63_terminates",
    "C63_lock_released",
    "C63_prunes_only_dead",
    "C63_in_use_is_found",
    "C63_once",
    "C63_creates_only_if_full",
    "C63_closed_once"
   ],
   "note": "Separate model of afd_handle: any pool, any number of threads, packets freed at any moment. Also: an instance is closed exactly once, when its last user is gone."
  },
  {
   "property": "C64",
   "status": "proved",
   "theorems": [
    "C64_notified_wait_returns",
    "C64_not_lost"
   ],
   "note": "Premises in the statement; C83 refutes it without the second. Also: when the calls have come to rest the notified wait has returned."
  },
  {
   "property": "C65",
   "status": "proved",
   "theorems": [
    "C65_exactly_once",
    "C65_conserved",
    "C65_value",
    "C65_value_kept",
    "C65_calls"
   ],
   "note": "Also without the premise: every posted packet is delivered, lost or outstanding."
  },
  {
   "property": "C66",
   "status": "partial",
   "theorems": [
    "C66_with_capacity_partial",
    "C66_with_capacity_refuted",
    "C66_capacity_never_panics",
    "C66_new_has_default_capacity"
   ],
   "note": "Refuted: on every platform Events::with_capacity panics for capacities whose entries would take more than isize::MAX bytes (the standard library does, and no error can be returned). Proved: it panics for no other capacity, new() never does, and capacity() never does and is not below what was asked. Not modelled: failing allocations, which end the process."
  },
  {
   "property": "C67",
   "status": "proved",
   "theorems": [
    "C67_poll_wait_never_interrupted",
    "C67_poll_timeouts_from_one_deadline"
   ],
   "note": "Any number of interruptions."
  },
  {
   "property": "C68",
   "status": "proved",
   "theorems": [
    "C68_timer_set_by_this_wait",
    "C68_deadline_ends_wait",
    "C68_only_its_own_deadline",
    "C68_timer_running"
   ],
   "note": "Premise: timerfd_create succeeded, as on every Linux with timerfd."
  },
  {
   "property": "C69",
   "status": "proved",
   "theorems": [
    "C69_notification_ends_wait"
   ],
   "note": "Refuted without the premise (C12)."
  },
  {
   "property": "C70",
   "status": "proved",
   "theorems": [
    "C70_reports_are_current",
    "C70_own_reports_have_reserved_key",
    "C70_once_per_batch"
   ],
   "note": "On a 64-bit target; any number of threads."
  },
  {
   "property": "C71",
   "status": "proved",
   "theorems": [
    "C71_occurrence_reported",
    "C71_level_reported_while_ready",
    "C71_news_reported"
   ],
   "note": "Any number of threads. While it is ready: descriptor filters. From the moment something happens until it is reported: every filter, also signals, processes and timers."
  },
  {
   "property": "C72",
   "status": "partial",
   "theorems": [
    "C72_unregistered_unwatched_partial",
    "C72_add_races_delete_refuted"
   ],
   "note": "Refuted: add overlapping delete. Proved if calls on one source do not overlap."
  },
  {
   "property": "C73",
   "status": "partial",
   "theorems": [
    "C73_modify_sets_mode_partial",
    "C73_modify_keeps_mode_refuted"
   ],
   "note": "Refuted for kernels that keep the flags of an existing filter (FreeBSD). Proved for the others, and for filters not watched before."
  },
  {
   "property": "C74",
   "status": "partial",
   "theorems": [
    "C74_one_report_per_notification_partial",
    "C74_notification_repeats_refuted"
   ],
   "note": "Refuted for EVFILT_USER on a kernel that replaces the flags of an existing filter: the trigger drops EV_CLEAR. Proved for EVFILT_USER on kernels that keep them, and for the socket pair."
  },
  {
   "property": "C75",
   "status": "partial",
   "theorems": [
    "C75_notification_ends_wait_partial",
    "C75_lost_after_failed_wait_refuted"
   ],
   "note": "Refuted for the socket pair: a failed re-registration loses all later notifications. Proved for EVFILT_USER, and for the socket pair while the last re-registration succeeded."
  },
  {
   "property": "C76",
   "status": "partial",
   "theorems": [
    "C76_filter_installed_partial",
    "C76_modify_keeps_mode_refuted",
    "C76_ignored_error_refuted"
   ],
   "note": "Refuted twice: modify_filter does not change the mode on kernels that keep the flags of an existing filter (FreeBSD), and an add_filter answered with ENOENT or EPIPE succeeds without the filter. Proved if the kernel refuses nothing: key and parameter always, the mode if the kernel replaces flags or the filter was not there."
  },
  {
   "property": "C77",
   "status": "partial",
   "theorems": [
    "C77_others_unaffected_partial",
    "C77_refused_unaffected_partial",
    "C77_failed_modify_refuted"
   ],
   "note": "Refuted: the read filter is changed although the write filter is refused. Proved: no other source is affected, nor a filter whose own change was not granted."
  },
  {
   "property": "C78",
   "status": "proved",
   "theorems": [
    "C78_poll_early_returns_bounded"
   ],
   "note": "Any number of threads, all four channels."
  },
  {
   "property": "C79",
   "status": "proved",
   "theorems": [
    "C79_wait_returns",
    "C79_not_starved",
    "C79_next_wait"
   ],
   "note": "FIFO port queue, as in illumos portfs."
  },
  {
   "property": "C80",
   "status": "proved",
   "theorems": [
    "C80_notification_ends_wait",
    "C80_no_more_than_sent",
    "C80_no_spurious_wakeup"
   ],
   "note": "Any history."
  },
  {
   "property": "C81",
   "status": "partial",
   "theorems": [
    "C81_missing_partial",
    "C81_refused_lookup_partial",
    "C81_waitable_exists_partial",
    "C81_mode_partial",
    "C81_exists_partial",
    "C81_refuted"
   ],
   "note": "Refuted: a refused submission leaves the socket registered and dead. Proved for an unsupported mode, a second add, a modify of something unregistered, and an add whose base socket or AFD handle is refused (IocpFailProps)."
  },
  {
   "property": "C82",
   "status": "partial",
   "theorems": [
    "C82_refused_partial",
    "C82_refuted"
   ],
   "note": "Refuted: an add fails because of another socket drained from the queue, and is itself lost. Proved: a delete, remove_waitable, post or notify fails only because the system refused, during that call, what the call itself asked for; a modify only because the system refused something during the call."
  },
  {
   "property": "C83",
   "status": "partial",
   "theorems": [
    "C83_recovers_partial",
    "C83_posts_partial",
    "C83_refuted"
   ],
   "note": "Refuted: the notified flag stays set. Proved: the next wait that returns clears it, and with the flag clear a notify posts."
  },
  {
   "property": "C84",
   "status": "proved",
   "theorems": [
    "C84_sockets",
    "C84_readable",
    "C84_writable",
    "C84_waitables"
   ],
   "note": "Exact event for every report."
  },
  {
   "property": "C85",
   "status": "proved",
   "theorems": [
    "C85_failure_leaks_nothing",
    "C85_success",
    "C85_never_panics"
   ],
   "note": "epoll (Linux, Redox, pipe), kqueue (both notifiers), event ports, poll (pipe, Haiku, eventfd), completion ports."
  },
  {
   "property": "C86",
   "status": "proved",
   "theorems": [
    "C86_drop",
    "C86_histories",
    "C86_nothing_left",
    "C86_sane"
   ],
   "note": "Any number of pollers of any kind; numbers are reused."
  },
  {
   "property": "C87",
   "status": "proved",
   "theorems": [
    "C87_flags"
   ],
   "note": "Not ESP-IDF and Hermit, where there is no exec and no flag is passed."
  },
  {
   "property": "C88",
   "status": "proved",
   "theorems": [
    "C88_watches",
    "C88_epoll_starts"
   ],
   "note": "Also: for epoll these are the registrations from which the histories of the epoll model start."
  },
  {
   "property": "C89",
   "status": "proved",
   "theorems": [
    "C89_reason",
    "C89_old_kernels"
   ],
   "note": "Including which calls are dispensable. On Windows a missing ntdll function or AFD device shows as an error of kind Unsupported."
  },
  {
   "property": "C90",
   "status": "partial",
   "theorems": [
    "C90_count",
    "C90_freed_partial",
    "C90_later",
    "C90_not_too_early",
    "C90_waitables_partial",
    "C90_refuted",
    "C90_notifier_refuted"
   ],
   "note": "Refuted: the packet of a source that was registered and deleted, and the notifier's packet, are never freed if a request is in flight or a notification untaken. Proved: the exact count of every packet at every later moment; everything is freed if nothing is in flight; a waitable's packet is freed once its callback has run; nothing is freed that the system has an address of."
  },
  {
   "property": "C91",
   "status": "proved",
   "theorems": [
    "C91_poll",
    "C91_epoll",
    "C91_kqueue",
    "C91_port",
    "C91_iocp"
   ],
   "note": "Five backends. Errors of the system are of another kind in the models, including one from looking up the base socket on IOCP."
  },
  {
   "property": "C92",
   "status": "partial",
   "theorems": [
    "C92_connect_failed_refuted",
    "C92_same_answer_partial",
    "C92_iocp_partial"
   ],
   "note": "Refuted: on epoll and event ports is_connect_failed needs both error and hang-up, on poll one of them is enough, as documented. Proved: is_err agrees everywhere; is_connect_failed agrees if both or neither are reported; on IOCP both are exactly AFD's report that the connection failed."
  },
  {
   "property": "C93",
   "status": "partial",
   "theorems": [
    "C93_layers_refuted",
    "C93_one_layer_partial",
    "C93_right_partial",
    "C93_questions_partial",
    "C93_failures_partial"
   ],
   "note": "Refuted: below two providers that do not know SIO_BASE_HANDLE the search gives up. Proved: found with at most one; what is found is right; at most three questions; failures are the providers'."
  },
  {
   "property": "C94",
   "status": "proved",
   "theorems": [
    "C94_bounded",
    "C94_calls_return",
    "C94_comes_to_rest"
   ],
   "note": "Any number of threads, any capacity of the queue of updates. The bound is explicit and global: the steps of all calls together are at most 4 n + 36 for each call, completion or other thing from outside."
  },
  {
   "property": "C95",
   "status": "proved",
   "theorems": [
    "C95_once",
    "C95_armed_between"
   ],
   "note": "The second completion comes from a modify during the callback (C95_case)."
  },
  {
   "property": "C96",
   "status": "partial",
   "theorems": [
    "C96_not_early_partial",
    "C96_no_timeout",
    "C96_not_late_partial",
    "C96_refuted",
    "C96_late_refuted"
   ],
   "note": "Refuted twice: on epoll without a timerfd and on poll a timeout of more than 2^31-1 ms is cut off and wait gives up early; on IOCP one of 2^32-1 ms or more becomes no timeout. Proved for all other timeouts, and for those without a limit."
  },
  {
   "property": "C97",
   "status": "partial",
   "theorems": [
    "C97_iocp_capacity_partial",
    "C97_iocp_capacity_refuted",
    "C97_lib_wait",
    "C97_poll",
    "C97_epoll",
    "C97_ports",
    "C97_kqueue_partial",
    "C97_kqueue_refuted",
    "C97_iocp_calls",
    "C97_iocp_assertions",
    "C97_iocp_wait_partial",
    "C97_iocp_wait_refuted"
   ],
   "note": "Refuted three times: on kqueue a signal number that does not exist panics (src/os/kqueue.rs:156), on IOCP wait panics when AFD reports a local close (src/iocp/mod.rs:1009), and on 64-bit Windows it panics when the Events passed was made for 2^32 entries or more (src/iocp/port.rs:234; CapacityProps). Proved: nothing else does, on any backend; the two debug assertions on the polling flag hold."
  },
  {
   "property": "C98",
   "status": "partial",
   "theorems": [
    "C98_poll",
    "C98_epoll",
    "C98_kqueue_partial",
    "C98_same_answers_partial",
    "C98_ports_refuted",
    "C98_iocp_refuted",
    "C98_kqueue_refuted"
   ],
   "note": "Refuted for event ports (a second add, modify and delete of an unknown source succeed), IOCP (delete of an unknown source succeeds) and for kqueue after an add that failed for another reason. Proved for poll, epoll, and kqueue when the kernel refuses nothing: hence equal answers there."
  },
  {
   "property": "C99",
   "status": "proved",
   "theorems": [
    "C99_same_answer",
    "C99_decided_by_system",
    "C99_never_fails_later",
    "C99_returns"
   ],
   "note": "Any number of threads; std::sync::Once is trusted to run the closure once."
  },
  {
   "property": "C100",
   "status": "proved",
   "theorems": [
    "C100_fields_apart",
    "C100_request",
    "C100_answer",
    "C100_unanswered",
    "C100_status_block"
   ],
   "note": "Bytes, with the layout that repr(C) prescribes computed in the model; the kernel's view is the layout of AFD_POLL_INFO. Also that the fields of every repr(C) structure are apart."
  },
  {
   "property": "C101",
   "status": "partial",
   "theorems": [
    "C101_guarded_partial",
    "C101_slots_alone_partial",
    "C101_refuted"
   ],
   "note": "Refuted for messages kept in release/acquire atomics: a notify() that finds a notification pending executes only a compare_exchange that fails, which is a load and publishes nothing; the reader that is just being woken may miss the message and then sleep, with nothing pending. Proved for messages kept under a lock or in SeqCst atomics, and for release/acquire atomics when notify() found no notification pending. The backend is reduced to a channel that holds a wake-up."
  },
  {
   "property": "C102",
   "status": "partial",
   "theorems": [
    "C102_epoll",
    "C102_ports",
    "C102_iocp_sockets",
    "C102_kqueue_each_kind_partial",
    "C102_kqueue_refuted",
    "C102_poll_refuted"
   ],
   "note": "Proved for epoll, event ports and the sockets of completion ports. Refuted on kqueue, where a descriptor registered once for both directions gives two events, also in two different waits: reading and writing are two one-shot filters (proved: one event per direction and arming). Refuted on poll, where POLLHUP is reported again (proved for requested flags: C30)."
  },
  {
   "property": "C103",
   "status": "partial",
   "theorems": [
    "C103_silent_after_delete",
    "C103_key_after_modify",
    "C103_epoll",
    "C103_ports",
    "C103_iocp_sockets_partial",
    "C103_kqueue_partial",
    "C103_poll_partial",
    "C103_poll_refuted"
   ],
   "note": "Proved for epoll and event ports, and for the sockets of completion ports counting a delete when it removes the packet (that it may return earlier is C56_refuted). kqueue: proved for what the kernel does, filter by filter; a call that fails may have changed filters (C77). poll, for any number of threads: proved if no modify() asks for a mode that poll lacks; refuted otherwise, such a modify fails but replaces the key."
  },
  {
   "property": "C104",
   "status": "proved",
   "theorems": [
    "C104_poll_watches_only_registered",
    "C104_poll_deleted_is_not_watched",
    "C104_contract_is_enough",
    "C104_number_starts_afresh",
    "C104_epoll_left_over",
    "C104_epoll_contract_needed",
    "C104_poll_contract_needed",
    "C104_kqueue_contract_needed"
   ],
   "note": "Separate model of descriptors and files for the four Unix backends; a wait may report any registration at any time. Beside the contract: what goes wrong without it, among that that a left-over registration of epoll survives every call (C104_epoll_left_over). For poll and any number of threads, also in the middle of a wait: what poll(2) was given is what is registered now."
  },
  {
   "property": "C105",
   "status": "proved",
   "theorems": [
    "C105_backend",
    "C105_pieces_fit",
    "C105_unsupported",
    "C105_which",
    "C105_test_poll"
   ],
   "note": "Model of the cfg predicates and of the places they gate. The facts about targets (Fuchsia, VxWorks and Horizon are unix, for instance) are hypotheses; an example shows what happens without them. With the flag for testing the poll backend the crate fits on unix and Hermit, and not on Windows (the flag is not a public interface)."
  },
  {
   "property": "C106",
   "status": "partial",
   "theorems": [
    "C106_partial",
    "C106_disabled_for_ever",
    "C106_notify_swallowed",
    "C106_ops_recover",
    "C106_ops_stay_dead",
    "C106_refuted"
   ],
   "note": "Separate model of the mutexes with poisoning, for the three ways in which backends take their own locks. Refuted (C106_refuted, every backend): try_lock fails on a poisoned mutex as on a taken one, so after a wait() that panicked every wait() returns Ok(0) at once, for ever (C106_disabled_for_ever), and notify() soon does nothing (C106_notify_swallowed: at most one notification per thread reaches the backend). With poll, add, modify and delete may panic too, and if so they do for ever (C106_ops_stay_dead); with the others they go on working (C106_ops_recover). Panics of add, modify, delete and notify with a reason of their own (src/os/kqueue.rs:156, the spans of the tracing library) happen where no lock is held, are modelled and do not change this (C106_own_panics_case). Proved: without a panic of a wait() the property holds."
  },
  {
   "property": "C107",
   "status": "partial",
   "theorems": [
    "C107_waitable_kept",
    "C107_waitable_blocked_partial",
    "C107_socket_partial",
    "C107_waitable_partial",
    "C107_socket_refuted",
    "C107_waitable_refuted"
   ],
   "note": "Refuted for sockets and for waitable handles (C107_socket_refuted, C107_waitable_refuted): a call that reads the polling flag before wait() sets it, and queues its update after wait() emptied the queue, returns Ok; the wait sleeps although the source is ready. Proved: it holds for a wait that began while no add or modify of that source was in progress, and sources for which the system refused nothing; and at every moment a waitable handle with an interest has a registered wait, a callback, a completion, a queued update or a call at work (C107_waitable_kept). Missing: the waits that overlap a call about the source at their start, where it is false."
  },
  {
   "property": "C108",
   "status": "partial",
   "theorems": [
    "C108_watched_partial",
    "C108_returns_partial",
    "C108_reported_partial",
    "C108_refuted"
   ],
   "note": "Refuted in one corner (C108_refuted): a modify with a mode that poll does not have fails, but its interest has replaced the one asked for (C28), so that wait() sleeps although the source is readable. Proved: without such a modify of the source, it is watched while wait() is in poll(2) (C108_watched_partial), poll(2) returns (C108_returns_partial), and this wait() ends with an event for it (C108_reported_partial). Missing: sources for which such a modify has failed, where it is false."
  },
  {
   "property": "C109",
   "status": "proved",
   "theorems": [
    "C109_as_if_one_at_a_time",
    "C109_effect_within_call",
    "C109_second_add"
   ],
   "note": "IocpLinProps: linearizability of the calls on completion ports. A call that fails with an error of the system after it has entered or changed the source counts as carried out (C81). A removal by wait() itself needs a report of AFD that the socket was closed."
  },
  {
   "property": "C110",
   "status": "proved",
   "theorems": [
    "C110_in_order",
    "C110_rest",
    "C110_order_kept",
    "C110_in_turn",
    "C110_container",
    "C110_posts_in_order"
   ],
   "note": "IocpOrderProps: first in, first out. That the port itself is a queue is part of the model of the system; the theorems are about what wait() makes of the batches that it takes. With failing waits only the order is kept (C60)."
  },
  {
   "property": "C111",
   "status": "partial",
   "theorems": [
    "C111_new_occurrence",
    "C111_oneshot_modes_partial",
    "C111_signal_repeats_refuted"
   ],
   "note": "Refuted (C111_signal_repeats_refuted): the mode is passed to the kernel as given, so a signal added with Level or Edge is delivered again each time it occurs. Proved: once per arming if it is only asked for in one-shot modes; and in every mode, between two events about a signal, process or timer something new has happened to it (C111_new_occurrence)."
  },
  {
   "property": "C112",
   "status": "partial",
   "theorems": [
    "C112_kqueue_source",
    "C112_kqueue_news",
    "C112_kqueue_notified",
    "C112_ports_source",
    "C112_ports_notified",
    "C112_ports_iff",
    "C112_ports_reason",
    "C112_epoll_source",
    "C112_epoll_news",
    "C112_epoll_notified",
    "C112_epoll_reason",
    "C112_epoll_complete",
    "C112_epoll_sound_partial",
    "C112_epoll_sound_no_timerfd",
    "C112_epoll_refuted"
   ],
   "note": "Refuted on epoll with a timerfd (C112_epoll_refuted): a wait with a timeout that is ended early leaves the timer running; when it expires the descriptor becomes readable, although nothing is ready and a wait called then sleeps. Proved on epoll: readable whenever such a wait would return, and whenever a source is ready or a notification is pending; the converse without a timerfd, and with one unless such a leftover deadline has passed; and there is no other reason to be readable. Proved on event ports in both directions; on kqueue the direction from ready or notified to readable (the kernels differ in the other one)."
  },
  {
   "property": "C113",
   "status": "partial",
   "theorems": [
    "C113_epoll_partial",
    "C113_iocp_partial",
    "C113_kqueue_partial",
    "C113_poll_refuted",
    "C113_poll_partial",
    "C113_ports_partial"
   ],
   "note": "Refuted on poll (C113_poll_refuted): for every capacity there is a wait that puts more events than that into the container, which is a Vec that grows; there a wait reports at most as many events as descriptors are registered (C113_poll_partial). Proved on epoll, kqueue, event ports and completion ports, for every capacity, also when the wait fails half way (completion ports); that what stays behind is not forgotten is C40, C79 and C110. That epoll_wait, kevent and port_getn write no more entries than they are given room for is part of the model of the kernel."
  },
  {
   "property": "C114",
   "status": "partial",
   "theorems": [
    "C114_epoll_partial",
    "C114_epoll_refuted",
    "C114_kqueue_partial",
    "C114_poll_partial",
    "C114_poll_refuted",
    "C114_ports_partial",
    "C114_ports_refuted"
   ],
   "note": "Refuted on epoll, event ports and poll (C114_epoll_refuted, C114_ports_refuted, C114_poll_refuted): a hang-up of a source whose interest was switched off is reported, as readable and writable. Proved there: nothing but errors, hang-ups and (event ports, poll) bad descriptors is reported for it. Proved on kqueue: nothing at all is reported until the kernel accepts another registration of that kind, also if calls of other threads overlap."
  },
  {
   "property": "C115",
   "status": "partial",
   "theorems": [
    "C115_iocp_sockets_partial",
    "C115_iocp_waitables_refuted",
    "C115_epoll_partial",
    "C115_ports_partial",
    "C115_poll_partial",
    "C115_kqueue_refuted",
    "C115_kqueue_partial"
   ],
   "note": "Refuted on kqueue (C115_kqueue_refuted): a descriptor that is readable and writable gives two events, one for each; two events of one wait about the same source are never anything else (C115_kqueue_partial). Refuted for waitables of completion ports (C115_iocp_waitables_refuted): if modify_waitable is called while a completion is in the queue, a second wait is registered, and one wait() reports the waitable twice. Proved on epoll, event ports, poll and for sockets of completion ports, with calls of any number of threads in between."
  },
  {
   "property": "C116",
   "status": "proved",
   "theorems": [
    "C116_used_up_means_reported",
    "C116_failed_wait_uses_up_nothing"
   ],
   "note": "Any number of threads, every interleaving and every failure."
  },
  {
   "property": "C117",
   "status": "partial",
   "theorems": [
    "C117_returned_partial",
    "C117_no_refusal_partial",
    "C117_refuted"
   ],
   "note": "Refuted: if the queue of updates is full when a completion is processed and the update that must make room is refused, feed_event has already cleared the one-shot interest and its event is dropped with the error. Proved: a wait() that succeeds returns exactly the events it processed; one that fails misses at most the last one, and only after a refused update."
  },
  {
   "property": "C118",
   "status": "proved",
   "theorems": [
    "C118_zero_returns",
    "C118_kernel_timeout",
    "C118_waits_for_event",
    "C118_iocp_deadline_seen_once",
    "C118_kqueue_zero_returns",
    "C118_kqueue_waits_for_event",
    "C118_poll_zero_never_waits",
    "C118_poll_passed_deadline",
    "C118_poll_no_timeout"
   ],
   "note": "The system calls of the zero-timeout wait are assumed to succeed; if one fails, the wait ends there with its error (LFail, LWaitFail)."
  },
  {
   "property": "C119",
   "status": "partial",
   "theorems": [
    "C119_epoll_partial",
    "C119_epoll_refuted",
    "C119_kqueue_user_partial",
    "C119_kqueue_partial",
    "C119_kqueue_refuted"
   ],
   "note": "Refuted on epoll and on kqueue with a socket pair. Proved: with a user event a wait() never fails after taking events; on every kqueue system and on epoll it fails after taking events only if the system refuses to arm the notifier again. The model lets the system refuse any call with any error."
  }
 ]
}