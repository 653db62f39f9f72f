P, H = "proved", "partial"
STATUS = {
"C01": (P, "For every backend, state, source, event and mode."),
"C02": (P, "The visible events are characterised by the inductive relation `seen`."),
"C03": (P, "For every list of backend attempts."),
"C04": (P, "Any number of interrupted attempts before the deciding one."),
"C05": (P, "One deadline; the timeout handed down is exactly the remaining time."),
"C06": (P, "Any non-interrupted error is returned and the flag is kept."),
"C15": (P, "Ceiling in milliseconds, saturating at i32::MAX."),
"C16": (P, "timerfd value exact; every value reachable from the public wait is accepted."),
"C17": (P, "Ceiling in milliseconds of the time left, saturating at i32::MAX."),
"C18": (P, "Ceiling in milliseconds below u32::MAX, INFINITE otherwise."),
"C20": (P, "Set/get laws on the four flag-word platforms and the Hermit shim."),
"C21": (P, "kqueue extras are no-ops."),
"C22": (P, "Exact classification of every flag word on five platforms."),
"C23": (P, "Exact bits of the kernel interest; for epoll and IOCP for interests built through the API."),
"C24": (H, "Holds for epoll and IOCP. Refuted for poll (src/poll.rs:343) and event ports (src/port.rs:65), which ignore the extra flags of the interest."),
"C25": (H, "Refuted for epoll and IOCP when an event received from wait() is passed back with readable cleared: its extra flags still request reads. Holds for interests built through the API, and for poll and event ports always."),
"C66": (H, "Refuted: on every platform Events::with_capacity panics for capacities whose entries would take more than isize::MAX bytes (the standard library does, and no error can be returned). Proved: it panics for no other capacity, new() never does, and capacity() never does and is not below what was asked. Not modelled: failing allocations, which end the process."),
"C07": (P, "Any number of threads, every interleaving."),
"C08": (P, "Unbounded threads and schedules; premise: neither the write to the notifier nor its re-arming fails. C08_notified_wait_returns: whatever the schedule, once no call under way can go on the blocked wait() has returned; premise for the pipe: fewer threads than the bytes it holds."),
"C09": (P, "As C08, with C09_notified_wait_returns, for EVFILT_USER and the socket pair."),
"C10": (P, "As C08, with C10_notified_wait_returns, for port_send."),
"C11": (H, "Refuted: when the platform's notify fails the flag of src/lib.rs:792 stays set and later notify() calls return Ok without waking anyone. Proved: the next wait() that returns Ok repairs it."),
"C12": (H, "Refuted when re-arming the notifier fails after the notification was consumed. Proved: every other wait error is harmless, and the next wait() that returns Ok repairs any failure."),
"C14": (P, "Exactly one wake-up pending after any number of notify() calls; the wait that reports it leaves none."),
"C13": (H, "Refuted for the poll backend, which clears the container (src/poll.rs:215); what holds is that the container then has exactly one event for each descriptor for which the last poll(2) call of this wait returned flags. Refuted in the same way for IOCP (src/iocp/mod.rs)."),
"C26": (P, "Every history of calls and waits, every hash order, every conforming answer of poll(2)."),
"C27": (P, "Exact result of every call in every reachable state, and its exact effect."),
"C28": (H, "Refuted: modify with an edge mode returns Unsupported after having replaced key and interest (src/poll.rs:158-168). Every other failing call leaves the state equal."),
"C29": (P, "Exactly the reported descriptors, with the current key, in any hash order; only reported one-shots are disarmed."),
"C30": (H, "Refuted: POLLHUP/POLLERR/POLLNVAL are still reported for a disarmed one-shot (src/poll.rs:285). Proved as long as poll(2) returns only requested flags for it."),
"C67": (P, "Any number of interruptions."),
"C31": (P, "Any number of threads, every interleaving, every channel, with failing system calls included."),
"C32": (P, "While writes of wake-ups succeed; C32_sleeper_has_waker holds without that."),
"C33": (P, "Explicit bound 30n+12 for n threads; every run that cannot go on is settled. While writes of wake-ups succeed."),
"C34": (H, "Refuted for the pipe: a wait() between the flag and the byte of notify() fails, leaves the flag of src/lib.rs set, and later notify() calls do nothing. Proved when no wait() fails that way, hence for the ESP-IDF eventfd, while writes succeed."),
"C35": (H, "Refuted for the pipe: wait() returns WouldBlock without any failing call. Proved: at most one such failure per notify(), no other failure, and none with the other channels."),
"C36": (H, "Refuted for Vita and Hermit: a computed deadlock from which nothing moves without new calls. Proved: a blocking read of the empty channel is the only way to get stuck."),
"C37": (P, "Bound 2n+2 in every reachable state; a write never blocks if the pipe is larger."),
"C38": (P, "Exact result and exact effect of every call, in every reachable state, with failing system calls included."),
"C39": (P, "Every history; also at most once per batch."),
"C40": (P, "Also for armed one-shot sources, with the exact flags; a container too small for all ready sources passes one over at most (number of registrations - 1) times."),
"C41": (P, "The bound counts wake-ups by the file; also proved that a new event stays due until reported."),
"C42": (P, "Exactly the flags both watched and ready at the kernel call."),
"C68": (P, "Premise: timerfd_create succeeded, as on every Linux with timerfd."),
"C69": (P, "Refuted without the premise (C12)."),
"C43": (P, "Premise: no two threads work on the same source at once (C72 is about that). The premise that deletes are not refused with ENOENT or EPIPE while the filter is there is part of `legal`."),
"C44": (H, "Refuted: the source is entered before the kernel is asked (and before an unknown signal number panics) and is not taken out again. Proved: if adds fail only as duplicates, registered means successfully added."),
"C45": (P, "For any number of threads, overlapping calls included; and for every list of receipts."),
"C46": (H, "Refuted: EPIPE or ENOENT answered to an add is ignored, add succeeds and the filter is not installed. Proved if the kernel refuses nothing, and for delete."),
"C47": (P, "Two theorems, for kernels that replace the mode of an existing filter and for all kernels."),
"C48": (H, "Refuted for kqueue: add_filter takes the reserved key and the events are hidden. Proved: visible if the reserved key is not used. Refuted for IOCP: add_waitable and post take the reserved key, and the events they cause are put in the container and hidden. Proved: every event is shown if no waitable and no packet of the program has the reserved key."),
"C70": (P, "On a 64-bit target; any number of threads."),
"C71": (P, "Any number of threads. While it is ready: descriptor filters. From the moment something happens until it is reported: every filter, also signals, processes and timers."),
"C72": (H, "Refuted: add overlapping delete. Proved if calls on one source do not overlap."),
"C73": (H, "Refuted for kernels that keep the flags of an existing filter (FreeBSD). Proved for the others, and for filters not watched before."),
"C74": (H, "Refuted for EVFILT_USER on a kernel that replaces the flags of an existing filter: the trigger drops EV_CLEAR. Proved for EVFILT_USER on kernels that keep them, and for the socket pair."),
"C75": (H, "Refuted for the socket pair: a failed re-registration loses all later notifications. Proved for EVFILT_USER, and for the socket pair while the last re-registration succeeded."),
"C76": (H, "Refuted twice: modify_filter does not change the mode on kernels that keep the flags of an existing filter (FreeBSD), and an add_filter answered with ENOENT or EPIPE succeeds without the filter. Proved if the kernel refuses nothing: key and parameter always, the mode if the kernel replaces flags or the filter was not there."),
"C77": (H, "Refuted: the read filter is changed although the write filter is refused. Proved: no other source is affected, nor a filter whose own change was not granted."),
"C78": (P, "Any number of threads, all four channels."),
"C49": (P, "Including that the kernel watches exactly what the history of calls and deliveries says."),
"C50": (P, "Also: reports are about the current registration and carry exactly the covered conditions since it was made."),
"C51": (H, "Refuted for event ports: modify and delete of an unknown source and a second add succeed. Refuted for IOCP: deleting an unknown socket succeeds. Proved for poll, epoll and kqueue, and for modify and a second add on IOCP (C81_exists_partial)."),
"C79": (P, "FIFO port queue, as in illumos portfs."),
"C80": (P, "Any history."),
"C19": (P, "Any number of loop iterations, any clock. The events returned are exactly those this wait delivered."),
"C52": (P, "Including that the buffer is not changed by anything but the completion while the request is in flight. Any number of threads."),
"C53": (P, "Premise `spared`: the system refused nothing about the socket and it was not lost from the update queue (that a refusal about another socket can lose it is C82). Also: performing the update installs the interest."),
"C54": (H, "Refuted: an add that has read the `polling` flag before wait() sets it can queue its update after wait() has drained the queue, and the blocked wait does not see it. Proved if no call was in progress at that moment, and for every source of which no add or modify was in progress then, whatever is done about other sources."),
"C55": (P, "Every history; also that every delivery is justified by an arming."),
"C56": (H, "Refuted: a second delete of the same socket returns before the first has reached the packet, so its event is delivered after. Proved: nothing after the removal itself, and nothing after delete if no other delete of the source is in progress (and no waiting thread has died); deleting an unknown socket changes nothing."),
"C57": (H, "Refuted: a waitable whose callback has fired, or that is being updated, delivers after remove_waitable returned, repeatedly. Proved: nothing once no reference to the packet is left; with no modify in progress at the removal, nothing beyond the last interest, and from a one-shot waitable at most one event that says something."),
"C58": (H, "Refuted for waitables (an empty interest still waits and delivers). Proved for sockets."),
"C59": (H, "Refuted: the request block stays marked in use after a failed submission. Proved while a request is in flight (a cancellation, not a submission, is what is then needed)."),
"C60": (H, "Refuted: an error in the middle of a batch drops the rest, and the sockets stay without a request for ever. Proved: at most once always; exactly once if the system refuses nothing; otherwise every completion is accounted for: processed, outstanding or thrown away after a refusal."),
"C61": (H, "Refuted three times: the waiting thread deadlocks on the source lock, panics on an empty map, or removes another registration of a reused socket number. Each needs AFD to report LOCAL_CLOSE, which the poller never asks for. Proved: only such a report can kill the waiting thread, and it never dies if AFD reports only what it was asked about."),
"C62": (P, "Exact count = owners + leaks in every reachable state; leaks are characterised: refused submissions and removed waitables."),
"C64": (P, "Premises in the statement; C83 refutes it without the second. Also: when the calls have come to rest the notified wait has returned."),
"C65": (P, "Also without the premise: every posted packet is delivered, lost or outstanding."),
"C81": (H, "Refuted: a refused submission leaves the socket registered and dead. Proved for an unsupported mode, a second add, a modify of something unregistered, and an add whose base socket or AFD handle is refused (IocpFailProps)."),
"C82": (H, "Refuted: an add fails because of another socket drained from the queue, and is itself lost. Proved: a delete, remove_waitable, post or notify fails only because the system refused, during that call, what the call itself asked for; a modify only because the system refused something during the call."),
"C83": (H, "Refuted: the notified flag stays set. Proved: the next wait that returns clears it, and with the flag clear a notify posts."),
"C84": (P, "Exact event for every report."),
"C85": (P, "epoll (Linux, Redox, pipe), kqueue (both notifiers), event ports, poll (pipe, Haiku, eventfd), completion ports."),
"C86": (P, "Any number of pollers of any kind; numbers are reused."),
"C87": (P, "Not ESP-IDF and Hermit, where there is no exec and no flag is passed."),
"C88": (P, "Also: for epoll these are the registrations from which the histories of the epoll model start."),
"C89": (P, "Including which calls are dispensable. On Windows a missing ntdll function or AFD device shows as an error of kind Unsupported."),
"C90": (H, "Refuted: the packet of a source that was registered and deleted, and the notifier's packet, are never freed if a request is in flight or a notification untaken. Proved: the exact count of every packet at every later moment; everything is freed if nothing is in flight; a waitable's packet is freed once its callback has run; nothing is freed that the system has an address of."),
"C91": (P, "Five backends. Errors of the system are of another kind in the models, including one from looking up the base socket on IOCP."),
"C92": (H, "Refuted: on epoll and event ports is_connect_failed needs both error and hang-up, on poll one of them is enough, as documented. Proved: is_err agrees everywhere; is_connect_failed agrees if both or neither are reported; on IOCP both are exactly AFD's report that the connection failed."),
"C93": (H, "Refuted: below two providers that do not know SIO_BASE_HANDLE the search gives up. Proved: found with at most one; what is found is right; at most three questions; failures are the providers'."),
"C94": (P, "Any number of threads, any capacity of the queue of updates. The bound is explicit and global: the steps of all calls together are at most 4 n + 36 for each call, completion or other thing from outside."),
"C95": (P, "The second completion comes from a modify during the callback (C95_case)."),
"C96": (H, "Refuted twice: on epoll without a timerfd and on poll a timeout of more than 2^31-1 ms is cut off and wait gives up early; on IOCP one of 2^32-1 ms or more becomes no timeout. Proved for all other timeouts, and for those without a limit."),
"C97": (H, "Refuted three times: on kqueue a signal number that does not exist panics (src/os/kqueue.rs:156), on IOCP wait panics when AFD reports a local close (src/iocp/mod.rs:1009), and on 64-bit Windows it panics when the Events passed was made for 2^32 entries or more (src/iocp/port.rs:234; CapacityProps). Proved: nothing else does, on any backend; the two debug assertions on the polling flag hold."),
"C98": (H, "Refuted for event ports (a second add, modify and delete of an unknown source succeed), IOCP (delete of an unknown source succeeds) and for kqueue after an add that failed for another reason. Proved for poll, epoll, and kqueue when the kernel refuses nothing: hence equal answers there."),
"C99": (P, "Any number of threads; std::sync::Once is trusted to run the closure once."),
"C100": (P, "Bytes, with the layout that repr(C) prescribes computed in the model; the kernel's view is the layout of AFD_POLL_INFO. Also that the fields of every repr(C) structure are apart."),
"C101": (H, "Refuted for messages kept in release/acquire atomics: a notify() that finds a notification pending executes only a compare_exchange that fails, which is a load and publishes nothing; the reader that is just being woken may miss the message and then sleep, with nothing pending. Proved for messages kept under a lock or in SeqCst atomics, and for release/acquire atomics when notify() found no notification pending. The backend is reduced to a channel that holds a wake-up."),
"C102": (H, "Proved for epoll, event ports and the sockets of completion ports. Refuted on kqueue, where a descriptor registered once for both directions gives two events, also in two different waits: reading and writing are two one-shot filters (proved: one event per direction and arming). Refuted on poll, where POLLHUP is reported again (proved for requested flags: C30)."),
"C103": (H, "Proved for epoll and event ports, and for the sockets of completion ports counting a delete when it removes the packet (that it may return earlier is C56_refuted). kqueue: proved for what the kernel does, filter by filter; a call that fails may have changed filters (C77). poll, for any number of threads: proved if no modify() asks for a mode that poll lacks; refuted otherwise, such a modify fails but replaces the key."),
"C104": (P, "Separate model of descriptors and files for the four Unix backends; a wait may report any registration at any time. Beside the contract: what goes wrong without it, among that that a left-over registration of epoll survives every call (C104_epoll_left_over). For poll and any number of threads, also in the middle of a wait: what poll(2) was given is what is registered now."),
"C105": (P, "Model of the cfg predicates and of the places they gate. The facts about targets (Fuchsia, VxWorks and Horizon are unix, for instance) are hypotheses; an example shows what happens without them. With the flag for testing the poll backend the crate fits on unix and Hermit, and not on Windows (the flag is not a public interface)."),
"C106": (H, "Separate model of the mutexes with poisoning, for the three ways in which backends take their own locks. Refuted (C106_refuted, every backend): try_lock fails on a poisoned mutex as on a taken one, so after a wait() that panicked every wait() returns Ok(0) at once, for ever (C106_disabled_for_ever), and notify() soon does nothing (C106_notify_swallowed: at most one notification per thread reaches the backend). With poll, add, modify and delete may panic too, and if so they do for ever (C106_ops_stay_dead); with the others they go on working (C106_ops_recover). Panics of add, modify, delete and notify with a reason of their own (src/os/kqueue.rs:156, the spans of the tracing library) happen where no lock is held, are modelled and do not change this (C106_own_panics_case). Proved: without a panic of a wait() the property holds."),
"C107": (H, "Refuted for sockets and for waitable handles (C107_socket_refuted, C107_waitable_refuted): a call that reads the polling flag before wait() sets it, and queues its update after wait() emptied the queue, returns Ok; the wait sleeps although the source is ready. Proved: it holds for a wait that began while no add or modify of that source was in progress, and sources for which the system refused nothing; and at every moment a waitable handle with an interest has a registered wait, a callback, a completion, a queued update or a call at work (C107_waitable_kept). Missing: the waits that overlap a call about the source at their start, where it is false."),
"C108": (H, "Refuted in one corner (C108_refuted): a modify with a mode that poll does not have fails, but its interest has replaced the one asked for (C28), so that wait() sleeps although the source is readable. Proved: without such a modify of the source, it is watched while wait() is in poll(2) (C108_watched_partial), poll(2) returns (C108_returns_partial), and this wait() ends with an event for it (C108_reported_partial). Missing: sources for which such a modify has failed, where it is false."),
"C109": (P, "IocpLinProps: linearizability of the calls on completion ports. A call that fails with an error of the system after it has entered or changed the source counts as carried out (C81). A removal by wait() itself needs a report of AFD that the socket was closed."),
"C110": (P, "IocpOrderProps: first in, first out. That the port itself is a queue is part of the model of the system; the theorems are about what wait() makes of the batches that it takes. With failing waits only the order is kept (C60)."),
"C111": (H, "Refuted (C111_signal_repeats_refuted): the mode is passed to the kernel as given, so a signal added with Level or Edge is delivered again each time it occurs. Proved: once per arming if it is only asked for in one-shot modes; and in every mode, between two events about a signal, process or timer something new has happened to it (C111_new_occurrence)."),
"C112": (H, "Refuted on epoll with a timerfd (C112_epoll_refuted): a wait with a timeout that is ended early leaves the timer running; when it expires the descriptor becomes readable, although nothing is ready and a wait called then sleeps. Proved on epoll: readable whenever such a wait would return, and whenever a source is ready or a notification is pending; the converse without a timerfd, and with one unless such a leftover deadline has passed; and there is no other reason to be readable. Proved on event ports in both directions; on kqueue the direction from ready or notified to readable (the kernels differ in the other one)."),
"C113": (H, "Refuted on poll (C113_poll_refuted): for every capacity there is a wait that puts more events than that into the container, which is a Vec that grows; there a wait reports at most as many events as descriptors are registered (C113_poll_partial). Proved on epoll, kqueue, event ports and completion ports, for every capacity, also when the wait fails half way (completion ports); that what stays behind is not forgotten is C40, C79 and C110. That epoll_wait, kevent and port_getn write no more entries than they are given room for is part of the model of the kernel."),
"C114": (H, "Refuted on epoll, event ports and poll (C114_epoll_refuted, C114_ports_refuted, C114_poll_refuted): a hang-up of a source whose interest was switched off is reported, as readable and writable. Proved there: nothing but errors, hang-ups and (event ports, poll) bad descriptors is reported for it. Proved on kqueue: nothing at all is reported until the kernel accepts another registration of that kind, also if calls of other threads overlap."),
"C115": (H, "Refuted on kqueue (C115_kqueue_refuted): a descriptor that is readable and writable gives two events, one for each; two events of one wait about the same source are never anything else (C115_kqueue_partial). Refuted for waitables of completion ports (C115_iocp_waitables_refuted): if modify_waitable is called while a completion is in the queue, a second wait is registered, and one wait() reports the waitable twice. Proved on epoll, event ports, poll and for sockets of completion ports, with calls of any number of threads in between."),
"C116": (P, "Any number of threads, every interleaving and every failure."),
    "C117": (H, "Refuted: if the queue of updates is full when a completion is processed and the update that must make room is refused, feed_event has already cleared the one-shot interest and its event is dropped with the error. Proved: a wait() that succeeds returns exactly the events it processed; one that fails misses at most the last one, and only after a refused update."),
    "C118": (P, "The system calls of the zero-timeout wait are assumed to succeed; if one fails, the wait ends there with its error (LFail, LWaitFail)."),
    "C119": (H, "Refuted on epoll and on kqueue with a socket pair. Proved: with a user event a wait() never fails after taking events; on every kqueue system and on epoll it fails after taking events only if the system refuses to arm the notifier again. The model lets the system refuse any call with any error."),
    "C63": (P, "Separate model of afd_handle: any pool, any number of threads, packets freed at any moment. Also: an instance is closed exactly once, when its last user is gone."),
}
