{"id": "C01", "title": "The reserved key is rejected and has no effect", "statement": "Poller::add/add_with_mode/modify/modify_with_mode with interest.key == usize::MAX return an InvalidInput error and leave the poller exactly as it was; with any other key the call is forwarded to the platform unchanged (add and modify use Oneshot mode).", "quantifier": "every poller state, source, interest and mode", "why_tests_cant": "a test can try one key against one state; the claim is about all keys, all states and about nothing else changing", "anchors": ["src/lib.rs: Poller::add, add_with_mode, modify, modify_with_mode, NOTIFY_KEY"]}
{"id": "C02", "title": "Wake-up markers never surface in Events", "statement": "Iterating an Events container yields exactly the delivered events whose key is not usize::MAX, in delivery order; len() is the length of that sequence and is_empty() says whether it is empty.", "quantifier": "every content of the container", "why_tests_cant": "must hold for every mixture and order of real events and internal wake-up events", "anchors": ["src/lib.rs: Events::iter, len, is_empty, clear"]}
{"id": "C03", "title": "wait() reports the number of events in the container", "statement": "When wait() takes the lock and returns Ok(n), n is the number of events the caller can iterate in the container; a contended wait() returns Ok(0) and leaves the container and the notification state untouched.", "quantifier": "every container content, every sequence of backend outcomes", "why_tests_cant": "depends on every possible backend outcome and on contention", "anchors": ["src/lib.rs: Poller::wait"]}
{"id": "C04", "title": "Signals are transparent to wait()", "statement": "A backend wait interrupted by a signal (EINTR) is retried: however many interruptions occur, wait() never returns Interrupted, discards whatever the interrupted attempts put in the container and finally returns what the first non-interrupted attempt yields.", "quantifier": "every finite number of interruptions and every final outcome", "why_tests_cant": "unbounded number of signal deliveries at arbitrary points", "anchors": ["src/lib.rs: Poller::wait"]}
{"id": "C05", "title": "Interruptions do not extend the timeout", "statement": "All attempts of one wait(timeout) call share one deadline: the timeout handed to the operating system at each attempt is exactly the time left until call time + timeout (zero once it passed), so it never exceeds the original timeout and never grows as time advances; no timeout, or one that overflows the clock, means an unbounded wait at every attempt.", "quantifier": "every timeout, every clock reading, every number of interruptions", "why_tests_cant": "clock values, overflow and signal timing cannot be enumerated", "anchors": ["src/lib.rs: Poller::wait (deadline, saturating_duration_since, checked_add)"]}
{"id": "C06", "title": "Errors from the platform are reported and do not clear the wake-up request", "statement": "If the platform wait fails with anything other than Interrupted, wait() returns exactly that error, and it does not clear the pending-notification mark of the poller.", "quantifier": "every error and every number of preceding interruptions", "why_tests_cant": "error codes and retry histories are unbounded", "anchors": ["src/lib.rs: Poller::wait, notified"]}
{"id": "C07", "title": "At most one thread waits", "statement": "In every interleaving at most one wait() call is past the lock at any moment; a wait() that starts while another is in progress returns Ok(0) immediately without performing any platform call.", "quantifier": "every number of threads and every interleaving", "why_tests_cant": "needs all interleavings of arbitrarily many threads", "anchors": ["src/lib.rs: Poller::wait, lock"]}
{"id": "C08", "title": "notify() is never lost on epoll", "statement": "With the eventfd notifier and with the pipe notifier: if a notify() call has returned Ok and no wait() has returned Ok since it was called, then a wait() that is blocked in the kernel is ready to return at once, unless another thread is still inside notify() and about to make it so. However the calls under way are scheduled they come to rest after a bounded number of steps, and that wait() has then returned. Premise: re-arming the notifier's registration and writing to it do not fail.", "quantifier": "every number of notifying and waiting threads, every interleaving, every mix of I/O events, timeouts, signals and errors raised before the kernel wait returns", "why_tests_cant": "lost-wakeup races only show under particular interleavings", "anchors": ["src/lib.rs: Poller::notify, Poller::wait", "src/epoll.rs: Poller::wait, Poller::notify, Notifier"]}
{"id": "C09", "title": "notify() is never lost on kqueue", "statement": "The same no-lost-wakeup guarantee holds for kqueue with EVFILT_USER (premise: the trigger does not fail) and with the socket-pair notifier (premise: re-registering it does not fail).", "quantifier": "every number of threads and every interleaving", "why_tests_cant": "lost-wakeup races only show under particular interleavings", "anchors": ["src/kqueue.rs: notify::Notify, Poller::wait, Poller::notify"]}
{"id": "C10", "title": "notify() is never lost on event ports", "statement": "The same no-lost-wakeup guarantee holds for event ports as long as the port accepts the notification.", "quantifier": "every number of threads and every interleaving", "why_tests_cant": "lost-wakeup races only show under particular interleavings", "anchors": ["src/port.rs: Poller::notify, Poller::wait"]}
{"id": "C11", "title": "A failed notify() does not silence later ones", "statement": "After a notify() whose platform call failed, a later notify() that returns Ok still wakes the current or next wait().", "quantifier": "every history", "why_tests_cant": "needs an operating-system failure at a precise point", "anchors": ["src/lib.rs: Poller::notify", "src/port.rs: Poller::notify"]}
{"id": "C12", "title": "A failed wait() does not silence later notifications", "statement": "After a wait() that returned an error, a later notify() that returns Ok still wakes the current or next wait().", "quantifier": "every history", "why_tests_cant": "needs an operating-system failure at a precise point", "anchors": ["src/lib.rs: Poller::wait", "src/epoll.rs: Poller::wait", "src/kqueue.rs: notify::Notify::reregister"]}
{"id": "C13", "title": "wait() appends to the container", "statement": "As documented, events returned by wait() are appended to the container, keeping the events that were already there.", "quantifier": "every container content and every wait", "why_tests_cant": "documentation claim over all container contents", "anchors": ["src/lib.rs: Poller::wait doc", "src/poll.rs: Poller::wait", "src/iocp/mod.rs: Poller::wait"]}
{"id": "C14", "title": "Notifications coalesce", "statement": "However many notify() calls are made while no thread is waiting, the following wait() is woken once: it returns no events and the wait() after that is not woken by them.", "quantifier": "every number of notify() calls and callers", "why_tests_cant": "unbounded number of calls", "anchors": ["src/lib.rs: Poller::notify", "src/epoll.rs: Notifier"]}
{"id": "C15", "title": "epoll without timerfd: timeouts round up and never wrap", "statement": "A finite timeout is converted to the least whole number of milliseconds not below it, saturating at i32::MAX; it is never negative (infinite), is zero only for the zero timeout, and no timeout maps to the infinite value.", "quantifier": "every Duration", "why_tests_cant": "64-bit seconds times nanoseconds cannot be enumerated; overflow lives at the extremes", "anchors": ["src/epoll.rs: Poller::wait timeout_ms"]}
{"id": "C16", "title": "epoll with timerfd: timeouts are exact", "statement": "A non-zero timeout programs the timer with exactly that many seconds and nanoseconds, blocks in the kernel without a millisecond limit, and the zero timeout and no timeout disarm the timer; a stale timer setting never survives into a later wait; every value the public wait() can pass is accepted by the timer (seconds non-negative, nanoseconds below 10^9).", "quantifier": "every Duration and clock reading", "why_tests_cant": "extremes of 64-bit arithmetic and casts", "anchors": ["src/epoll.rs: Poller::wait timerfd_settime, TS_ZERO"]}
{"id": "C17", "title": "poll backend: timeouts round up and never wrap", "statement": "The remaining time is converted to the least whole number of milliseconds not below it, saturating at i32::MAX; -1 (infinite) is passed exactly when there is no deadline; zero exactly when the deadline has passed.", "quantifier": "every deadline and clock reading", "why_tests_cant": "extremes of 64-bit arithmetic and casts", "anchors": ["src/poll.rs: Poller::wait timeout_ms"]}
{"id": "C18", "title": "IOCP: timeouts round up, saturating to infinite", "statement": "A finite timeout is converted to the least whole number of milliseconds not below it if that is below u32::MAX, and to INFINITE otherwise; no intermediate overflow occurs.", "quantifier": "every Duration", "why_tests_cant": "extremes of 64-bit arithmetic and casts", "anchors": ["src/iocp/mod.rs: dur2timeout"]}
{"id": "C19", "title": "IOCP wait() does not give up early", "statement": "The IOCP wait returns Ok with neither an event nor a notification only if the deadline had passed when it computed the last timeout; without a deadline it never does.", "quantifier": "every number of loop iterations, every clock reading and completion batch", "why_tests_cant": "unbounded number of spurious completions", "anchors": ["src/iocp/mod.rs: Poller::wait"]}
{"id": "C20", "title": "Event flag accessors obey the set/get laws", "statement": "On epoll, poll, event ports and IOCP, set_interrupt(b)/set_priority(b) make is_interrupt()/is_priority() return b and change nothing else about the event (key, readable, writable, the other flag, error flags); with_interrupt/with_priority are the true-setters; clear_extra/with_no_extra reset exactly the extra part.", "quantifier": "every event (all flag words)", "why_tests_cant": "all 2^32 flag words on four platforms", "anchors": ["src/lib.rs: Event", "src/epoll.rs/poll.rs/port.rs/iocp/mod.rs: EventExtra"]}
{"id": "C21", "title": "Extra flags are no-ops on kqueue", "statement": "On kqueue the interrupt and priority setters do not change the event, the getters return false and is_err/is_connect_failed return None.", "quantifier": "every event", "why_tests_cant": "universal over events", "anchors": ["src/kqueue.rs: EventExtra"]}
{"id": "C22", "title": "Reported readiness is classified soundly and completely", "statement": "On epoll, poll, event ports, kqueue and IOCP an event read from the container is readable (writable) exactly when the operating system reported one of the documented read (write) conditions for it, carries the user's key unchanged, and its interrupt/priority/error accessors reflect exactly the reported flags.", "quantifier": "every flag word the OS can report and every key", "why_tests_cant": "all flag words and all keys", "anchors": ["src/epoll.rs: Events::iter, read_flags, write_flags", "src/poll.rs: read_events, write_events", "src/port.rs: Events::iter", "src/kqueue.rs: Events::iter", "src/iocp/mod.rs: afd_mask_to_event"]}
{"id": "C23", "title": "Interest is translated soundly and completely", "statement": "The flags given to the kernel contain the read (write) conditions exactly when the interest is readable (writable) [for interests built with the public constructors and setters], the one-shot/edge bits exactly as the mode says, and distinct modes give distinct flags.", "quantifier": "every interest and mode", "why_tests_cant": "all interests and modes on five platforms", "anchors": ["src/epoll.rs: epoll_flags", "src/poll.rs: poll_events", "src/port.rs: modify", "src/kqueue.rs: mode_to_flags, modify", "src/iocp/mod.rs: event_to_afd_mask"]}
{"id": "C24", "title": "Priority interest is honoured on every platform documented to support it", "statement": "An interest with set_priority(true) makes the poller watch for priority data even if readable is false (documented for epoll, poll, IOCP and event ports).", "quantifier": "every interest, each documented platform", "why_tests_cant": "universal over interests and platforms", "anchors": ["src/lib.rs: Event::set_priority doc", "src/poll.rs: poll_events", "src/port.rs: Poller::modify"]}
{"id": "C25", "title": "modify() with readable = false stops readability events", "statement": "Whatever Event value is passed, the kernel is asked for read conditions only if its readable field is true (or priority was requested).", "quantifier": "every Event value reachable through the API, including events obtained from wait()", "why_tests_cant": "needs an event echoed back from wait()", "anchors": ["src/epoll.rs: Poller::modify (epoll_flags | ev.extra.flags)", "src/iocp/mod.rs: event_to_afd_mask"]}
{"id": "C26", "title": "poll backend: registration bookkeeping never goes out of bounds or panics", "statement": "No sequence of add/modify/delete/wait calls panics or indexes out of bounds, and the table handed to poll(2) always holds the notifier first and then exactly one entry for each registered descriptor.", "quantifier": "every finite sequence of calls with every argument and every kernel answer", "why_tests_cant": "swap-remove index bookkeeping must survive every history", "anchors": ["src/poll.rs: Fds, add, modify, delete, wait"]}
{"id": "C27", "title": "poll backend: registrations behave like a map", "statement": "add fails with AlreadyExists iff the descriptor is registered, modify/delete fail with NotFound iff it is not, edge modes fail with Unsupported, the poller's own descriptors are rejected with InvalidInput; otherwise the call updates exactly that descriptor's key, interest and one-shot flag and no other.", "quantifier": "every reachable state and every call", "why_tests_cant": "refinement over all histories", "anchors": ["src/poll.rs: add, modify, delete"]}
{"id": "C28", "title": "poll backend: a failed call changes nothing", "statement": "add, modify and delete that return an error leave every registration unchanged.", "quantifier": "every state and call", "why_tests_cant": "all failing calls in all states", "anchors": ["src/poll.rs: modify (cvt_mode_as_remove after the update)"]}
{"id": "C29", "title": "poll backend: wait delivers exactly what the kernel reported", "statement": "One wait reports one event for each registered descriptor with non-empty returned flags, with that registration's current key, and nothing else; one-shot registrations that were reported get their interest cleared and every other registration is unchanged.", "quantifier": "every registration table, every poll(2) answer, every hash iteration order", "why_tests_cant": "all table sizes and iteration orders", "anchors": ["src/poll.rs: Poller::wait (store loop)"]}
{"id": "C30", "title": "poll backend: one-shot delivers once", "statement": "After an event for a one-shot descriptor was delivered, no further event is delivered for it until modify() or add() is called.", "quantifier": "every history of waits and kernel answers", "why_tests_cant": "needs all histories; hang-up conditions are reported regardless of interest", "anchors": ["src/poll.rs: Poller::wait, cvt_mode_as_remove"]}
{"id": "C31", "title": "poll backend: descriptor table accesses are exclusive and current", "statement": "No two threads touch the descriptor table at once, the table is never changed while a poll(2) call uses it, and an add/modify/delete that has returned is visible to every poll(2) call in progress.", "quantifier": "every number of threads and every interleaving", "why_tests_cant": "needs all interleavings", "anchors": ["src/poll.rs: modify_fds, wait"]}
{"id": "C32", "title": "poll backend: add/modify/delete never get stuck behind a waiting thread", "statement": "Whenever add, modify or delete is blocked on the poller while another thread is blocked in poll(2), that poll(2) call has a wake-up pending and returns; the waiter never sleeps without someone left to wake it.", "quantifier": "every number of threads and every interleaving in which writing a wake-up succeeds (pipe notifier, and eventfd notifier whose reads do not block)", "why_tests_cant": "needs all interleavings", "anchors": ["src/poll.rs: modify_fds, wait, operations_complete"]}
{"id": "C33", "title": "poll backend: calls terminate", "statement": "If no new calls start, every scheduling of the threads reaches, in a bounded number of steps, a state in which every add/modify/delete/notify has returned and every wait has either returned or is blocked in poll(2) with nothing pending.", "quantifier": "every reachable state and every scheduling in which writing a wake-up succeeds (pipe notifier, and eventfd notifier whose reads do not block; C36 for the others)", "why_tests_cant": "termination over all schedules", "anchors": ["src/poll.rs: modify_fds, wait, notify"]}
{"id": "C34", "title": "poll backend: notify() is never lost", "statement": "If a notify() has returned and no wait() has returned since, a wait() blocked in the kernel is ready to return (or another thread is still inside notify()).", "quantifier": "every number of threads and every interleaving", "why_tests_cant": "needs all interleavings", "anchors": ["src/poll.rs: notify, wait, pop_notification", "src/lib.rs: Poller::notify, Poller::wait"]}
{"id": "C35", "title": "poll backend: wait() does not fail spuriously", "statement": "wait() returns an error only if a system call other than emptying the poller's own notification channel failed.", "quantifier": "every interleaving", "why_tests_cant": "needs all interleavings", "anchors": ["src/poll.rs: wait (return self.notify.pop_notification())"]}
{"id": "C36", "title": "poll backend on Vita and Hermit: no deadlock", "statement": "With the Vita notifier (blocking single read) and an eventfd created without a non-blocking flag, add/modify/delete and wait() still cannot deadlock.", "quantifier": "every interleaving", "why_tests_cant": "needs a particular interleaving on rare platforms", "anchors": ["src/poll.rs: notify::Notify::pop_notification (vita), eventfd shim (hermit)"]}
{"id": "C37", "title": "poll backend: the notification channel stays bounded", "statement": "The number of unread wake-up bytes never exceeds twice the number of threads using the poller plus two, however long it runs, so writing a wake-up never blocks on a full pipe unless the pipe is smaller than that.", "quantifier": "every interleaving", "why_tests_cant": "needs all histories", "anchors": ["src/poll.rs: notify::Notify::notify, pop_notification, pop_all_notifications"]}
{"id": "C38", "title": "epoll: registrations behave like a map", "statement": "add fails iff the descriptor is registered, modify/delete fail iff it is not; a successful call changes exactly that registration to the given key, interest and mode; a failed call changes nothing.", "quantifier": "every reachable state and every call", "why_tests_cant": "refinement over all histories", "anchors": ["src/epoll.rs: add, modify, delete"]}
{"id": "C39", "title": "epoll: one-shot delivers once per arming", "statement": "For a source registered in Oneshot or EdgeOneshot mode, between any two delivered events there is a successful modify (or delete and add) of that source.", "quantifier": "every history of calls, readiness changes and waits", "why_tests_cant": "all histories", "anchors": ["src/epoll.rs: epoll_flags, add, modify", "src/lib.rs: PollMode"]}
{"id": "C40", "title": "epoll: level-triggered sources are not forgotten", "statement": "As long as a Level source is ready for its interest, a wait with room in the container reports it, again and again, with its latest key.", "quantifier": "every history", "why_tests_cant": "all histories", "anchors": ["src/epoll.rs: epoll_flags", "src/lib.rs: PollMode::Level"]}
{"id": "C41", "title": "epoll: edge-triggered sources are reported once per new event", "statement": "For an Edge source, the number of delivered events never exceeds the number of new readiness events plus (re)registrations.", "quantifier": "every history", "why_tests_cant": "all histories", "anchors": ["src/epoll.rs: epoll_flags", "src/lib.rs: PollMode::Edge"]}
{"id": "C42", "title": "epoll: no events after delete, latest key after modify", "statement": "Every delivered event belongs to a source registered at the moment of the kernel call and carries the key of its latest successful add/modify.", "quantifier": "every history", "why_tests_cant": "all histories", "anchors": ["src/epoll.rs: add, modify, delete, wait"]}
{"id": "C43", "title": "kqueue: registrations behave like a map", "statement": "As long as calls on the same source do not overlap: add/add_filter fail with AlreadyExists iff the source is registered (an add of it was not refused as a duplicate and no delete succeeded since); modify, modify_filter and delete fail with NotFound iff it is not; delete_filter succeeds only if it is and says NotFound only if it is not; descriptors, signals, processes and timers with equal numbers never collide.", "quantifier": "every reachable state and every call", "why_tests_cant": "all histories and source kinds", "anchors": ["src/kqueue.rs: add_source, has_source, remove_source, SourceId", "src/os/kqueue.rs"]}
{"id": "C44", "title": "kqueue: a failed add changes nothing", "statement": "add/add_filter that return an error leave the source unregistered, so it can be added again.", "quantifier": "every state and every kernel error", "why_tests_cant": "needs a kernel failure at a precise point", "anchors": ["src/kqueue.rs: Poller::add", "src/os/kqueue.rs: add_filter"]}
{"id": "C45", "title": "kqueue: change errors are reported exactly", "statement": "A change list is reported as failed iff some receipt carries a non-zero error other than ENOENT and EPIPE, and the reported error is the first such one; if the system call itself fails, its error is reported.", "quantifier": "every receipt list", "why_tests_cant": "all receipt lists", "anchors": ["src/kqueue.rs: submit_changes"]}
{"id": "C46", "title": "kqueue: modify installs exactly the requested filters", "statement": "After a successful modify the kernel watches the read (write) filter of the descriptor iff the interest is readable (writable), with the given key and the flags of the mode; after delete it watches neither; no other source's filters change.", "quantifier": "every kernel filter table, interest and mode", "why_tests_cant": "all tables and interests", "anchors": ["src/kqueue.rs: modify, delete, mode_to_flags"]}
{"id": "C47", "title": "kqueue: one-shot delivers once per kind and arming", "statement": "Between two delivered events of the same kind (read or write) of a descriptor that was last armed one-shot there is an add or modify of it that asked for that kind and that the kernel granted.  Where the kernel keeps the mode of a filter that is added again, this is for descriptors only ever armed one-shot.", "quantifier": "every history", "why_tests_cant": "all histories", "anchors": ["src/kqueue.rs: modify, mode_to_flags"]}
{"id": "C48", "title": "Every registration path rejects the reserved key", "statement": "add_filter/modify_filter (kqueue), add_waitable/modify_waitable and post (IOCP) also refuse usize::MAX, so no user event is ever silently hidden.", "quantifier": "every key and every extension API", "why_tests_cant": "universal over extension calls", "anchors": ["src/os/kqueue.rs: add_filter, modify_filter", "src/os/iocp.rs: add_waitable, modify_waitable, post", "src/lib.rs: Events::iter"]}
{"id": "C49", "title": "event ports: registrations", "statement": "Only Oneshot mode is accepted (otherwise Unsupported with no effect); add and modify associate exactly the given key and interest with the descriptor whether or not it was associated; delete removes the association and succeeds also if there is none.", "quantifier": "every state and call", "why_tests_cant": "all states and calls", "anchors": ["src/port.rs: add, modify, delete"]}
{"id": "C50", "title": "event ports: one-shot delivery and timeouts", "statement": "A delivered event dissociates its descriptor, so nothing more is delivered for it until add/modify; a timer expiry (ETIME) is reported as success with no events and every other error is reported.", "quantifier": "every history and every port_getn answer", "why_tests_cant": "all histories", "anchors": ["src/port.rs: wait"]}
{"id": "C51", "title": "Using a source that was never added is an error on every platform", "statement": "modify and delete of a source that was never added return an error, and a second add of the same source returns an error.", "quantifier": "every platform", "why_tests_cant": "cross-platform universal claim", "anchors": ["src/port.rs: add, modify, delete", "src/iocp/mod.rs: delete"]}
{"id": "C52", "title": "IOCP: at most one kernel operation per socket and no buffer reuse in flight", "statement": "For every socket at most one poll request is in flight at any time and the request buffer is only written while none is.", "quantifier": "every number of threads, interleaving and completion order (no hard submission error)", "why_tests_cant": "needs all interleavings", "anchors": ["src/iocp/mod.rs: update, feed_event, set_events, cancel", "src/iocp/afd.rs: poll, IoStatusBlock"]}
{"id": "C53", "title": "IOCP: no interest change is forgotten", "statement": "For every registered socket, whatever interest the last add/modify gave is either the one the kernel is polling for, or a queued/pending update, a pending cancellation or an undelivered completion will install it.", "quantifier": "every interleaving (no hard submission error)", "why_tests_cant": "needs all interleavings", "anchors": ["src/iocp/mod.rs: update_packet, update, feed_event, drain_update_queue"]}
{"id": "C54", "title": "IOCP: add/modify take effect while another thread is blocked in wait()", "statement": "When add or modify has returned and a thread is blocked waiting on the completion port, the kernel is already polling for the new interest or a completion is on its way.", "quantifier": "every interleaving", "why_tests_cant": "needs a precise interleaving", "anchors": ["src/iocp/mod.rs: update_packet (polling flag), wait"]}
{"id": "C55", "title": "IOCP: one-shot delivers once per arming and only requested readiness", "statement": "A delivered socket event never claims readability (writability) the interest did not ask for; in Oneshot mode between two delivered events of a socket there is a successful modify or add.", "quantifier": "every history", "why_tests_cant": "all histories", "anchors": ["src/iocp/mod.rs: feed_event, set_events"]}
{"id": "C56", "title": "IOCP: no socket event after delete", "statement": "Once delete() has returned, no event of that registration is delivered by any later processing, even if its completion was already queued; deleting twice or deleting an unknown socket succeeds without effect.", "quantifier": "every interleaving and completion order", "why_tests_cant": "needs all interleavings", "anchors": ["src/iocp/mod.rs: delete, begin_delete, feed_event"]}
{"id": "C57", "title": "IOCP: no waitable event after remove_waitable", "statement": "Once remove_waitable() has returned, no event of that registration is delivered.", "quantifier": "every interleaving", "why_tests_cant": "needs a precise interleaving", "anchors": ["src/iocp/mod.rs: remove_waitable, begin_delete, feed_event (Waitable)"]}
{"id": "C58", "title": "IOCP: a source with no interest delivers nothing", "statement": "A socket or waitable whose current interest is empty delivers no event.", "quantifier": "every history", "why_tests_cant": "all histories", "anchors": ["src/iocp/mod.rs: feed_event"]}
{"id": "C59", "title": "IOCP: a failed submission can be retried", "statement": "If starting the kernel poll for a socket fails and modify() is called again later, the poll is really restarted.", "quantifier": "every history with a submission error", "why_tests_cant": "needs an operating-system failure at a precise point", "anchors": ["src/iocp/afd.rs: Afd::poll (try_lock without unlock on error)", "src/iocp/mod.rs: update"]}
{"id": "C60", "title": "IOCP: one failing source does not lose other sources' completions", "statement": "If processing one completion of a batch fails, the completions behind it in the batch are still processed by a later wait().", "quantifier": "every batch and failure position", "why_tests_cant": "needs a failure at a precise point in a batch", "anchors": ["src/iocp/mod.rs: wait (drain loop)", "src/iocp/port.rs: OverlappedEntry::drop"]}
{"id": "C61", "title": "IOCP: a closed socket is cleaned up without deadlock", "statement": "Processing the completion of a socket that was closed locally removes it without blocking or panicking.", "quantifier": "every state", "why_tests_cant": "lock re-entrance on a rare branch", "anchors": ["src/iocp/mod.rs: feed_event (LOCAL_CLOSE), begin_delete"]}
{"id": "C62", "title": "IOCP: completion packets are reference-counted correctly", "statement": "Every pointer held by the kernel or the completion queue is backed by exactly one strong reference, taken back exactly once: no use after free and no double free.", "quantifier": "every interleaving", "why_tests_cant": "memory-safety argument over all histories", "anchors": ["src/iocp/port.rs: CompletionHandle, OverlappedEntry", "src/iocp/afd.rs: poll"]}
{"id": "C63", "title": "IOCP: AFD helper handles are shared by at most 32 sockets and are never leaked", "statement": "No AFD instance is used by more than 32 sockets; choosing an instance terminates, drops only dead instances from the pool and creates a new one only if every live one is full.", "quantifier": "every pool content and every concurrent release", "why_tests_cant": "all pool contents and races with releases", "anchors": ["src/iocp/mod.rs: afd_handle"]}
{"id": "C64", "title": "IOCP: notify() is never lost", "statement": "If a notify() has returned and no wait() has returned since, a wait() blocked on the completion port has the wake-up packet pending (or another thread is still inside notify()). Premises: no wait returned an error and the system refused no notification (C83 is about that).", "quantifier": "every interleaving", "why_tests_cant": "needs all interleavings", "anchors": ["src/iocp/mod.rs: notify, wait, feed_event"]}
{"id": "C65", "title": "IOCP: posted packets are delivered exactly once each", "statement": "Every successful post() leads to exactly one event with the packet's event value, whatever else happens, as long as wait() keeps being called and does not fail.", "quantifier": "every interleaving", "why_tests_cant": "all histories", "anchors": ["src/iocp/mod.rs: post, CompletionPacket, feed_event"]}
{"id": "C66", "title": "Events::capacity() never panics", "statement": "Events::new and Events::with_capacity never panic and capacity() returns a non-zero number not below the requested capacity (1024, or 32 on ESP-IDF, for new) after any use of the container.", "quantifier": "every requested capacity, allocator choice and history of waits and clears", "why_tests_cant": "all histories of the vector", "anchors": ["src/lib.rs: Events::new, with_capacity, capacity", "src/epoll.rs: Events", "src/kqueue.rs: Events", "src/port.rs: Events", "src/poll.rs: Events", "src/iocp/mod.rs: Events"]}
{"id": "C67", "title": "poll backend: changing registrations does not prolong a wait", "statement": "However often other threads' add/modify/delete calls interrupt a wait(), every poll(2) call it makes gets the time left until the one deadline fixed at the start, rounded up to milliseconds and capped at i32::MAX.", "quantifier": "every timeout, number of interruptions and sequence of clock readings", "why_tests_cant": "the number of interruptions is unbounded", "anchors": ["src/poll.rs: wait"]}
{"id": "C68", "title": "epoll with a timerfd: a deadline ends its own wait and no other", "statement": "When wait() is in the kernel the timer has been set by this very wait. If it has run out the kernel returns at once, whatever else is registered and however small the container; if it is running it can still run out; and the timer's event is never seen by a wait whose own positive timeout has not run out.", "quantifier": "every history of calls, failures, expiries and waits", "why_tests_cant": "depends on all earlier waits and failures", "anchors": ["src/epoll.rs: wait"]}
{"id": "C69", "title": "epoll: a notification ends the wait that follows it", "statement": "If notify() was called when no wait() was on its way back from the kernel, and no kernel wait has returned since, then a wait() in the kernel returns at once, however many other sources are ready and however small the container. Premise: no wait() has failed after its kernel call since the last one that returned Ok.", "quantifier": "every history of calls, failures and waits", "why_tests_cant": "depends on all earlier waits and failures", "anchors": ["src/epoll.rs: wait, notify", "src/epoll.rs: Notifier"]}
{"id": "C70", "title": "kqueue: reports are about current registrations", "statement": "Every event delivered for a source carries the key of its latest granted registration of that kind, and for descriptors exactly the readiness the kernel has at that time; nothing is delivered for a kind that is not armed; events of the poller itself carry the reserved key; a batch has at most one event per filter.", "quantifier": "every history of calls, kernel failures, readiness changes, closes and waits", "why_tests_cant": "all interleavings of calls, closes and waits", "anchors": ["src/kqueue.rs: wait, Events::iter", "src/kqueue.rs: modify"]}
{"id": "C71", "title": "kqueue: ready sources are not forgotten", "statement": "While a level-triggered (or armed one-shot) filter is ready, a wait can return and every batch with room left contains its event.  In edge mode the same holds from the moment it gets something to report, or is armed while ready, until it is reported.", "quantifier": "every history, with any calls on other sources in between", "why_tests_cant": "all interleavings; starvation shows only in long runs", "anchors": ["src/kqueue.rs: wait", "src/kqueue.rs: mode_to_flags"]}
{"id": "C72", "title": "kqueue: concurrent calls on one source behave as if one after the other", "statement": "After all calls on a source have returned, the source is watched only if it is registered, so nothing is reported for a source that delete() reports as not found.", "quantifier": "every interleaving of calls of any number of threads", "why_tests_cant": "needs a precise interleaving", "anchors": ["src/kqueue.rs: add, modify, delete, add_source, remove_source"]}
{"id": "C73", "title": "kqueue: modify changes the mode", "statement": "After a successful modify the descriptor is watched in the mode given to modify, also if it was watched in another mode before.", "quantifier": "every state, interest and mode", "why_tests_cant": "depends on the kernel's treatment of existing filters", "anchors": ["src/kqueue.rs: modify, mode_to_flags"]}
{"id": "C74", "title": "kqueue: one notification ends one wait", "statement": "Between two waits that return because of a notification, a notification was sent.", "quantifier": "every history, both notifiers", "why_tests_cant": "all histories", "anchors": ["src/kqueue.rs: notify::Notify"]}
{"id": "C75", "title": "kqueue: a notification ends the wait that follows it", "statement": "If a notification was sent and no wait has returned since, a wait in the kernel can return, and every batch with room left contains the notification -- also after waits that failed.", "quantifier": "every history, both notifiers, every kernel failure", "why_tests_cant": "depends on all earlier waits and failures", "anchors": ["src/kqueue.rs: wait, notify::Notify::reregister"]}
{"id": "C76", "title": "kqueue: filters are installed with their parameters", "statement": "A successful add_filter or modify_filter leaves the kernel watching exactly that signal, process operation or timer, with the given key, mode and parameter, and no other filter changes.", "quantifier": "every state, filter, key and mode", "why_tests_cant": "all filter tables", "anchors": ["src/os/kqueue.rs: add_filter, modify_filter", "src/os/kqueue.rs: Signal, Process, Timer"]}
{"id": "C77", "title": "kqueue: a failed modify changes nothing", "statement": "If modify returns an error, the kernel watches what it watched before.", "quantifier": "every state and every kernel error", "why_tests_cant": "needs a kernel failure at a precise point", "anchors": ["src/kqueue.rs: modify, submit_changes"]}
{"id": "C78", "title": "poll backend: waits end early only because of notifications", "statement": "The number of waits that return Ok with no events is at most the number of notify() calls plus the number of times poll(2) came back because of its timeout or a descriptor: one notify() ends at most one wait.", "quantifier": "every schedule of any number of threads, any channel, any failures", "why_tests_cant": "all schedules and histories", "anchors": ["src/poll.rs: wait, notify, Notify::notify", "src/lib.rs: notify, wait"]}
{"id": "C79", "title": "event ports: ready sources are not forgotten", "statement": "A registered source that is ready for something it asked for (or has an error or hang-up) makes wait() return; it is reported after fewer waits than there are registered sources and pending notifications, and by the very next wait if the container has room for all of them.", "quantifier": "every history, container capacity and number of sources", "why_tests_cant": "all histories; starvation cannot be observed by finite tests", "anchors": ["src/port.rs: add, modify, wait"]}
{"id": "C80", "title": "event ports: one notification ends one wait, and waits end for a reason", "statement": "While a notification has been sent and not been retrieved, wait() does not block; no more notifications are retrieved than were sent; a wait returns before its timeout only because of a notification or of a condition of a registered source since its registration.", "quantifier": "every history", "why_tests_cant": "all histories", "anchors": ["src/port.rs: notify, wait"]}
{"id": "C81", "title": "IOCP: a call that fails changes nothing", "statement": "If add, modify or an add of a waitable returns an error, the poller is as it was before: the source is registered if and only if it was, and later calls behave as if the call had not been made.", "quantifier": "every state and every point at which the system can refuse", "why_tests_cant": "needs an operating-system failure at a precise point", "anchors": ["src/iocp/mod.rs: add, modify, update_packet"]}
{"id": "C82", "title": "IOCP: a call fails only on its own account", "statement": "If a call about one source returns an operating-system error, the system refused something that call asked for about that source.", "quantifier": "every interleaving and every failure of another source", "why_tests_cant": "needs a failure of another source at a precise point", "anchors": ["src/iocp/mod.rs: update_packet, drain_update_queue"]}
{"id": "C83", "title": "IOCP: a notification that fails does no harm to later ones", "statement": "If the system refuses one notify(), a later notify() that succeeds still wakes the waiting thread.", "quantifier": "every interleaving and failure point", "why_tests_cant": "needs an operating-system failure at a precise point", "anchors": ["src/iocp/mod.rs: notify"]}
{"id": "C84", "title": "IOCP: what the kernel reports is what is delivered", "statement": "Whenever a socket's completion is processed, an event is delivered exactly if the reported conditions touch the source's current interest and the source is registered; the event has the interest's key, is readable (writable) exactly if reading (writing) was asked for and a condition that makes a read (write) not block was reported, and its extra part is exactly the reported flags. Whenever a waitable's completion is processed the event is exactly its interest.", "quantifier": "every history and every report", "why_tests_cant": "all flag combinations in all histories", "anchors": ["src/iocp/mod.rs: feed_event", "src/iocp/mod.rs: event_to_afd_mask, afd_mask_to_event", "src/iocp/afd.rs: AfdPollMask"]}
{"id": "C85", "title": "Making a poller is all or nothing", "statement": "If Poller::new() fails, whichever system call was refused, every descriptor of the process is as before and everything is watched that was watched; if it succeeds, the process has exactly the poller's new descriptors in addition. It never panics.", "quantifier": "every state of the process, every sequence of answers of the kernel, every backend", "why_tests_cant": "needs a refusal at each of the system calls of new(), in every combination", "anchors": ["src/epoll.rs: Poller::new, Notifier::new", "src/kqueue.rs: Poller::new, notify::Notify::new", "src/port.rs: Poller::new", "src/poll.rs: Poller::new, notify::Notify::new", "src/iocp/mod.rs: Poller::new"]}
{"id": "C86", "title": "A poller closes its own descriptors, once", "statement": "Dropping a poller closes each of its descriptors exactly once and no other, whatever the kernel answers; in every history of a process what is open is exactly what the program opened itself plus what the living pollers own, no two pollers own the same descriptor, and after the last one is dropped nothing is left.", "quantifier": "every history with any number of pollers, failures of new(), reuse of descriptor numbers", "why_tests_cant": "double closes and leaks show only in particular histories", "anchors": ["src/epoll.rs: Drop for Poller", "src/kqueue.rs: Drop for Poller", "src/port.rs: Poller", "src/poll.rs: Poller"]}
{"id": "C87", "title": "Descriptors of a poller are close-on-exec, the wake-up channel is read without blocking", "statement": "After a successful new() every descriptor of the poller is close-on-exec and the descriptor that is read to take notifications away is non-blocking, by whichever way they were made.", "quantifier": "every sequence of answers of the kernel, every backend but the two platforms without exec", "why_tests_cant": "the fall-back ways are taken only on old kernels", "anchors": ["src/epoll.rs: Notifier::new", "src/poll.rs: notify::Notify::new", "src/kqueue.rs: Poller::new", "src/port.rs: Poller::new"]}
{"id": "C88", "title": "What a new poller watches", "statement": "A new poller watches its wake-up channel with the reserved key and its timer without interest, and nothing else; registrations of other pollers are untouched.", "quantifier": "every state of the process and every sequence of answers of the kernel", "why_tests_cant": "all ways through new()", "anchors": ["src/epoll.rs: Poller::new", "src/kqueue.rs: Poller::new, notify::Notify::register"]}
{"id": "C89", "title": "new() fails only when it has to", "statement": "Poller::new() fails only if the kernel refused, during that call, something there is no substitute for, and with that error: missing eventfd, timerfd or pipe2 are worked around.", "quantifier": "every state of the process and every sequence of answers of the kernel", "why_tests_cant": "needs kernels without the newer system calls", "anchors": ["src/epoll.rs: Poller::new, Notifier::new", "src/poll.rs: notify::Notify::new", "src/iocp/mod.rs: Poller::new"]}
{"id": "C90", "title": "Dropping an IOCP poller frees everything it has allocated", "statement": "When a poller on a completion port is dropped, every packet it has allocated for a source, a waitable or the notifier is freed, at once or as soon as the system has finished what was in flight; nothing is freed that the system may still write to.", "quantifier": "every history of the poller up to the drop, everything the system does afterwards", "why_tests_cant": "depends on which requests are in flight and which completions are queued at the moment of the drop", "anchors": ["src/iocp/mod.rs: Poller, Packet, wait_callback", "src/iocp/port.rs: IoCompletionPort, CompletionHandle"]}
{"id": "C91", "title": "The supported modes are the accepted ones", "statement": "add and modify (and the calls for waitables) refuse every mode that supports_level() and supports_edge() deny; a call in a mode they announce, or in one-shot mode, never fails on account of the mode.", "quantifier": "every state, every history, every backend", "why_tests_cant": "every mode in every state on five platforms", "anchors": ["src/lib.rs: Poller::supports_level, supports_edge, add_with_mode, modify_with_mode", "src/poll.rs: cvt_mode_as_remove", "src/port.rs: add, modify", "src/iocp/mod.rs: add, modify, add_waitable, modify_waitable"]}
{"id": "C92", "title": "A failed connection looks the same on every backend", "statement": "When the kernel reports an error or a hang-up, is_connect_failed() says so, and is_err() is true exactly if it reported an error, whichever backend delivered the report.", "quantifier": "every combination of reported flags", "why_tests_cant": "needs every combination of flags on five platforms", "anchors": ["src/epoll.rs, src/poll.rs, src/port.rs, src/iocp/mod.rs: EventExtra::is_connect_failed, is_err", "src/lib.rs: Event::is_connect_failed, is_err"]}
{"id": "C93", "title": "IOCP: the base socket of a layered socket is found", "statement": "When add asks for the base socket of a socket that stands on layered service providers, it gets the right one whenever asking the providers one after the other leads to it; it asks a bounded number of questions, and a failure is one that a provider reported or a provider that names the socket itself.", "quantifier": "every stack of providers and everything they answer", "why_tests_cant": "needs broken service providers in every arrangement", "anchors": ["src/iocp/afd.rs: base_socket, try_socket_ioctl"]}
{"id": "C94", "title": "IOCP: every call returns", "statement": "However the calls on a completion-port poller interleave, together they make a bounded number of steps for each call and each completion, and until all of them have returned one of them can always make a step; the exception is a wait() that waits at an empty port. In particular making room in the queue of updates and draining it never go on for ever.", "quantifier": "every number of threads, every capacity of the queue of updates, every interleaving, every answer of the system", "why_tests_cant": "a loop that feeds itself shows only under particular schedules", "anchors": ["src/iocp/mod.rs: update_packet, drain_update_queue, wait, feed_event"]}
{"id": "C95", "title": "IOCP: a one-shot waitable delivers once per arming", "statement": "A waitable registered in one-shot mode delivers its interest once; a further delivery without an add_waitable() or modify_waitable() in between is an event that is neither readable nor writable.", "quantifier": "every history and every interleaving of callbacks, modifies and waits", "why_tests_cant": "needs two callbacks of the same waitable in flight at a modify", "anchors": ["src/iocp/mod.rs: feed_event (Waitable), modify_waitable, set_events, update"]}
{"id": "C96", "title": "wait() waits as long as it was told to", "statement": "wait(Some(t)) that returns without having been woken (by an event or a notification) returns not before t has passed since the call, and not later than rounding, scheduling and the system's own delay explain; wait(None) returns only when woken. Signals in between change nothing about it.", "quantifier": "every timeout, every backend, every number and moment of signals, every reading of the clock", "why_tests_cant": "every duration and every moment at which the clock is read; some timeouts take weeks", "anchors": ["src/lib.rs: wait", "src/epoll.rs: wait", "src/kqueue.rs: wait", "src/port.rs: wait", "src/poll.rs: wait", "src/iocp/mod.rs: wait, dur2timeout"]}
{"id": "C97", "title": "No call panics", "statement": "add, modify, delete, notify and wait report what went wrong by an error; none of them panics, whatever the sources, events and modes passed, whatever the system answers and whatever other threads do.", "quantifier": "every backend, every argument, every answer of the system, every schedule", "why_tests_cant": "the panicking expressions are reached, if at all, through states that depend on the schedule and on what the system answers", "anchors": ["src/lib.rs: wait", "src/poll.rs: wait, modify, delete", "src/os/kqueue.rs: Signal", "src/iocp/mod.rs: wait, feed_event", "src/iocp/port.rs: wait", "src/epoll.rs", "src/port.rs"]}
{"id": "C98", "title": "Registration calls are answered alike on every platform", "statement": "A program that adds, modifies and deletes sources gets the same answers on every platform: add of a source that is registered fails with AlreadyExists, modify and delete of one that is not fail with NotFound, everything else succeeds unless memory, mode or descriptor forbid it; so the answers depend on the calls made, not on the backend.", "quantifier": "every sequence of calls, every interleaving, on every backend, with any events in between", "why_tests_cant": "the backends keep their registrations in different places (a table, the kernel, both), which must agree after every history", "anchors": ["src/poll.rs: add, modify, delete", "src/epoll.rs: add, modify, delete", "src/kqueue.rs: add, modify, delete", "src/port.rs: add, modify, delete", "src/iocp/mod.rs: add, modify, delete"]}
{"id": "C99", "title": "IOCP: the functions of the system are found once and for all", "statement": "The first call that needs the unofficial functions of the system looks them up, whichever thread makes it, and every call of the process has the same answer; so a poller that could be made never finds them missing later. No thread uses them before they are there, and none waits for ever.", "quantifier": "every number of threads, every interleaving, every answer of the system", "why_tests_cant": "a race of the first calls of a process happens once per process", "anchors": ["src/iocp/afd.rs: NtdllImports::get, NtdllImports::load, OnceCell::get_or_init", "src/iocp/mod.rs: Poller::new"]}
{"id": "C100", "title": "IOCP: the kernel and the poller mean the same by the memory they share", "statement": "The request that the kernel reads is the socket and the interest it was made for, and the events that the poller reads are the ones the kernel has written, on 32-bit and 64-bit systems; what the kernel writes into the status block of a request touches nothing else of it.", "quantifier": "every socket number, every interest, every answer of the kernel, every content of the buffer, both pointer sizes", "why_tests_cant": "every bit pattern, and systems of both widths", "anchors": ["src/iocp/afd.rs: AfdPollInfo, AfdPollHandleInfo, Afd::poll, handle_count, events, IoStatusBlock"]}
{"id": "C101", "title": "A message posted before notify() is not left unread", "statement": "Threads post messages where others can read them and then call notify(); other threads call wait() and look for messages each time it returns. A thread sleeps in wait(), with no notification pending and nobody about to act, only when every message whose notify() has returned has been read, however many notify() calls were merged into one.", "quantifier": "every number of threads, messages and calls, every interleaving, and every value that the memory model of the language lets a reader find; messages kept under a lock, in sequentially consistent atomics, or in release/acquire atomics", "why_tests_cant": "the failing executions need a processor that delays a store past a later load, and a moment of a few instructions", "anchors": ["src/lib.rs: Poller::notify, Poller::wait"]}
{"id": "C102", "title": "One-shot means one event per source and arming, whatever the platform", "statement": "A source that is registered in one-shot mode gives one event per successful add() or modify(): every event that a wait() delivers about it uses up an arming that no earlier event has used, also within one batch.", "quantifier": "every history of calls, readiness changes and waits, every source, every container size, and all backends", "why_tests_cant": "the second event may come in the same batch, in the next wait or after any number of other calls, and only on some systems", "anchors": ["src/lib.rs: PollMode::Oneshot", "src/epoll.rs: Poller::wait", "src/kqueue.rs: Poller::add, Poller::modify, Poller::wait", "src/port.rs: Poller::wait", "src/poll.rs: Poller::wait", "src/iocp/mod.rs: Poller::wait, Packet::feed_event"]}
{"id": "C103", "title": "An event is about a registration in force during its wait, and carries its key", "statement": "Every event that wait() returns about a source carries the key under which the source was registered at some moment between the beginning of that wait() and its return. So a wait() that begins after delete() has taken effect returns nothing about the source unless it is registered again, and one that begins after modify() has taken effect returns no event with an older key.", "quantifier": "every history of calls, readiness changes and waits, every source, every schedule of the threads, and all backends", "why_tests_cant": "the wrong event appears only if a readiness change, a delete or modify and a wait fall together in one particular order, and on some systems only", "anchors": ["src/lib.rs: Poller::wait, Poller::modify, Poller::delete", "src/epoll.rs: Poller::wait", "src/kqueue.rs: Poller::wait, Poller::modify", "src/port.rs: Poller::wait", "src/poll.rs: Poller::modify, Poller::wait", "src/iocp/mod.rs: Poller::wait, Packet::begin_delete"]}
{"id": "C104", "title": "The safety contract of add() is enough, and needed", "statement": "If every registered source is deleted from the poller before it is closed, and only open sources are given to add() and modify(), then every event is about the very file that was given to the last successful add() or modify() of its descriptor, with the key of that call, and that file is still open under that descriptor; and a descriptor number that the system has given out again can be added like a new one. This holds however descriptors are duplicated and their numbers reused, and whichever calls fail. In particular no poll(2) call in progress in another thread watches a source whose delete() has returned. Without the contract it does not: on epoll a registration can be left over that no call ends, with poll events of a new file come with the key of an old one, and on kqueue a new file cannot be added.", "quantifier": "every history of opening, duplicating, closing, add, modify, delete (each may fail) and wait, of any length, with any numbers, on epoll, poll, kqueue and event ports", "why_tests_cant": "which numbers the system reuses and who holds duplicates of a file depends on the whole process; a test sees one history", "anchors": ["src/lib.rs: Poller::add, Poller::add_with_mode (Safety)", "src/epoll.rs: Poller::add, Poller::modify, Poller::delete", "src/poll.rs: Poller::add, Poller::modify, Poller::delete", "src/kqueue.rs: Poller::add, Poller::modify, Poller::delete", "src/port.rs: Poller::add, Poller::modify, Poller::delete"]}
{"id": "C105", "title": "On every target exactly one backend is compiled, and the rest of the crate fits it", "statement": "For every target of the compiler that is unix, Windows or Hermit, exactly one backend is chosen (all others get the message that the target is not supported), every conditionally compiled definition that the chosen backend uses is there exactly once, with the dependency it needs, and no public item is there that would need another backend: the Poller has a descriptor exactly on epoll, event ports and kqueue, a handle exactly on Windows, and the extension modules exist exactly with their backends.", "quantifier": "every target: any operating system name, vendor and family that agree with the compiler's tables, with and without the flag for testing the poll backend", "why_tests_cant": "a test run compiles the crate for one target; most targets are never built in tests", "anchors": ["src/lib.rs: cfg_if! (sys), raw_fd_impl, raw_handle_impl, AsRawSource, AsSource", "src/os.rs", "src/poll.rs: mod syscall, mod notify", "src/kqueue.rs: mod notify", "src/epoll.rs: Poller::wait", "Cargo.toml"]}
{"id": "C106", "title": "wait() gives up only because another thread is waiting, also after a panic", "statement": "A wait() that returns Ok(0) without asking the system does so only because another thread is in wait() at that moment. What a panic in the middle of a wait() leaves behind does not change this: the next wait() waits, and notify() wakes it.", "quantifier": "every history of wait, add, modify, delete and notify by any number of threads, with panics at any point of wait(), and of the other calls wherever they hold no lock, and failing and interrupted system calls anywhere", "why_tests_cant": "a panic inside a wait() is rare (a subscriber of the tracing library, an expectation the system does not meet), and its effect shows in later calls of other threads", "anchors": ["src/lib.rs: Poller::wait, Poller::notify", "src/poll.rs: Poller::modify_fds, Poller::wait", "src/kqueue.rs: Poller::submit_changes", "src/iocp/mod.rs: lock"]}
{"id": "C107", "title": "On Windows wait() does not sleep through a source that is ready", "statement": "While wait() sleeps, no call is in progress and the system has delivered everything it was asked for, no registered socket has a condition that its interest asks for, and no registered waitable handle with an interest is signalled: an interest in a handle is never forgotten, there is always a registered wait, a callback or a completion under way for it, or a call at work.", "quantifier": "every history of calls, readiness changes, signals, callbacks and waits, any number of threads, sources and handles, every failure of a system call, and every state of the sockets and handles outside", "why_tests_cant": "the source is lost only if a call falls into a window of a few instructions in which a wait begins, and the wait then sleeps for ever instead of failing", "anchors": ["src/iocp/mod.rs: Poller::wait, Poller::update_packet, Poller::drain_update_queue, PacketUnwrapped::update, PacketUnwrapped::set_events, PacketUnwrapped::feed_event, WaitHandle", "src/iocp/port.rs: CompletionPort::wait, CompletionPort::post"]}
{"id": "C108", "title": "poll backend: wait() does not sleep through a source that is ready, and reports it", "statement": "While wait() is inside poll(2), every source that was added or modified, and if one-shot has not been reported since, is watched for exactly what the last successful call asked for. If something asked for is true of the source then poll(2) has something to return, and that wait() ends with Ok and an event for the source which has the key given last and says all that is true and was asked for, whatever other threads do meanwhile.", "quantifier": "every history of calls of any number of threads, every table of sources, every state of the sources outside, every truthful answer of poll(2) and every schedule until the wait returns", "why_tests_cant": "whether a source is forgotten depends on the order of table changes, wake-ups and one-shot disarming in a history of any length; a test sees one history", "anchors": ["src/poll.rs: Poller::wait, Poller::add, Poller::modify, Poller::delete, Poller::modify_fds", "src/lib.rs: Poller::wait"]}
{"id": "C109", "title": "On Windows concurrent calls answer as if they were made one after another", "statement": "However the calls to add, modify, delete and their waitable counterparts overlap, there is for each call one moment between its call and its return such that, performed one after another at these moments, the calls give the answers that they gave (AlreadyExists, NotFound, success or the system's error) and leave exactly the sources registered, with the interests, that the poller has. In particular two adds of one source do not both succeed unless a deletion was asked for in between.", "quantifier": "every number of threads, sockets and waitable handles, every overlap of calls and of wait(), every refusal of the system, every report of a closed socket", "why_tests_cant": "a modify looks the source up and changes it later, after another thread may have deleted and added it again; the moments depend on the schedule, and tests see only a few schedules", "anchors": ["src/iocp/mod.rs: Poller::add, Poller::modify, Poller::delete, Poller::add_waitable, Poller::modify_waitable, Poller::remove_waitable, sources, waitables"]}
{"id": "C110", "title": "IOCP: completions come out in the order in which they went in", "statement": "Packets that are posted one after the other, by whichever threads, requests that AFD finishes, signalled waitables and notifications are processed by wait() in the order in which they got into the port, however few a container takes at a time: a completion with k others before it is processed after exactly these k. What wait() delivers is in this order. If a wait fails some may be missing, but the others keep their order.", "quantifier": "every number of threads, every interleaving of posts, completions and waits, containers of every positive capacity, every failure of the system", "why_tests_cant": "the order depends on the schedule of the posting threads, the sizes of the batches and the failures in between", "anchors": ["src/iocp/mod.rs: Poller::post, Poller::wait, CompletionPacket", "src/iocp/port.rs: IoCompletionPort::post, IoCompletionPort::wait"]}
{"id": "C111", "title": "kqueue: a signal is one-shot whatever the mode", "statement": "A Signal registered with add_filter is delivered once and then not again until it is modified or added again, whichever mode was given, as its documentation says; and no occurrence of a signal, process or timer is delivered twice.", "quantifier": "every mode, every history of calls, occurrences and waits, every number of threads, kernels that keep or replace the flags of an existing filter", "why_tests_cant": "the mode goes through to the kernel, so whether a second occurrence is delivered depends on the history of calls and occurrences", "anchors": ["src/os/kqueue.rs: Signal, Filter, PollerKqueueExt::add_filter, PollerKqueueExt::modify_filter", "src/kqueue.rs: mode_to_flags"]}
{"id": "C112", "title": "A poller can itself be polled", "statement": "The descriptor of a poller (as_fd, as_raw_fd), registered in another poller or given to select() or poll(), is readable exactly when a wait() without a timeout, called now and with nothing else happening, would come back at once with something to report: some source is ready for what it is watched for and has not been reported since it was armed, or a notification is pending.", "quantifier": "every history of calls, readiness changes, notifications, expiring timeouts, waits and failures, every capacity; epoll with and without a timerfd, event ports, and on kqueue the direction from something to report to readable", "why_tests_cant": "whether the descriptor is readable depends on everything the poller left in the kernel, also on what earlier waits left behind", "anchors": ["src/lib.rs: impl AsRawFd for Poller, impl AsFd for Poller", "src/epoll.rs: impl AsFd for Poller, Poller::wait, Poller::notify", "src/kqueue.rs: impl AsFd for Poller", "src/port.rs: impl AsFd for Poller"]}
{"id": "C113", "title": "One wait reports no more events than the container has room for", "statement": "With a container made by Events::with_capacity(n), a wait() puts at most n events into it, so that a program that makes room for n events never has to handle more than n of them at a time.", "quantifier": "every capacity, every history before the wait, every interleaving of other calls and of the system with it; each backend", "why_tests_cant": "tests make a few sources ready with room for 1024 events; the bound matters when more sources are ready than fit, for every number of them", "anchors": ["src/lib.rs: Events::with_capacity, Poller::wait", "src/poll.rs: Poller::wait, Events::with_capacity", "src/epoll.rs: Poller::wait", "src/kqueue.rs: Poller::wait", "src/port.rs: Poller::wait", "src/iocp/mod.rs: Poller::wait, PacketUnwrapped::feed_event"]}
{"id": "C114", "title": "A source with no interest delivers no event, whatever the platform", "statement": "Once add or modify has succeeded for a source with Event::none, no wait() reports an event for it until its interest is changed again.", "quantifier": "every history before and after the call, every interleaving with other calls and with readiness changes, hang-ups and errors; epoll, kqueue, event ports and poll (completion ports: C58)", "why_tests_cant": "tests switch the interest off and look at ordinary readiness; what matters are all conditions, errors and hang-ups included, in every order with the call", "anchors": ["src/lib.rs: Event::none, Poller::modify", "src/epoll.rs: Poller::modify, epoll_flags", "src/kqueue.rs: Poller::modify", "src/port.rs: Poller::modify", "src/poll.rs: Poller::modify, Poller::wait"]}
{"id": "C115", "title": "One wait reports each source at most once", "statement": "In the events that one wait() returns there is at most one event about each registered source, which says all that is reported about it.", "quantifier": "every history before the wait, every set of ready sources, every interleaving of other calls and of the system with it; each backend", "why_tests_cant": "tests look at one source with one condition at a time; a second event needs two conditions, or a completion that is still in the queue when the source is armed again", "anchors": ["src/lib.rs: Poller::wait, Events::iter", "src/epoll.rs: Poller::wait", "src/kqueue.rs: Poller::wait", "src/port.rs: Poller::wait", "src/poll.rs: Poller::wait", "src/iocp/mod.rs: Poller::wait, PacketUnwrapped::feed_event, PacketUnwrapped::update"]}
{"id": "C116", "title": "poll backend: a one-shot registration is used up only by a wait that reports it", "statement": "If a wait() has disarmed a one-shot source, that wait() returns Ok with an event of the source; a wait() that fails has disarmed nothing, whatever it did before it failed.", "quantifier": "every number of threads, every interleaving, every answer and failure of poll(2) and of the notification channel, every number of turns of the wait", "why_tests_cant": "needs a wait that takes several turns and a failure between them", "anchors": ["src/poll.rs: Poller::wait", "src/lib.rs: Poller::wait"]}
{"id": "C117", "title": "Completion ports: an event that was taken from the system reaches the caller", "statement": "When wait() has taken a completion that makes a source report an event, the event is among those that this wait() returns; in particular a one-shot source is not disarmed without its event having been reported.", "quantifier": "every history, every interleaving of other calls with the wait, every size of the batch, every answer of the system, failed updates of other sources included", "why_tests_cant": "needs a full update queue in the moment a completion is processed and a failure of an unrelated source's update", "anchors": ["src/iocp/mod.rs: Poller::wait, PacketUnwrapped::feed_event, Poller::update_packet, Poller::drain_update_queue"]}
{"id": "C118", "title": "A zero timeout never waits, and a wait that has to wait returns only with an event", "statement": "On epoll and kqueue a wait() with a zero timeout returns Ok after at most five steps of its own, whatever was registered or happened before and without anything else happening. A wait() without a timeout, and on epoll one whose timeout is kept by a timerfd, comes back from the kernel only with an event. On completion ports a wait() that has seen its deadline pass does not go to sleep again. On the poll backend every poll(2) call of a wait() with a zero timeout, or past its deadline, is given the timeout zero, and without a timeout an infinite one.", "quantifier": "every history of calls, failures, readiness changes and earlier waits; epoll, kqueue, poll, completion ports (event ports: C50)", "why_tests_cant": "tests poll with a zero timeout in a few states; the claim is that no state can make it wait", "anchors": ["src/epoll.rs: Poller::wait", "src/kqueue.rs: Poller::wait", "src/poll.rs: Poller::wait", "src/iocp/mod.rs: Poller::wait"]}
{"id": "C119", "title": "A wait that has taken events from the system returns Ok", "statement": "If the system has reported events to a wait(), disarming the one-shot sources among them, the wait() returns Ok. On epoll and on kqueue with a socket pair it does not: it arms the notifier again after taking the events, and returns that call's error if it is refused. On kqueue with a user event it does.", "quantifier": "every history of calls, system failures and readiness changes; epoll and kqueue", "why_tests_cant": "the failing call is the last one of a wait(), which no test can make the system refuse", "anchors": ["src/epoll.rs: Poller::wait", "src/kqueue.rs: Poller::wait, notify::Notify::reregister", "src/lib.rs: Poller::wait"]}
