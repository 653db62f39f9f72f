#!/usr/bin/env python3
"""Writes /verif/properties.jsonl from the table below (one tuple per property)."""
import json, os
P = []
def p(id, title, statement, quantifier, why, anchors):
    P.append(dict(id=id, title=title, statement=statement, quantifier=quantifier,
                  why_tests_cant=why, anchors=anchors))

# ---------------------------------------------------------------- lib.rs
p("C01", "The reserved key is rejected and has no effect",
  "Poller::add/add_with_mode/modify/modify_with_mode with interest.key == usize::MAX return an InvalidInput error and leave the poller exactly as it was; with any other key the call is forwarded to the platform unchanged (add and modify use Oneshot mode).",
  "every poller state, source, interest and mode",
  "a test can try one key against one state; the claim is about all keys, all states and about nothing else changing",
  ["src/lib.rs: Poller::add, add_with_mode, modify, modify_with_mode, NOTIFY_KEY"])
p("C02", "Wake-up markers never surface in Events",
  "Iterating an Events container yields exactly the delivered events whose key is not usize::MAX, in delivery order; len() is the length of that sequence and is_empty() says whether it is empty.",
  "every content of the container",
  "must hold for every mixture and order of real events and internal wake-up events",
  ["src/lib.rs: Events::iter, len, is_empty, clear"])
p("C03", "wait() reports the number of events in the container",
  "When wait() takes the lock and returns Ok(n), n is the number of events the caller can iterate in the container; a contended wait() returns Ok(0) and leaves the container and the notification state untouched.",
  "every container content, every sequence of backend outcomes",
  "depends on every possible backend outcome and on contention",
  ["src/lib.rs: Poller::wait"])
p("C04", "Signals are transparent to wait()",
  "A backend wait interrupted by a signal (EINTR) is retried: however many interruptions occur, wait() never returns Interrupted, discards whatever the interrupted attempts put in the container and finally returns what the first non-interrupted attempt yields.",
  "every finite number of interruptions and every final outcome",
  "unbounded number of signal deliveries at arbitrary points",
  ["src/lib.rs: Poller::wait"])
p("C05", "Interruptions do not extend the timeout",
  "All attempts of one wait(timeout) call share one deadline: the timeout handed to the operating system at each attempt is exactly the time left until call time + timeout (zero once it passed), so it never exceeds the original timeout and never grows as time advances; no timeout, or one that overflows the clock, means an unbounded wait at every attempt.",
  "every timeout, every clock reading, every number of interruptions",
  "clock values, overflow and signal timing cannot be enumerated",
  ["src/lib.rs: Poller::wait (deadline, saturating_duration_since, checked_add)"])
p("C06", "Errors from the platform are reported and do not clear the wake-up request",
  "If the platform wait fails with anything other than Interrupted, wait() returns exactly that error, and it does not clear the pending-notification mark of the poller.",
  "every error and every number of preceding interruptions",
  "error codes and retry histories are unbounded",
  ["src/lib.rs: Poller::wait, notified"])
p("C07", "At most one thread waits",
  "In every interleaving at most one wait() call is past the lock at any moment; a wait() that starts while another is in progress returns Ok(0) immediately without performing any platform call.",
  "every number of threads and every interleaving",
  "needs all interleavings of arbitrarily many threads",
  ["src/lib.rs: Poller::wait, lock"])
p("C08", "notify() is never lost on epoll",
  "With the eventfd notifier and with the pipe notifier: if a notify() call has returned Ok and no wait() has returned Ok since it was called, then a wait() that is blocked in the kernel is ready to return at once, unless another thread is still inside notify() and about to make it so. However the calls under way are scheduled they come to rest after a bounded number of steps, and that wait() has then returned. Premise: re-arming the notifier's registration and writing to it do not fail.",
  "every number of notifying and waiting threads, every interleaving, every mix of I/O events, timeouts, signals and errors raised before the kernel wait returns",
  "lost-wakeup races only show under particular interleavings",
  ["src/lib.rs: Poller::notify, Poller::wait", "src/epoll.rs: Poller::wait, Poller::notify, Notifier"])
p("C09", "notify() is never lost on kqueue",
  "The same no-lost-wakeup guarantee holds for kqueue with EVFILT_USER (premise: the trigger does not fail) and with the socket-pair notifier (premise: re-registering it does not fail).",
  "every number of threads and every interleaving",
  "lost-wakeup races only show under particular interleavings",
  ["src/kqueue.rs: notify::Notify, Poller::wait, Poller::notify"])
p("C10", "notify() is never lost on event ports",
  "The same no-lost-wakeup guarantee holds for event ports as long as the port accepts the notification.",
  "every number of threads and every interleaving",
  "lost-wakeup races only show under particular interleavings",
  ["src/port.rs: Poller::notify, Poller::wait"])
p("C11", "A failed notify() does not silence later ones",
  "After a notify() whose platform call failed, a later notify() that returns Ok still wakes the current or next wait().",
  "every history",
  "needs an operating-system failure at a precise point",
  ["src/lib.rs: Poller::notify", "src/port.rs: Poller::notify"])
p("C12", "A failed wait() does not silence later notifications",
  "After a wait() that returned an error, a later notify() that returns Ok still wakes the current or next wait().",
  "every history",
  "needs an operating-system failure at a precise point",
  ["src/lib.rs: Poller::wait", "src/epoll.rs: Poller::wait", "src/kqueue.rs: notify::Notify::reregister"])
p("C13", "wait() appends to the container",
  "As documented, events returned by wait() are appended to the container, keeping the events that were already there.",
  "every container content and every wait",
  "documentation claim over all container contents",
  ["src/lib.rs: Poller::wait doc", "src/poll.rs: Poller::wait", "src/iocp/mod.rs: Poller::wait"])
p("C14", "Notifications coalesce",
  "However many notify() calls are made while no thread is waiting, the following wait() is woken once: it returns no events and the wait() after that is not woken by them.",
  "every number of notify() calls and callers",
  "unbounded number of calls",
  ["src/lib.rs: Poller::notify", "src/epoll.rs: Notifier"])
# ---------------------------------------------------------------- time
p("C15", "epoll without timerfd: timeouts round up and never wrap",
  "A finite timeout is converted to the least whole number of milliseconds not below it, saturating at i32::MAX; it is never negative (infinite), is zero only for the zero timeout, and no timeout maps to the infinite value.",
  "every Duration",
  "64-bit seconds times nanoseconds cannot be enumerated; overflow lives at the extremes",
  ["src/epoll.rs: Poller::wait timeout_ms"])
p("C16", "epoll with timerfd: timeouts are exact",
  "A non-zero timeout programs the timer with exactly that many seconds and nanoseconds, blocks in the kernel without a millisecond limit, and the zero timeout and no timeout disarm the timer; a stale timer setting never survives into a later wait; every value the public wait() can pass is accepted by the timer (seconds non-negative, nanoseconds below 10^9).",
  "every Duration and clock reading",
  "extremes of 64-bit arithmetic and casts",
  ["src/epoll.rs: Poller::wait timerfd_settime, TS_ZERO"])
p("C17", "poll backend: timeouts round up and never wrap",
  "The remaining time is converted to the least whole number of milliseconds not below it, saturating at i32::MAX; -1 (infinite) is passed exactly when there is no deadline; zero exactly when the deadline has passed.",
  "every deadline and clock reading",
  "extremes of 64-bit arithmetic and casts",
  ["src/poll.rs: Poller::wait timeout_ms"])
p("C18", "IOCP: timeouts round up, saturating to infinite",
  "A finite timeout is converted to the least whole number of milliseconds not below it if that is below u32::MAX, and to INFINITE otherwise; no intermediate overflow occurs.",
  "every Duration",
  "extremes of 64-bit arithmetic and casts",
  ["src/iocp/mod.rs: dur2timeout"])
p("C19", "IOCP wait() does not give up early",
  "The IOCP wait returns Ok with neither an event nor a notification only if the deadline had passed when it computed the last timeout; without a deadline it never does.",
  "every number of loop iterations, every clock reading and completion batch",
  "unbounded number of spurious completions",
  ["src/iocp/mod.rs: Poller::wait"])
# ---------------------------------------------------------------- Event API
p("C20", "Event flag accessors obey the set/get laws",
  "On epoll, poll, event ports and IOCP, set_interrupt(b)/set_priority(b) make is_interrupt()/is_priority() return b and change nothing else about the event (key, readable, writable, the other flag, error flags); with_interrupt/with_priority are the true-setters; clear_extra/with_no_extra reset exactly the extra part.",
  "every event (all flag words)",
  "all 2^32 flag words on four platforms",
  ["src/lib.rs: Event", "src/epoll.rs/poll.rs/port.rs/iocp/mod.rs: EventExtra"])
p("C21", "Extra flags are no-ops on kqueue",
  "On kqueue the interrupt and priority setters do not change the event, the getters return false and is_err/is_connect_failed return None.",
  "every event",
  "universal over events",
  ["src/kqueue.rs: EventExtra"])
p("C22", "Reported readiness is classified soundly and completely",
  "On epoll, poll, event ports, kqueue and IOCP an event read from the container is readable (writable) exactly when the operating system reported one of the documented read (write) conditions for it, carries the user's key unchanged, and its interrupt/priority/error accessors reflect exactly the reported flags.",
  "every flag word the OS can report and every key",
  "all flag words and all keys",
  ["src/epoll.rs: Events::iter, read_flags, write_flags", "src/poll.rs: read_events, write_events", "src/port.rs: Events::iter", "src/kqueue.rs: Events::iter", "src/iocp/mod.rs: afd_mask_to_event"])
p("C23", "Interest is translated soundly and completely",
  "The flags given to the kernel contain the read (write) conditions exactly when the interest is readable (writable) [for interests built with the public constructors and setters], the one-shot/edge bits exactly as the mode says, and distinct modes give distinct flags.",
  "every interest and mode",
  "all interests and modes on five platforms",
  ["src/epoll.rs: epoll_flags", "src/poll.rs: poll_events", "src/port.rs: modify", "src/kqueue.rs: mode_to_flags, modify", "src/iocp/mod.rs: event_to_afd_mask"])
p("C24", "Priority interest is honoured on every platform documented to support it",
  "An interest with set_priority(true) makes the poller watch for priority data even if readable is false (documented for epoll, poll, IOCP and event ports).",
  "every interest, each documented platform",
  "universal over interests and platforms",
  ["src/lib.rs: Event::set_priority doc", "src/poll.rs: poll_events", "src/port.rs: Poller::modify"])
p("C25", "modify() with readable = false stops readability events",
  "Whatever Event value is passed, the kernel is asked for read conditions only if its readable field is true (or priority was requested).",
  "every Event value reachable through the API, including events obtained from wait()",
  "needs an event echoed back from wait()",
  ["src/epoll.rs: Poller::modify (epoll_flags | ev.extra.flags)", "src/iocp/mod.rs: event_to_afd_mask"])
# ---------------------------------------------------------------- poll.rs sequential
p("C26", "poll backend: registration bookkeeping never goes out of bounds or panics",
  "No sequence of add/modify/delete/wait calls panics or indexes out of bounds, and the table handed to poll(2) always holds the notifier first and then exactly one entry for each registered descriptor.",
  "every finite sequence of calls with every argument and every kernel answer",
  "swap-remove index bookkeeping must survive every history",
  ["src/poll.rs: Fds, add, modify, delete, wait"])
p("C27", "poll backend: registrations behave like a map",
  "add fails with AlreadyExists iff the descriptor is registered, modify/delete fail with NotFound iff it is not, edge modes fail with Unsupported, the poller's own descriptors are rejected with InvalidInput; otherwise the call updates exactly that descriptor's key, interest and one-shot flag and no other.",
  "every reachable state and every call",
  "refinement over all histories",
  ["src/poll.rs: add, modify, delete"])
p("C28", "poll backend: a failed call changes nothing",
  "add, modify and delete that return an error leave every registration unchanged.",
  "every state and call",
  "all failing calls in all states",
  ["src/poll.rs: modify (cvt_mode_as_remove after the update)"])
p("C29", "poll backend: wait delivers exactly what the kernel reported",
  "One wait reports one event for each registered descriptor with non-empty returned flags, with that registration's current key, and nothing else; one-shot registrations that were reported get their interest cleared and every other registration is unchanged.",
  "every registration table, every poll(2) answer, every hash iteration order",
  "all table sizes and iteration orders",
  ["src/poll.rs: Poller::wait (store loop)"])
p("C30", "poll backend: one-shot delivers once",
  "After an event for a one-shot descriptor was delivered, no further event is delivered for it until modify() or add() is called.",
  "every history of waits and kernel answers",
  "needs all histories; hang-up conditions are reported regardless of interest",
  ["src/poll.rs: Poller::wait, cvt_mode_as_remove"])
# ---------------------------------------------------------------- poll.rs concurrent
p("C31", "poll backend: descriptor table accesses are exclusive and current",
  "No two threads touch the descriptor table at once, the table is never changed while a poll(2) call uses it, and an add/modify/delete that has returned is visible to every poll(2) call in progress.",
  "every number of threads and every interleaving",
  "needs all interleavings",
  ["src/poll.rs: modify_fds, wait"])
p("C32", "poll backend: add/modify/delete never get stuck behind a waiting thread",
  "Whenever add, modify or delete is blocked on the poller while another thread is blocked in poll(2), that poll(2) call has a wake-up pending and returns; the waiter never sleeps without someone left to wake it.",
  "every number of threads and every interleaving in which writing a wake-up succeeds (pipe notifier, and eventfd notifier whose reads do not block)",
  "needs all interleavings",
  ["src/poll.rs: modify_fds, wait, operations_complete"])
p("C33", "poll backend: calls terminate",
  "If no new calls start, every scheduling of the threads reaches, in a bounded number of steps, a state in which every add/modify/delete/notify has returned and every wait has either returned or is blocked in poll(2) with nothing pending.",
  "every reachable state and every scheduling in which writing a wake-up succeeds (pipe notifier, and eventfd notifier whose reads do not block; C36 for the others)",
  "termination over all schedules",
  ["src/poll.rs: modify_fds, wait, notify"])
p("C34", "poll backend: notify() is never lost",
  "If a notify() has returned and no wait() has returned since, a wait() blocked in the kernel is ready to return (or another thread is still inside notify()).",
  "every number of threads and every interleaving",
  "needs all interleavings",
  ["src/poll.rs: notify, wait, pop_notification", "src/lib.rs: Poller::notify, Poller::wait"])
p("C35", "poll backend: wait() does not fail spuriously",
  "wait() returns an error only if a system call other than emptying the poller's own notification channel failed.",
  "every interleaving",
  "needs all interleavings",
  ["src/poll.rs: wait (return self.notify.pop_notification())"])
p("C36", "poll backend on Vita and Hermit: no deadlock",
  "With the Vita notifier (blocking single read) and an eventfd created without a non-blocking flag, add/modify/delete and wait() still cannot deadlock.",
  "every interleaving",
  "needs a particular interleaving on rare platforms",
  ["src/poll.rs: notify::Notify::pop_notification (vita), eventfd shim (hermit)"])
p("C37", "poll backend: the notification channel stays bounded",
  "The number of unread wake-up bytes never exceeds twice the number of threads using the poller plus two, however long it runs, so writing a wake-up never blocks on a full pipe unless the pipe is smaller than that.",
  "every interleaving",
  "needs all histories",
  ["src/poll.rs: notify::Notify::notify, pop_notification, pop_all_notifications"])
# ---------------------------------------------------------------- epoll
p("C38", "epoll: registrations behave like a map",
  "add fails iff the descriptor is registered, modify/delete fail iff it is not; a successful call changes exactly that registration to the given key, interest and mode; a failed call changes nothing.",
  "every reachable state and every call",
  "refinement over all histories",
  ["src/epoll.rs: add, modify, delete"])
p("C39", "epoll: one-shot delivers once per arming",
  "For a source registered in Oneshot or EdgeOneshot mode, between any two delivered events there is a successful modify (or delete and add) of that source.",
  "every history of calls, readiness changes and waits",
  "all histories",
  ["src/epoll.rs: epoll_flags, add, modify", "src/lib.rs: PollMode"])
p("C40", "epoll: level-triggered sources are not forgotten",
  "As long as a Level source is ready for its interest, a wait with room in the container reports it, again and again, with its latest key.",
  "every history",
  "all histories",
  ["src/epoll.rs: epoll_flags", "src/lib.rs: PollMode::Level"])
p("C41", "epoll: edge-triggered sources are reported once per new event",
  "For an Edge source, the number of delivered events never exceeds the number of new readiness events plus (re)registrations.",
  "every history",
  "all histories",
  ["src/epoll.rs: epoll_flags", "src/lib.rs: PollMode::Edge"])
p("C42", "epoll: no events after delete, latest key after modify",
  "Every delivered event belongs to a source registered at the moment of the kernel call and carries the key of its latest successful add/modify.",
  "every history",
  "all histories",
  ["src/epoll.rs: add, modify, delete, wait"])
# ---------------------------------------------------------------- kqueue
p("C43", "kqueue: registrations behave like a map",
  "As long as calls on the same source do not overlap: add/add_filter fail with AlreadyExists iff the source is registered (an add of it was not refused as a duplicate and no delete succeeded since); modify, modify_filter and delete fail with NotFound iff it is not; delete_filter succeeds only if it is and says NotFound only if it is not; descriptors, signals, processes and timers with equal numbers never collide.",
  "every reachable state and every call",
  "all histories and source kinds",
  ["src/kqueue.rs: add_source, has_source, remove_source, SourceId", "src/os/kqueue.rs"])
p("C44", "kqueue: a failed add changes nothing",
  "add/add_filter that return an error leave the source unregistered, so it can be added again.",
  "every state and every kernel error",
  "needs a kernel failure at a precise point",
  ["src/kqueue.rs: Poller::add", "src/os/kqueue.rs: add_filter"])
p("C45", "kqueue: change errors are reported exactly",
  "A change list is reported as failed iff some receipt carries a non-zero error other than ENOENT and EPIPE, and the reported error is the first such one; if the system call itself fails, its error is reported.",
  "every receipt list",
  "all receipt lists",
  ["src/kqueue.rs: submit_changes"])
p("C46", "kqueue: modify installs exactly the requested filters",
  "After a successful modify the kernel watches the read (write) filter of the descriptor iff the interest is readable (writable), with the given key and the flags of the mode; after delete it watches neither; no other source's filters change.",
  "every kernel filter table, interest and mode",
  "all tables and interests",
  ["src/kqueue.rs: modify, delete, mode_to_flags"])
p("C47", "kqueue: one-shot delivers once per kind and arming",
  "Between two delivered events of the same kind (read or write) of a descriptor that was last armed one-shot there is an add or modify of it that asked for that kind and that the kernel granted.  Where the kernel keeps the mode of a filter that is added again, this is for descriptors only ever armed one-shot.",
  "every history",
  "all histories",
  ["src/kqueue.rs: modify, mode_to_flags"])
p("C48", "Every registration path rejects the reserved key",
  "add_filter/modify_filter (kqueue), add_waitable/modify_waitable and post (IOCP) also refuse usize::MAX, so no user event is ever silently hidden.",
  "every key and every extension API",
  "universal over extension calls",
  ["src/os/kqueue.rs: add_filter, modify_filter", "src/os/iocp.rs: add_waitable, modify_waitable, post", "src/lib.rs: Events::iter"])
# ---------------------------------------------------------------- event ports
p("C49", "event ports: registrations",
  "Only Oneshot mode is accepted (otherwise Unsupported with no effect); add and modify associate exactly the given key and interest with the descriptor whether or not it was associated; delete removes the association and succeeds also if there is none.",
  "every state and call",
  "all states and calls",
  ["src/port.rs: add, modify, delete"])
p("C50", "event ports: one-shot delivery and timeouts",
  "A delivered event dissociates its descriptor, so nothing more is delivered for it until add/modify; a timer expiry (ETIME) is reported as success with no events and every other error is reported.",
  "every history and every port_getn answer",
  "all histories",
  ["src/port.rs: wait"])
p("C51", "Using a source that was never added is an error on every platform",
  "modify and delete of a source that was never added return an error, and a second add of the same source returns an error.",
  "every platform",
  "cross-platform universal claim",
  ["src/port.rs: add, modify, delete", "src/iocp/mod.rs: delete"])
# ---------------------------------------------------------------- IOCP
p("C52", "IOCP: at most one kernel operation per socket and no buffer reuse in flight",
  "For every socket at most one poll request is in flight at any time and the request buffer is only written while none is.",
  "every number of threads, interleaving and completion order (no hard submission error)",
  "needs all interleavings",
  ["src/iocp/mod.rs: update, feed_event, set_events, cancel", "src/iocp/afd.rs: poll, IoStatusBlock"])
p("C53", "IOCP: no interest change is forgotten",
  "For every registered socket, whatever interest the last add/modify gave is either the one the kernel is polling for, or a queued/pending update, a pending cancellation or an undelivered completion will install it.",
  "every interleaving (no hard submission error)",
  "needs all interleavings",
  ["src/iocp/mod.rs: update_packet, update, feed_event, drain_update_queue"])
p("C54", "IOCP: add/modify take effect while another thread is blocked in wait()",
  "When add or modify has returned and a thread is blocked waiting on the completion port, the kernel is already polling for the new interest or a completion is on its way.",
  "every interleaving",
  "needs a precise interleaving",
  ["src/iocp/mod.rs: update_packet (polling flag), wait"])
p("C55", "IOCP: one-shot delivers once per arming and only requested readiness",
  "A delivered socket event never claims readability (writability) the interest did not ask for; in Oneshot mode between two delivered events of a socket there is a successful modify or add.",
  "every history",
  "all histories",
  ["src/iocp/mod.rs: feed_event, set_events"])
p("C56", "IOCP: no socket event after delete",
  "Once delete() has returned, no event of that registration is delivered by any later processing, even if its completion was already queued; deleting twice or deleting an unknown socket succeeds without effect.",
  "every interleaving and completion order",
  "needs all interleavings",
  ["src/iocp/mod.rs: delete, begin_delete, feed_event"])
p("C57", "IOCP: no waitable event after remove_waitable",
  "Once remove_waitable() has returned, no event of that registration is delivered.",
  "every interleaving",
  "needs a precise interleaving",
  ["src/iocp/mod.rs: remove_waitable, begin_delete, feed_event (Waitable)"])
p("C58", "IOCP: a source with no interest delivers nothing",
  "A socket or waitable whose current interest is empty delivers no event.",
  "every history",
  "all histories",
  ["src/iocp/mod.rs: feed_event"])
p("C59", "IOCP: a failed submission can be retried",
  "If starting the kernel poll for a socket fails and modify() is called again later, the poll is really restarted.",
  "every history with a submission error",
  "needs an operating-system failure at a precise point",
  ["src/iocp/afd.rs: Afd::poll (try_lock without unlock on error)", "src/iocp/mod.rs: update"])
p("C60", "IOCP: one failing source does not lose other sources' completions",
  "If processing one completion of a batch fails, the completions behind it in the batch are still processed by a later wait().",
  "every batch and failure position",
  "needs a failure at a precise point in a batch",
  ["src/iocp/mod.rs: wait (drain loop)", "src/iocp/port.rs: OverlappedEntry::drop"])
p("C61", "IOCP: a closed socket is cleaned up without deadlock",
  "Processing the completion of a socket that was closed locally removes it without blocking or panicking.",
  "every state",
  "lock re-entrance on a rare branch",
  ["src/iocp/mod.rs: feed_event (LOCAL_CLOSE), begin_delete"])
p("C62", "IOCP: completion packets are reference-counted correctly",
  "Every pointer held by the kernel or the completion queue is backed by exactly one strong reference, taken back exactly once: no use after free and no double free.",
  "every interleaving",
  "memory-safety argument over all histories",
  ["src/iocp/port.rs: CompletionHandle, OverlappedEntry", "src/iocp/afd.rs: poll"])
p("C63", "IOCP: AFD helper handles are shared by at most 32 sockets and are never leaked",
  "No AFD instance is used by more than 32 sockets; choosing an instance terminates, drops only dead instances from the pool and creates a new one only if every live one is full.",
  "every pool content and every concurrent release",
  "all pool contents and races with releases",
  ["src/iocp/mod.rs: afd_handle"])
p("C64", "IOCP: notify() is never lost",
  "If a notify() has returned and no wait() has returned since, a wait() blocked on the completion port has the wake-up packet pending (or another thread is still inside notify()). Premises: no wait returned an error and the system refused no notification (C83 is about that).",
  "every interleaving",
  "needs all interleavings",
  ["src/iocp/mod.rs: notify, wait, feed_event"])
p("C65", "IOCP: posted packets are delivered exactly once each",
  "Every successful post() leads to exactly one event with the packet's event value, whatever else happens, as long as wait() keeps being called and does not fail.",
  "every interleaving",
  "all histories",
  ["src/iocp/mod.rs: post, CompletionPacket, feed_event"])

p("C66", "Events::capacity() never panics",
  "Events::new and Events::with_capacity never panic and capacity() returns a non-zero number not below the requested capacity (1024, or 32 on ESP-IDF, for new) after any use of the container.",
  "every requested capacity, allocator choice and history of waits and clears",
  "all histories of the vector",
  ["src/lib.rs: Events::new, with_capacity, capacity", "src/epoll.rs: Events", "src/kqueue.rs: Events", "src/port.rs: Events", "src/poll.rs: Events", "src/iocp/mod.rs: Events"])

p("C67", "poll backend: changing registrations does not prolong a wait",
  "However often other threads' add/modify/delete calls interrupt a wait(), every poll(2) call it makes gets the time left until the one deadline fixed at the start, rounded up to milliseconds and capped at i32::MAX.",
  "every timeout, number of interruptions and sequence of clock readings",
  "the number of interruptions is unbounded",
  ["src/poll.rs: wait"])

p("C68", "epoll with a timerfd: a deadline ends its own wait and no other",
  "When wait() is in the kernel the timer has been set by this very wait. If it has run out the kernel returns at once, whatever else is registered and however small the container; if it is running it can still run out; and the timer's event is never seen by a wait whose own positive timeout has not run out.",
  "every history of calls, failures, expiries and waits",
  "depends on all earlier waits and failures",
  ["src/epoll.rs: wait"])
p("C69", "epoll: a notification ends the wait that follows it",
  "If notify() was called when no wait() was on its way back from the kernel, and no kernel wait has returned since, then a wait() in the kernel returns at once, however many other sources are ready and however small the container. Premise: no wait() has failed after its kernel call since the last one that returned Ok.",
  "every history of calls, failures and waits",
  "depends on all earlier waits and failures",
  ["src/epoll.rs: wait, notify", "src/epoll.rs: Notifier"])

p("C70", "kqueue: reports are about current registrations",
  "Every event delivered for a source carries the key of its latest granted registration of that kind, and for descriptors exactly the readiness the kernel has at that time; nothing is delivered for a kind that is not armed; events of the poller itself carry the reserved key; a batch has at most one event per filter.",
  "every history of calls, kernel failures, readiness changes, closes and waits",
  "all interleavings of calls, closes and waits",
  ["src/kqueue.rs: wait, Events::iter", "src/kqueue.rs: modify"])
p("C71", "kqueue: ready sources are not forgotten",
  "While a level-triggered (or armed one-shot) filter is ready, a wait can return and every batch with room left contains its event.  In edge mode the same holds from the moment it gets something to report, or is armed while ready, until it is reported.",
  "every history, with any calls on other sources in between",
  "all interleavings; starvation shows only in long runs",
  ["src/kqueue.rs: wait", "src/kqueue.rs: mode_to_flags"])
p("C72", "kqueue: concurrent calls on one source behave as if one after the other",
  "After all calls on a source have returned, the source is watched only if it is registered, so nothing is reported for a source that delete() reports as not found.",
  "every interleaving of calls of any number of threads",
  "needs a precise interleaving",
  ["src/kqueue.rs: add, modify, delete, add_source, remove_source"])
p("C73", "kqueue: modify changes the mode",
  "After a successful modify the descriptor is watched in the mode given to modify, also if it was watched in another mode before.",
  "every state, interest and mode",
  "depends on the kernel's treatment of existing filters",
  ["src/kqueue.rs: modify, mode_to_flags"])
p("C74", "kqueue: one notification ends one wait",
  "Between two waits that return because of a notification, a notification was sent.",
  "every history, both notifiers",
  "all histories",
  ["src/kqueue.rs: notify::Notify"])
p("C75", "kqueue: a notification ends the wait that follows it",
  "If a notification was sent and no wait has returned since, a wait in the kernel can return, and every batch with room left contains the notification -- also after waits that failed.",
  "every history, both notifiers, every kernel failure",
  "depends on all earlier waits and failures",
  ["src/kqueue.rs: wait, notify::Notify::reregister"])
p("C76", "kqueue: filters are installed with their parameters",
  "A successful add_filter or modify_filter leaves the kernel watching exactly that signal, process operation or timer, with the given key, mode and parameter, and no other filter changes.",
  "every state, filter, key and mode",
  "all filter tables",
  ["src/os/kqueue.rs: add_filter, modify_filter", "src/os/kqueue.rs: Signal, Process, Timer"])
p("C77", "kqueue: a failed modify changes nothing",
  "If modify returns an error, the kernel watches what it watched before.",
  "every state and every kernel error",
  "needs a kernel failure at a precise point",
  ["src/kqueue.rs: modify, submit_changes"])

p("C78", "poll backend: waits end early only because of notifications",
  "The number of waits that return Ok with no events is at most the number of notify() calls plus the number of times poll(2) came back because of its timeout or a descriptor: one notify() ends at most one wait.",
  "every schedule of any number of threads, any channel, any failures",
  "all schedules and histories",
  ["src/poll.rs: wait, notify, Notify::notify", "src/lib.rs: notify, wait"])

p("C79", "event ports: ready sources are not forgotten",
  "A registered source that is ready for something it asked for (or has an error or hang-up) makes wait() return; it is reported after fewer waits than there are registered sources and pending notifications, and by the very next wait if the container has room for all of them.",
  "every history, container capacity and number of sources",
  "all histories; starvation cannot be observed by finite tests",
  ["src/port.rs: add, modify, wait"])
p("C80", "event ports: one notification ends one wait, and waits end for a reason",
  "While a notification has been sent and not been retrieved, wait() does not block; no more notifications are retrieved than were sent; a wait returns before its timeout only because of a notification or of a condition of a registered source since its registration.",
  "every history",
  "all histories",
  ["src/port.rs: notify, wait"])

p("C81", "IOCP: a call that fails changes nothing",
  "If add, modify or an add of a waitable returns an error, the poller is as it was before: the source is registered if and only if it was, and later calls behave as if the call had not been made.",
  "every state and every point at which the system can refuse",
  "needs an operating-system failure at a precise point",
  ["src/iocp/mod.rs: add, modify, update_packet"])
p("C82", "IOCP: a call fails only on its own account",
  "If a call about one source returns an operating-system error, the system refused something that call asked for about that source.",
  "every interleaving and every failure of another source",
  "needs a failure of another source at a precise point",
  ["src/iocp/mod.rs: update_packet, drain_update_queue"])
p("C83", "IOCP: a notification that fails does no harm to later ones",
  "If the system refuses one notify(), a later notify() that succeeds still wakes the waiting thread.",
  "every interleaving and failure point",
  "needs an operating-system failure at a precise point",
  ["src/iocp/mod.rs: notify"])
p("C84", "IOCP: what the kernel reports is what is delivered",
  "Whenever a socket's completion is processed, an event is delivered exactly if the reported conditions touch the source's current interest and the source is registered; the event has the interest's key, is readable (writable) exactly if reading (writing) was asked for and a condition that makes a read (write) not block was reported, and its extra part is exactly the reported flags. Whenever a waitable's completion is processed the event is exactly its interest.",
  "every history and every report",
  "all flag combinations in all histories",
  ["src/iocp/mod.rs: feed_event", "src/iocp/mod.rs: event_to_afd_mask, afd_mask_to_event", "src/iocp/afd.rs: AfdPollMask"])

p("C85", "Making a poller is all or nothing",
  "If Poller::new() fails, whichever system call was refused, every descriptor of the process is as before and everything is watched that was watched; if it succeeds, the process has exactly the poller's new descriptors in addition. It never panics.",
  "every state of the process, every sequence of answers of the kernel, every backend",
  "needs a refusal at each of the system calls of new(), in every combination",
  ["src/epoll.rs: Poller::new, Notifier::new", "src/kqueue.rs: Poller::new, notify::Notify::new", "src/port.rs: Poller::new", "src/poll.rs: Poller::new, notify::Notify::new", "src/iocp/mod.rs: Poller::new"])
p("C86", "A poller closes its own descriptors, once",
  "Dropping a poller closes each of its descriptors exactly once and no other, whatever the kernel answers; in every history of a process what is open is exactly what the program opened itself plus what the living pollers own, no two pollers own the same descriptor, and after the last one is dropped nothing is left.",
  "every history with any number of pollers, failures of new(), reuse of descriptor numbers",
  "double closes and leaks show only in particular histories",
  ["src/epoll.rs: Drop for Poller", "src/kqueue.rs: Drop for Poller", "src/port.rs: Poller", "src/poll.rs: Poller"])
p("C87", "Descriptors of a poller are close-on-exec, the wake-up channel is read without blocking",
  "After a successful new() every descriptor of the poller is close-on-exec and the descriptor that is read to take notifications away is non-blocking, by whichever way they were made.",
  "every sequence of answers of the kernel, every backend but the two platforms without exec",
  "the fall-back ways are taken only on old kernels",
  ["src/epoll.rs: Notifier::new", "src/poll.rs: notify::Notify::new", "src/kqueue.rs: Poller::new", "src/port.rs: Poller::new"])
p("C88", "What a new poller watches",
  "A new poller watches its wake-up channel with the reserved key and its timer without interest, and nothing else; registrations of other pollers are untouched.",
  "every state of the process and every sequence of answers of the kernel",
  "all ways through new()",
  ["src/epoll.rs: Poller::new", "src/kqueue.rs: Poller::new, notify::Notify::register"])
p("C89", "new() fails only when it has to",
  "Poller::new() fails only if the kernel refused, during that call, something there is no substitute for, and with that error: missing eventfd, timerfd or pipe2 are worked around.",
  "every state of the process and every sequence of answers of the kernel",
  "needs kernels without the newer system calls",
  ["src/epoll.rs: Poller::new, Notifier::new", "src/poll.rs: notify::Notify::new", "src/iocp/mod.rs: Poller::new"])
p("C90", "Dropping an IOCP poller frees everything it has allocated",
  "When a poller on a completion port is dropped, every packet it has allocated for a source, a waitable or the notifier is freed, at once or as soon as the system has finished what was in flight; nothing is freed that the system may still write to.",
  "every history of the poller up to the drop, everything the system does afterwards",
  "depends on which requests are in flight and which completions are queued at the moment of the drop",
  ["src/iocp/mod.rs: Poller, Packet, wait_callback", "src/iocp/port.rs: IoCompletionPort, CompletionHandle"])

p("C91", "The supported modes are the accepted ones",
  "add and modify (and the calls for waitables) refuse every mode that supports_level() and supports_edge() deny; a call in a mode they announce, or in one-shot mode, never fails on account of the mode.",
  "every state, every history, every backend",
  "every mode in every state on five platforms",
  ["src/lib.rs: Poller::supports_level, supports_edge, add_with_mode, modify_with_mode", "src/poll.rs: cvt_mode_as_remove", "src/port.rs: add, modify", "src/iocp/mod.rs: add, modify, add_waitable, modify_waitable"])
p("C92", "A failed connection looks the same on every backend",
  "When the kernel reports an error or a hang-up, is_connect_failed() says so, and is_err() is true exactly if it reported an error, whichever backend delivered the report.",
  "every combination of reported flags",
  "needs every combination of flags on five platforms",
  ["src/epoll.rs, src/poll.rs, src/port.rs, src/iocp/mod.rs: EventExtra::is_connect_failed, is_err", "src/lib.rs: Event::is_connect_failed, is_err"])

p("C93", "IOCP: the base socket of a layered socket is found",
  "When add asks for the base socket of a socket that stands on layered service providers, it gets the right one whenever asking the providers one after the other leads to it; it asks a bounded number of questions, and a failure is one that a provider reported or a provider that names the socket itself.",
  "every stack of providers and everything they answer",
  "needs broken service providers in every arrangement",
  ["src/iocp/afd.rs: base_socket, try_socket_ioctl"])

p("C94", "IOCP: every call returns",
  "However the calls on a completion-port poller interleave, together they make a bounded number of steps for each call and each completion, and until all of them have returned one of them can always make a step; the exception is a wait() that waits at an empty port. In particular making room in the queue of updates and draining it never go on for ever.",
  "every number of threads, every capacity of the queue of updates, every interleaving, every answer of the system",
  "a loop that feeds itself shows only under particular schedules",
  ["src/iocp/mod.rs: update_packet, drain_update_queue, wait, feed_event"])

p("C95", "IOCP: a one-shot waitable delivers once per arming",
  "A waitable registered in one-shot mode delivers its interest once; a further delivery without an add_waitable() or modify_waitable() in between is an event that is neither readable nor writable.",
  "every history and every interleaving of callbacks, modifies and waits",
  "needs two callbacks of the same waitable in flight at a modify",
  ["src/iocp/mod.rs: feed_event (Waitable), modify_waitable, set_events, update"])
p("C96", "wait() waits as long as it was told to",
  "wait(Some(t)) that returns without having been woken (by an event or a notification) returns not before t has passed since the call, and not later than rounding, scheduling and the system's own delay explain; wait(None) returns only when woken. Signals in between change nothing about it.",
  "every timeout, every backend, every number and moment of signals, every reading of the clock",
  "every duration and every moment at which the clock is read; some timeouts take weeks",
  ["src/lib.rs: wait", "src/epoll.rs: wait", "src/kqueue.rs: wait", "src/port.rs: wait", "src/poll.rs: wait", "src/iocp/mod.rs: wait, dur2timeout"])
p("C97", "No call panics",
  "add, modify, delete, notify and wait report what went wrong by an error; none of them panics, whatever the sources, events and modes passed, whatever the system answers and whatever other threads do.",
  "every backend, every argument, every answer of the system, every schedule",
  "the panicking expressions are reached, if at all, through states that depend on the schedule and on what the system answers",
  ["src/lib.rs: wait", "src/poll.rs: wait, modify, delete", "src/os/kqueue.rs: Signal", "src/iocp/mod.rs: wait, feed_event", "src/iocp/port.rs: wait", "src/epoll.rs", "src/port.rs"])
p("C98", "Registration calls are answered alike on every platform",
  "A program that adds, modifies and deletes sources gets the same answers on every platform: add of a source that is registered fails with AlreadyExists, modify and delete of one that is not fail with NotFound, everything else succeeds unless memory, mode or descriptor forbid it; so the answers depend on the calls made, not on the backend.",
  "every sequence of calls, every interleaving, on every backend, with any events in between",
  "the backends keep their registrations in different places (a table, the kernel, both), which must agree after every history",
  ["src/poll.rs: add, modify, delete", "src/epoll.rs: add, modify, delete", "src/kqueue.rs: add, modify, delete", "src/port.rs: add, modify, delete", "src/iocp/mod.rs: add, modify, delete"])
p("C99", "IOCP: the functions of the system are found once and for all",
  "The first call that needs the unofficial functions of the system looks them up, whichever thread makes it, and every call of the process has the same answer; so a poller that could be made never finds them missing later. No thread uses them before they are there, and none waits for ever.",
  "every number of threads, every interleaving, every answer of the system",
  "a race of the first calls of a process happens once per process",
  ["src/iocp/afd.rs: NtdllImports::get, NtdllImports::load, OnceCell::get_or_init", "src/iocp/mod.rs: Poller::new"])
p("C100", "IOCP: the kernel and the poller mean the same by the memory they share",
  "The request that the kernel reads is the socket and the interest it was made for, and the events that the poller reads are the ones the kernel has written, on 32-bit and 64-bit systems; what the kernel writes into the status block of a request touches nothing else of it.",
  "every socket number, every interest, every answer of the kernel, every content of the buffer, both pointer sizes",
  "every bit pattern, and systems of both widths",
  ["src/iocp/afd.rs: AfdPollInfo, AfdPollHandleInfo, Afd::poll, handle_count, events, IoStatusBlock"])
p("C101", "A message posted before notify() is not left unread",
  "Threads post messages where others can read them and then call notify(); other threads call wait() and look for messages each time it returns. A thread sleeps in wait(), with no notification pending and nobody about to act, only when every message whose notify() has returned has been read, however many notify() calls were merged into one.",
  "every number of threads, messages and calls, every interleaving, and every value that the memory model of the language lets a reader find; messages kept under a lock, in sequentially consistent atomics, or in release/acquire atomics",
  "the failing executions need a processor that delays a store past a later load, and a moment of a few instructions",
  ["src/lib.rs: Poller::notify, Poller::wait"])
p("C102", "One-shot means one event per source and arming, whatever the platform",
  "A source that is registered in one-shot mode gives one event per successful add() or modify(): every event that a wait() delivers about it uses up an arming that no earlier event has used, also within one batch.",
  "every history of calls, readiness changes and waits, every source, every container size, and all backends",
  "the second event may come in the same batch, in the next wait or after any number of other calls, and only on some systems",
  ["src/lib.rs: PollMode::Oneshot", "src/epoll.rs: Poller::wait", "src/kqueue.rs: Poller::add, Poller::modify, Poller::wait", "src/port.rs: Poller::wait", "src/poll.rs: Poller::wait", "src/iocp/mod.rs: Poller::wait, Packet::feed_event"])
p("C103", "An event is about a registration in force during its wait, and carries its key",
  "Every event that wait() returns about a source carries the key under which the source was registered at some moment between the beginning of that wait() and its return. So a wait() that begins after delete() has taken effect returns nothing about the source unless it is registered again, and one that begins after modify() has taken effect returns no event with an older key.",
  "every history of calls, readiness changes and waits, every source, every schedule of the threads, and all backends",
  "the wrong event appears only if a readiness change, a delete or modify and a wait fall together in one particular order, and on some systems only",
  ["src/lib.rs: Poller::wait, Poller::modify, Poller::delete", "src/epoll.rs: Poller::wait", "src/kqueue.rs: Poller::wait, Poller::modify", "src/port.rs: Poller::wait", "src/poll.rs: Poller::modify, Poller::wait", "src/iocp/mod.rs: Poller::wait, Packet::begin_delete"])
p("C104", "The safety contract of add() is enough, and needed",
  "If every registered source is deleted from the poller before it is closed, and only open sources are given to add() and modify(), then every event is about the very file that was given to the last successful add() or modify() of its descriptor, with the key of that call, and that file is still open under that descriptor; and a descriptor number that the system has given out again can be added like a new one. This holds however descriptors are duplicated and their numbers reused, and whichever calls fail. In particular no poll(2) call in progress in another thread watches a source whose delete() has returned. Without the contract it does not: on epoll a registration can be left over that no call ends, with poll events of a new file come with the key of an old one, and on kqueue a new file cannot be added.",
  "every history of opening, duplicating, closing, add, modify, delete (each may fail) and wait, of any length, with any numbers, on epoll, poll, kqueue and event ports",
  "which numbers the system reuses and who holds duplicates of a file depends on the whole process; a test sees one history",
  ["src/lib.rs: Poller::add, Poller::add_with_mode (Safety)", "src/epoll.rs: Poller::add, Poller::modify, Poller::delete", "src/poll.rs: Poller::add, Poller::modify, Poller::delete", "src/kqueue.rs: Poller::add, Poller::modify, Poller::delete", "src/port.rs: Poller::add, Poller::modify, Poller::delete"])
p("C105", "On every target exactly one backend is compiled, and the rest of the crate fits it",
  "For every target of the compiler that is unix, Windows or Hermit, exactly one backend is chosen (all others get the message that the target is not supported), every conditionally compiled definition that the chosen backend uses is there exactly once, with the dependency it needs, and no public item is there that would need another backend: the Poller has a descriptor exactly on epoll, event ports and kqueue, a handle exactly on Windows, and the extension modules exist exactly with their backends.",
  "every target: any operating system name, vendor and family that agree with the compiler's tables, with and without the flag for testing the poll backend",
  "a test run compiles the crate for one target; most targets are never built in tests",
  ["src/lib.rs: cfg_if! (sys), raw_fd_impl, raw_handle_impl, AsRawSource, AsSource", "src/os.rs", "src/poll.rs: mod syscall, mod notify", "src/kqueue.rs: mod notify", "src/epoll.rs: Poller::wait", "Cargo.toml"])
p("C106", "wait() gives up only because another thread is waiting, also after a panic",
  "A wait() that returns Ok(0) without asking the system does so only because another thread is in wait() at that moment. What a panic in the middle of a wait() leaves behind does not change this: the next wait() waits, and notify() wakes it.",
  "every history of wait, add, modify, delete and notify by any number of threads, with panics at any point of wait(), and of the other calls wherever they hold no lock, and failing and interrupted system calls anywhere",
  "a panic inside a wait() is rare (a subscriber of the tracing library, an expectation the system does not meet), and its effect shows in later calls of other threads",
  ["src/lib.rs: Poller::wait, Poller::notify", "src/poll.rs: Poller::modify_fds, Poller::wait", "src/kqueue.rs: Poller::submit_changes", "src/iocp/mod.rs: lock"])
p("C107", "On Windows wait() does not sleep through a source that is ready",
  "While wait() sleeps, no call is in progress and the system has delivered everything it was asked for, no registered socket has a condition that its interest asks for, and no registered waitable handle with an interest is signalled: an interest in a handle is never forgotten, there is always a registered wait, a callback or a completion under way for it, or a call at work.",
  "every history of calls, readiness changes, signals, callbacks and waits, any number of threads, sources and handles, every failure of a system call, and every state of the sockets and handles outside",
  "the source is lost only if a call falls into a window of a few instructions in which a wait begins, and the wait then sleeps for ever instead of failing",
  ["src/iocp/mod.rs: Poller::wait, Poller::update_packet, Poller::drain_update_queue, PacketUnwrapped::update, PacketUnwrapped::set_events, PacketUnwrapped::feed_event, WaitHandle", "src/iocp/port.rs: CompletionPort::wait, CompletionPort::post"])
p("C108", "poll backend: wait() does not sleep through a source that is ready, and reports it",
  "While wait() is inside poll(2), every source that was added or modified, and if one-shot has not been reported since, is watched for exactly what the last successful call asked for. If something asked for is true of the source then poll(2) has something to return, and that wait() ends with Ok and an event for the source which has the key given last and says all that is true and was asked for, whatever other threads do meanwhile.",
  "every history of calls of any number of threads, every table of sources, every state of the sources outside, every truthful answer of poll(2) and every schedule until the wait returns",
  "whether a source is forgotten depends on the order of table changes, wake-ups and one-shot disarming in a history of any length; a test sees one history",
  ["src/poll.rs: Poller::wait, Poller::add, Poller::modify, Poller::delete, Poller::modify_fds", "src/lib.rs: Poller::wait"])
p("C109", "On Windows concurrent calls answer as if they were made one after another",
  "However the calls to add, modify, delete and their waitable counterparts overlap, there is for each call one moment between its call and its return such that, performed one after another at these moments, the calls give the answers that they gave (AlreadyExists, NotFound, success or the system's error) and leave exactly the sources registered, with the interests, that the poller has. In particular two adds of one source do not both succeed unless a deletion was asked for in between.",
  "every number of threads, sockets and waitable handles, every overlap of calls and of wait(), every refusal of the system, every report of a closed socket",
  "a modify looks the source up and changes it later, after another thread may have deleted and added it again; the moments depend on the schedule, and tests see only a few schedules",
  ["src/iocp/mod.rs: Poller::add, Poller::modify, Poller::delete, Poller::add_waitable, Poller::modify_waitable, Poller::remove_waitable, sources, waitables"])

p("C110", "IOCP: completions come out in the order in which they went in",
  "Packets that are posted one after the other, by whichever threads, requests that AFD finishes, signalled waitables and notifications are processed by wait() in the order in which they got into the port, however few a container takes at a time: a completion with k others before it is processed after exactly these k. What wait() delivers is in this order. If a wait fails some may be missing, but the others keep their order.",
  "every number of threads, every interleaving of posts, completions and waits, containers of every positive capacity, every failure of the system",
  "the order depends on the schedule of the posting threads, the sizes of the batches and the failures in between",
  ["src/iocp/mod.rs: Poller::post, Poller::wait, CompletionPacket", "src/iocp/port.rs: IoCompletionPort::post, IoCompletionPort::wait"])

p("C111", "kqueue: a signal is one-shot whatever the mode",
  "A Signal registered with add_filter is delivered once and then not again until it is modified or added again, whichever mode was given, as its documentation says; and no occurrence of a signal, process or timer is delivered twice.",
  "every mode, every history of calls, occurrences and waits, every number of threads, kernels that keep or replace the flags of an existing filter",
  "the mode goes through to the kernel, so whether a second occurrence is delivered depends on the history of calls and occurrences",
  ["src/os/kqueue.rs: Signal, Filter, PollerKqueueExt::add_filter, PollerKqueueExt::modify_filter", "src/kqueue.rs: mode_to_flags"])

p("C112", "A poller can itself be polled",
  "The descriptor of a poller (as_fd, as_raw_fd), registered in another poller or given to select() or poll(), is readable exactly when a wait() without a timeout, called now and with nothing else happening, would come back at once with something to report: some source is ready for what it is watched for and has not been reported since it was armed, or a notification is pending.",
  "every history of calls, readiness changes, notifications, expiring timeouts, waits and failures, every capacity; epoll with and without a timerfd, event ports, and on kqueue the direction from something to report to readable",
  "whether the descriptor is readable depends on everything the poller left in the kernel, also on what earlier waits left behind",
  ["src/lib.rs: impl AsRawFd for Poller, impl AsFd for Poller", "src/epoll.rs: impl AsFd for Poller, Poller::wait, Poller::notify", "src/kqueue.rs: impl AsFd for Poller", "src/port.rs: impl AsFd for Poller"])

p("C113", "One wait reports no more events than the container has room for",
  "With a container made by Events::with_capacity(n), a wait() puts at most n events into it, so that a program that makes room for n events never has to handle more than n of them at a time.",
  "every capacity, every history before the wait, every interleaving of other calls and of the system with it; each backend",
  "tests make a few sources ready with room for 1024 events; the bound matters when more sources are ready than fit, for every number of them",
  ["src/lib.rs: Events::with_capacity, Poller::wait", "src/poll.rs: Poller::wait, Events::with_capacity", "src/epoll.rs: Poller::wait", "src/kqueue.rs: Poller::wait", "src/port.rs: Poller::wait", "src/iocp/mod.rs: Poller::wait, PacketUnwrapped::feed_event"])

p("C114", "A source with no interest delivers no event, whatever the platform",
  "Once add or modify has succeeded for a source with Event::none, no wait() reports an event for it until its interest is changed again.",
  "every history before and after the call, every interleaving with other calls and with readiness changes, hang-ups and errors; epoll, kqueue, event ports and poll (completion ports: C58)",
  "tests switch the interest off and look at ordinary readiness; what matters are all conditions, errors and hang-ups included, in every order with the call",
  ["src/lib.rs: Event::none, Poller::modify", "src/epoll.rs: Poller::modify, epoll_flags", "src/kqueue.rs: Poller::modify", "src/port.rs: Poller::modify", "src/poll.rs: Poller::modify, Poller::wait"])

p("C115", "One wait reports each source at most once",
  "In the events that one wait() returns there is at most one event about each registered source, which says all that is reported about it.",
  "every history before the wait, every set of ready sources, every interleaving of other calls and of the system with it; each backend",
  "tests look at one source with one condition at a time; a second event needs two conditions, or a completion that is still in the queue when the source is armed again",
  ["src/lib.rs: Poller::wait, Events::iter", "src/epoll.rs: Poller::wait", "src/kqueue.rs: Poller::wait", "src/port.rs: Poller::wait", "src/poll.rs: Poller::wait", "src/iocp/mod.rs: Poller::wait, PacketUnwrapped::feed_event, PacketUnwrapped::update"])

p("C116", "poll backend: a one-shot registration is used up only by a wait that reports it",
  "If a wait() has disarmed a one-shot source, that wait() returns Ok with an event of the source; a wait() that fails has disarmed nothing, whatever it did before it failed.",
  "every number of threads, every interleaving, every answer and failure of poll(2) and of the notification channel, every number of turns of the wait",
  "needs a wait that takes several turns and a failure between them",
  ["src/poll.rs: Poller::wait", "src/lib.rs: Poller::wait"])

p("C117", "Completion ports: an event that was taken from the system reaches the caller",
  "When wait() has taken a completion that makes a source report an event, the event is among those that this wait() returns; in particular a one-shot source is not disarmed without its event having been reported.",
  "every history, every interleaving of other calls with the wait, every size of the batch, every answer of the system, failed updates of other sources included",
  "needs a full update queue in the moment a completion is processed and a failure of an unrelated source's update",
  ["src/iocp/mod.rs: Poller::wait, PacketUnwrapped::feed_event, Poller::update_packet, Poller::drain_update_queue"])

p("C118", "A zero timeout never waits, and a wait that has to wait returns only with an event",
  "On epoll and kqueue a wait() with a zero timeout returns Ok after at most five steps of its own, whatever was registered or happened before and without anything else happening. A wait() without a timeout, and on epoll one whose timeout is kept by a timerfd, comes back from the kernel only with an event. On completion ports a wait() that has seen its deadline pass does not go to sleep again. On the poll backend every poll(2) call of a wait() with a zero timeout, or past its deadline, is given the timeout zero, and without a timeout an infinite one.",
  "every history of calls, failures, readiness changes and earlier waits; epoll, kqueue, poll, completion ports (event ports: C50)",
  "tests poll with a zero timeout in a few states; the claim is that no state can make it wait",
  ["src/epoll.rs: Poller::wait", "src/kqueue.rs: Poller::wait", "src/poll.rs: Poller::wait", "src/iocp/mod.rs: Poller::wait"])

p("C119", "A wait that has taken events from the system returns Ok",
  "If the system has reported events to a wait(), disarming the one-shot sources among them, the wait() returns Ok. On epoll and on kqueue with a socket pair it does not: it arms the notifier again after taking the events, and returns that call's error if it is refused. On kqueue with a user event it does.",
  "every history of calls, system failures and readiness changes; epoll and kqueue",
  "the failing call is the last one of a wait(), which no test can make the system refuse",
  ["src/epoll.rs: Poller::wait", "src/kqueue.rs: Poller::wait, notify::Notify::reregister", "src/lib.rs: Poller::wait"])

out = os.path.join(os.path.dirname(os.path.abspath(__file__)), "..", "properties.jsonl")
with open(out, "w") as f:
    for q in P:
        f.write(json.dumps(q) + "\n")
print(len(P), "properties")
