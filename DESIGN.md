# Formal model of smol-rs/polling in Rocq — design

Everything is in `rocq/theories/`, logical name `Verif`.

## Layout

| layer | model files (definitions only) | specifications | proofs | theorems |
|---|---|---|---|---|
| shared types | `Bits.v`, `Types.v` | | | |
| lib.rs, sequential | `LibModel.v` | `LibSpec.v` | `LibProofs.v` | `LibProps.v` |
| time conversions | `TimeModel.v` | `TimeSpec.v` | `TimeProofs.v` | `TimeProps.v` |
| events, extras, translations | `EventModel.v` | `EventSpec.v` | `EventProofs.v` | `EventProps.v` |
| lib.rs + notifier, concurrent (epoll, kqueue, ports) | `NotifyModel.v` | `NotifySpec.v` | `NotifyProofs.v`, `NotifyLive.v` | `NotifyProps.v` |
| poll.rs descriptor table | `PollModel.v` | `PollSpec.v` | `PollProofs.v` | `PollProps.v` |
| poll.rs protocol, concurrent | `PollConcModel.v` | `PollConcSpec.v` | `PollConcProofs.v` | `PollConcProps.v` |
| epoll.rs over a Linux-like kernel | `EpollModel.v` | `EpollSpec.v` | `EpollProofs.v`, `EpollProofs2.v` … `4.v` | `EpollProps.v` |
| kqueue.rs + os/kqueue.rs | `KqueueModel.v` | `KqueueSpec.v` | `KqueueProofs.v`, `KqueueProofs2.v` … `9.v` | `KqueueProps.v` |
| port.rs | `PortModel.v` | `PortSpec.v` | `PortProofs.v`, `PortProofs2.v` | `PortProps.v` |
| iocp | `IocpModel.v` | `IocpSpec.v` | `IocpProofs.v`, `IocpProofs2.v` … `18.v`, runs in `IocpRuns.v` | `IocpProps.v` |
| iocp: pool of AFD instances | `AfdModel.v` | `AfdSpec.v` | `AfdProofs.v` | `AfdProps.v` |
| iocp: calls return | `IocpModel.v` | `IocpLiveSpec.v` | `IocpLive.v` | `IocpLiveProps.v` |
| iocp: base sockets | `BaseModel.v` | | | `BaseProps.v` |
| iocp: dropping a poller | `IocpDropModel.v` | | | `IocpDropProps.v` |
| making and dropping pollers | `LifeModel.v` | `LifeSpec.v` | `LifeProofs.v`, `2.v`, `3.v` | `LifeProps.v` |
| all backends | `ModesModel.v` | | `IocpModes.v` | `CrossProps.v`, `ModesProps.v` |

`*Model.v` holds total, executable Gallina only; each definition cites the lines of /repo
it models and states its simplifications. `*Spec.v` states what the English property means
without using the helpers of the model. `*Props.v` contains only
`Theorem … Proof. exact lemma. Qed.`, a non-vacuity `Example` beside each theorem and
`Print Assumptions`.

## Modelling conventions

* Rust integers that can overflow are `Z` with explicit range checks or casts. Flag words
  are `N` with the numeric constants of the platform headers. `usize` is 64 bit.
* `io::Result` is `res A := Ok a | Err e | Panic`. An `unwrap`, an index out of bounds or a
  `NonZero` violation gives `Panic`, and theorems prove its absence.
* Hash maps are std++ `gmap`; iteration order is a universally quantified permutation.
* The operating system is a nondeterministic oracle wherever only the crate's reaction
  matters (results and returned flags are universally quantified), and an explicit small
  kernel model where the property speaks about what the kernel does later (epoll interest
  list, kqueue filter table, event-port associations, AFD poll requests and the completion
  queue). The kernel models are part of the trusted base and are listed at the end.
* Concurrency: a state contains a list of thread program counters; every atomic access, lock
  operation, system call and condition-variable operation is one step, memory is
  sequentially consistent (the crate uses SeqCst on the flags). `step : state -> label ->
  option state` is executable, so that refutations are concrete schedules checked by
  computation. Safety is proved by an inductive invariant for any number of threads and
  steps; termination by a measure.

## Plan per property

* C01–C06, C13 `LibModel`: `wait` is a recursion over the list of (clock reading, backend
  outcome) the call meets; theorems by induction over the list. C13 is expected to be
  refuted (poll and IOCP clear the container).
* C07–C12, C14 `NotifyModel`: thread pool with lib flag, lib lock, notifier token, armed bit,
  notifier kinds. Invariant proof. C11 and C12 are expected to be refuted by schedules.
* C15–C19 `TimeModel`: arithmetic over `Z`; ceiling specification `IsCeilMs`. C19 in the
  IOCP wait loop.
* C20–C25 `EventModel`: bit-level lemmas by `N.bits_inj`/`N.testbit`; C24 (poll, ports) and
  C25 (epoll, IOCP) are expected to be refuted, with positive partial theorems.
* C26–C30 `PollModel`: invariant linking the map and the pollfd vector; abstraction to a map
  fd ↦ (key, interest, one-shot). C28 expected refuted for modify, C30 expected refuted
  (HUP/ERR are always reported); partial theorems for the rest.
* C31–C37 `PollConcModel`: four notifier kinds. C34, C35 refuted for the pipe, proved for the
  eventfd that never blocks; C36 refuted for blocking variants.
* C38–C42, C68, C69 `EpollModel`: kernel with interest list, ready list and readiness masks after fs/eventpoll.c
  (one-shot disabling, level-triggered re-queueing, edge-triggered wake-ups), timerfd and notifier.
* C43–C48, C70–C77 `KqueueModel`: kernel with a filter table (after kern_event.c; both treatments of
  re-added filters), readiness and reports; both notifiers; any number of threads. C44, C46, C48, C72–C75,
  C77 refuted in general, with partial theorems.
* C49, C50, C79, C80 `PortModel`: every method is one system call on a port with associations and a
  FIFO event queue. C51 is in `CrossProps.v`: refuted for ports (and IOCP), proved for the others.
* C67 `PollWait.v`: the timeouts of the poll calls that one wait makes, by induction over the interruptions.
* C66 `CapacityModel`: the vectors behind `Events` and their capacities on 32-bit and 64-bit targets; arithmetic over `N`.
* C78 `PollConcMore.v`: a counting invariant over the poll backend's schedules.
* C63 `AfdModel`: the pool of shared AFD instances; invariant over all interleavings, termination by a measure.
* C85–C89 `LifeModel`: `new` and `drop` of all backends, every system call answered by an arbitrary script,
  a process with any number of pollers. Hoare-style triples with an ownership invariant; histories by induction.
* C52–C62, C64, C65 `IocpModel`: packets, per-socket state machine, AFD requests, completion queue,
  pending-update queue, any number of calling threads and one waiting thread, every refusal by the system.
  C54, C56–C61 and C81–C83 refuted by computed schedules, with partial theorems; C84 says exactly which event
  every report gives.
* C90 `IocpDropModel`: what remains of packets, requests and waits after the drop, and what the system does with it
  then; the count of every packet by induction. Refuted: packets with a request in flight are never freed.
* C91 `ModesModel`: what `supports_level` and `supports_edge` return, compared in `ModesProps` with the results of the calls
  in the five models (for IOCP by an invariant of all histories, `IocpModes`).
* C94 `IocpLive`: a weight of everything that is still to be done, which every step of a call lowers and everything from
  outside raises by a constant.
* C95 `IocpOnceProps`: the deliveries of a one-shot waitable, from the history alone; `IocpProofs19` adds that nothing arms a
  removed packet (for C57).
* C96 `TimedModel`: the loop of `LibModel.lib_wait` over backends that are told the limits of `TimeModel`, with the clock
  readings of each turn; the system is assumed to report that the time is up only when the limit has passed. Refuted for
  timeouts of weeks; proved for the others.
* C97 all models: the panicking expressions of the code (`unwrap`, indexing, `debug_assert!`, `assert!`, `expect`) are
  results `Panic` or dead states of the models of poll, kqueue and IOCP, and invariants show which can be reached.
  epoll.rs and port.rs contain none. Refuted: unknown signal numbers on kqueue, local close on IOCP, containers for 2^32
  events on 64-bit Windows (`CapacityModel`, with C66: the vectors behind `Events`, which refuse more than isize::MAX
  bytes by panicking). Not modelled: failing allocations. Poisoned locks are the subject of C106.
* C98 `PortableSpec` reads the registration calls and their answers off the logs of the five models and says what they must
  be; two histories that conform and contain the same calls are equal. Invariant: the fold over the answers agrees
  with the table (poll), the kernel (epoll), the set of sources (kqueue).
* C99 `OnceModel`: the cell that holds the functions of ntdll, with one step per system call and per access; invariant: one
  thread initialises, the cell is written when the others pass.
* C100 `LayoutModel`: the layout algorithm of `repr(C)`, the assignments to the request buffer and the reads of the answer as
  operations on bytes; the kernel's offsets are stated as numbers in `LayoutProps`.
* C101 `MailModel`: the flag of src/lib.rs with the visibility of the C++20 memory model (each thread carries the set of
  messages whose posting happens before its next step; SeqCst read-modify-writes pass it on, a compare_exchange that fails
  only acquires), mailboxes under a lock or in release/acquire slots. Invariant: a set flag means a wake-up on its way; a
  message handed over is found, or a wake-up is on its way, or a reader is due that will find it. The release/acquire case
  with merged notifications is refuted by a computed run.
* C102 `OnceEachSpec`: one specification (every delivery uses up an arming) for the logs of all backend models; proved from
  pairs of deliveries (C39, C47, C50, C55), refuted by computed runs on kqueue and poll.
* C103 `CurrentSpec`: one specification (each event carries a key in force at some moment of its wait) for the logs of all
  backend models; the two consequences for delete and modify are proved from it alone. epoll from C42, ports from C50, kqueue
  from C70 and a lemma that the kernel's answer ENOENT to a removal is true, completion ports from C55 and C56, poll by
  induction over the schedules, with the moment at which the wait reads its table.
* C104 `FileModel`: descriptors and files apart, with open, dup and close, and for each Unix backend what identifies a
  registration (epoll: descriptor and file; poll: the number; kqueue and event ports: the number until it is closed).
  `FileSpec` reads from the history alone which file and key an event should be about. Invariant: under the contract the
  registrations are those asked for, and their descriptors still refer to the same files. Without the contract: an
  invariant for the left-over registration of epoll, computed histories for poll and kqueue. `FilePollProps` adds, in
  `PollConcModel`, that the array given to a poll(2) call in progress is the set of sources registered at that moment.
* C105 `CfgModel`: the cfg predicates of the crate and the places they gate, evaluated on a target. `CfgSpec` says what each
  backend uses and excludes. Proved by cases over the system names that the predicates can tell apart (all others are one
  case) and the families.
* C106 `PoisonModel`: the mutex of the Poller and that of the backend, with poisoning, for any number of threads and panics
  anywhere in `wait`, and in the other calls where they hold no lock. Invariant: the mutex is poisoned exactly when the log
  contains a panic of a `wait`. Refuted: after one such panic every `wait` returns at once.
* C107 `IocpModel`, specification `IocpReadySpec`: what is the case outside (the conditions of every socket, the signalled
  handles) is any predicate; the system is at rest if it has completed every request and called every callback that is due.
  Invariants in `IocpProofs20`: a waitable whose status is waiting has a registered wait or a callback; an idle one with an
  interest has a posted completion, a queued update or a call at work. Refuted by a call that overlaps the start of the wait.
* C108 `PollConcModel`, specification `PollReadySpec`: the state of the world is the set of flags true of each descriptor;
  `truthful` says which answers of poll(2) POSIX allows in it; `requested` reads off the log what was asked for last and
  whether a one-shot source has been reported since. Invariant: what is requested is in the table, unless a wait holds an
  event for it that it has not returned yet, and then that wait is the only one.
* C109 `IocpLinSpec`, `IocpLinProofs`, `IocpLinProps` (on `IocpModel`): the specification is a registry with one user
  (`perform`, `answers`). A history is the log with moments of effect put in; `stages` says that each call of a thread has
  one, between call and return. Proved by an invariant that builds the history along the run: a modify takes effect when
  it sets the interest, or, if its packet is removed first, just before the removal.
* C110 `IocpOrderSpec`, `IocpOrderProofs`, `IocpOrderProps` (on `IocpModel`): the list of completions that were queued is
  the list of those processed, then those in the hand of wait(), then those in the port (invariant). A post that has
  returned has queued its packet between its call and its return.
* C111 `KqueueSignalProps` (on `KqueueModel`): after a report about a signal, process or timer nothing is pending for it until it
  occurs again, because these filters always have EV_CLEAR; the modes of the calls bound what the kernel was asked (refuted for
  the modes that are not one-shot, by a computed run).
* C112 `NestSpec`, `NestProofs`, `NestProps`, `NestPortProps`, `NestKqueueProps` (on `EpollModel`, `PortModel`, `KqueueModel`): when
  the kernel calls the poller's own descriptor readable (trusted, like the rest of the kernel), compared with what a wait called
  now would do. On epoll an invariant says that the timer is readable from its expiry until it is set again (refuted because a
  wait that is ended early leaves it running).
* C113 `RoomSpec`, `RoomEpollProps`, `RoomKqueueProps`, `RoomPortProps`, `RoomIocpProps`, `RoomPollProps` (on the models of the
  backends): an invariant of the steps from the beginning of a wait on says how much room is left; on poll, for every capacity, a
  table with one more descriptor than that, all hung up.
* C114 `NoneSpec`, `NoneEpollProps`, `NoneKqueueProps`, `NonePortProps`, `NonePollProps` (on the models of the
  backends): reports are about the current registration (C42, C50, C29), and an empty interest leaves only the conditions
  that cannot be masked; on kqueue (C70) the filters of the source are not armed.
* C115 `OncePerWaitProps`, `OncePerWaitIocpProps` (on the models of the backends): from C39, C50, C29 and C70; on completion
  ports an invariant of the waiting thread (what is in the container and in the batch names a socket at most once), which
  rests on C52 when a batch is taken from the port.
* C116 `UsedUpProps` (on `PollConcModel`): invariant: as long as a wait() has not returned, each of its turns was one that
  found nothing, or the events of the last one are on their way to the caller.
* C117 `IocpLostProps` (on `IocpModel`): invariant: the events held by the running wait() are those it processed since it began,
  save the last one after a refused update; refutation by a run with a full queue of updates.
* C118 `TimeoutEpollProps`, `TimeoutKqueueProps`: the wait is run to its end from every reachable state. `TimeoutIocpProps`:
  invariant: a wait() that is about to sleep has not seen its deadline pass. `TimeoutPollProps`: induction over the turns.
* C119 `TakenEpollProps`, `TakenKqueueProps`: refuted where wait() has to arm the notifier again after taking events; an
  invariant on the log shows that it holds where it need not (kqueue with a user event).
* C93 `BaseModel`: the questions that are asked to find a base socket, with any answers. Refuted: the search stops after
  one provider that does not know the answer.
* C92 `EventProps`: the answers of `is_err` and `is_connect_failed` for the same report on different backends.

## Trusted base

* Coq 8.16.1's kernel, including the conversion of `vm_compute` (used for the computed schedules of the
  `…_refuted` theorems and the examples).
* `Print Assumptions` is run for every theorem of the `*Props.v` files: each is "Closed under the global
  context". There are no axioms, no `Admitted`, no functors and no module types of our own.
* std++ is used for its definitions (`gmap`, lists, decidability) and proved lemmas. Loading it loads
  `Coq.ssr.ssrunder`, whose module type `Under_rel` declares the seven constants that a scan of the loaded
  libraries lists; no theorem depends on them.
* The translation of the Rust text into Gallina by hand. Every definition of a `*Model.v` file cites the lines
  it models. `seeded/LOG.jsonl` records wrong programs on which the theorems were tested.

### Modelled

| code | where | not in the model |
|---|---|---|
| `src/lib.rs`: `Event`, `Events`, `Poller` (add, modify, delete, wait, notify) | `LibModel`, `EventModel`, `NotifyModel`, `PollConcModel`, `IocpModel`, `MailModel` (visibility of memory) | tracing, `Debug`, conversions to sources (`AsSource`, `AsRawSource`) |
| `src/epoll.rs` | `EpollModel`, `NotifyModel`, `TimeModel`, `EventModel`, `LifeModel` (`new`, `drop`), `FileModel` (duplicated and reused descriptors) | in `EpollModel` a descriptor is its file |
| `src/poll.rs` | `PollModel`, `PollConcModel`, `PollConcMore`, `TimeModel`, `LifeModel` (`new`, `drop`) | the text of the error for a missing eventfd driver on ESP-IDF |
| `src/kqueue.rs`, `src/os/kqueue.rs` | `KqueueModel`, `NotifyModel`, `LifeModel` (`new`, `drop`) | filters other than those of the trait |
| `src/port.rs` | `PortModel`, `NotifyModel`, `LifeModel` (`new`, `drop`) | |
| `src/iocp/mod.rs`, `afd.rs`, `port.rs`, `src/os/iocp.rs` | `IocpModel`, `IocpDropModel` (dropping), `AfdModel`, `BaseModel` (`base_socket`; in `IocpModel` it may fail), `TimeModel`, `EventModel`, `LifeModel` (`new`), `OnceModel` (loading of ntdll), `LayoutModel` (the memory shared with the kernel) | pinning, the layout of the `PacketInner` enum |
| `src/os.rs`, the `cfg` attributes, the target tables of `Cargo.toml` | `CfgModel` | imports that differ by target; what the dependencies offer on a target |

### Assumed about the outside

* Memory is sequentially consistent (in `MailModel` it is not: there visibility follows the C++20 rules for the accesses
  that occur, without out-of-thin-air values). Every atomic access of the crate is SeqCst but one: src/iocp/mod.rs:509 loads the
  polling flag with Acquire. A stale value there gives the behaviour of a load that happened earlier, which only makes
  the race that refutes C54 more frequent; the theorems that depend on the flag (C54, C94) are about a current value.
  A lock is granted to one thread at a time, a lock is never poisoned (except in
  `PoisonModel`, C106).
* The rustix wrappers of epoll_wait, kevent and port_getn pass the capacity of the container and leave in it exactly what
  the system returned.
* `Arc`, `Vec`, `HashMap`, `Mutex`, `Condvar`, `ConcurrentQueue`, `Duration` and `Instant` behave as documented
  (`swap_remove`, `checked_add` and the like are defined in the models). `usize` has 64 bits where a key passes
  through the kernel; the conversions are parametric in the width.
* epoll: an interest list and a ready list after fs/eventpoll.c; one-shot disabling, level-triggered
  re-queueing, edge-triggered wake-ups. timerfd and eventfd as in their manual pages.
* poll(2): any answer, or (where the property speaks about readiness) the answer the readiness of the files gives.
* kqueue: a filter table after kern_event.c, in both variants of what re-adding a filter does to its flags;
  any set of ready filters may be reported.
* event ports: associations that end when they are retrieved; a FIFO queue; a port_getn that fails has retrieved nothing (libuv reports kernels that do otherwise; what they retrieved would be lost, since rustix returns the error alone).
* IOCP/AFD: one completion per accepted request, with any status and any flags; a cancellation makes no promise
  about when; completions leave the port in the order in which they entered it; UnregisterWait stops callbacks that
  have not started; any call may be refused with any error.
