(** Conditional compilation: which code of the crate there is, on a target. *)
From Coq Require Import List String Bool Arith.
Import ListNotations.
Local Open Scope string_scope.

(** target_os: the values that occur in the crate, and all others.
    They occur at src/lib.rs:82-116, src/os.rs:3-20, src/poll.rs, src/epoll.rs, src/kqueue.rs and in Cargo.toml. *)
Inductive os_name :=
| Linux | Android | Redox | Illumos | Solaris | Freebsd | Netbsd | Openbsd | Dragonfly | Vxworks | Fuchsia | Horizon
| Espidf | Haiku | Vita | Hermit | WindowsOs
| Other (s : string).
(** Equality of two values of target_os; not in /repo. *)
Definition os_dec (a b : os_name) : {a = b} + {a <> b}.
Proof. decide equality. apply string_dec. Defined.

(** What rustc says about the target, and the two flags of Cargo.toml:21 (for the tests of this crate, "not a public API").
    The rest of rustc's configuration does not occur in the crate (docsrs only adds documentation). *)
Record target := Target {
  os : os_name; apple : bool (* target_vendor = "apple" *); unix : bool; windows : bool; test_poll : bool; test_pipe : bool }.

(** The predicates of [#[cfg(..)]]. rustc's, not in /repo; the uses are in [branches] and [places]. *)
Inductive cfg :=
| Any (l : list cfg) | All (l : list cfg) | Not (c : cfg)
| Os (o : os_name) | Apple | Unix | Windows | TestPoll.
(** The meaning that rustc gives to them; not in /repo. *)
Fixpoint holds (t : target) (c : cfg) : bool :=
  match c with
  | Any l => existsb (holds t) l
  | All l => forallb (holds t) l
  | Not c => negb (holds t c)
  | Os o => if os_dec (os t) o then true else false
  | Apple => apple t
  | Unix => unix t
  | Windows => windows t
  | TestPoll => test_poll t
  end.

(** The modules of src/lib.rs:81-116. *)
Inductive backend := Epoll | Port | Kqueue | Poll | Iocp.
(** Equality of two of them; not in /repo. *)
Definition backend_eqb (a b : backend) : bool :=
  match a, b with Epoll, Epoll | Port, Port | Kqueue, Kqueue | Poll, Poll | Iocp, Iocp => true | _, _ => false end.

(** src/lib.rs:77-120: the branches of cfg_if!, the first that holds is taken. *)
Definition branches : list (cfg * backend) :=
  [ (TestPoll, Poll);
    (Any [Os Linux; Os Android; Os Redox], Epoll);
    (Any [Os Illumos; Os Solaris], Port);
    (Any [Apple; Os Freebsd; Os Netbsd; Os Openbsd; Os Dragonfly], Kqueue);
    (Any [Os Vxworks; Os Hermit; Os Fuchsia; Os Horizon; Unix], Poll);
    (Os WindowsOs, Iocp) ].
(** cfg_if! takes the first branch that holds, src/lib.rs:77-120. *)
Fixpoint first (t : target) (l : list (cfg * backend)) : option backend :=
  match l with
  | [] => None   (* compile_error!, lines 117-119 *)
  | (c, b) :: r => if holds t c then Some b else first t r
  end.
(** The module that is called [sys] by src/lib.rs:77-120. *)
Definition sys (t : target) : option backend := first t branches.

(** Things that are, or are not, compiled, and the places that define them.  [within]: the module of this backend, if the
    place is in it. *)
(** The lines are in [places]. *)
Inductive item :=
| SourceTraits        (* AsRawSource, AsSource *)
| PollerAsFd          (* AsRawFd, AsFd for Poller, by the methods of the backend *)
| PollerAsHandle      (* AsRawHandle, AsHandle for Poller *)
| OsKqueue            (* polling::os::kqueue *)
| OsIocp              (* polling::os::iocp *)
| DefaultCapacity
| PollFdTraits        (* src/poll.rs: AsFd, AsRawFd, BorrowedFd *)
| PollSyscall         (* src/poll.rs: mod syscall: poll, PollFd, PollFlags *)
| PollEventfd         (* src/poll.rs: syscall::eventfd and what comes with it *)
| PollNotify          (* src/poll.rs: mod notify *)
| PollPipes           (* src/poll.rs: the pipe of the notifier, made in one of two ways *)
| EpollTimer          (* src/epoll.rs: the local variable timer_fd of wait *)
| KqueueNotify        (* src/kqueue.rs: mod notify *)
| Rustix | HermitAbi | WindowsSys.   (* dependencies *)
Scheme Equality for item.

(** One definition of an item; the lines are in [places]. *)
Record place := Place { what : item; gate : cfg; within : option backend }.

(** The condition of the pipe notifier of src/poll.rs; the lines are in [places]. *)
Definition poll_notify_pipe : cfg := Not (Any [Os Espidf; Os Hermit]).
Definition places : list place :=
  [ (* src/lib.rs:1034-1067 *)
    Place SourceTraits (Any [Unix; Os Hermit]) None;
    (* src/lib.rs:1068-1100, an else branch *)
    Place SourceTraits (All [Not (Any [Unix; Os Hermit]); Windows]) None;
    (* src/lib.rs:962-976 *)
    Place PollerAsFd
      (All [Any [Os Linux; Os Android; Os Redox; Os Illumos; Os Solaris; Apple; Os Freebsd; Os Netbsd;
                 Os Openbsd; Os Dragonfly]; Not TestPoll]) None;
    (* src/lib.rs:1009 *)
    Place PollerAsHandle Windows None;
    (* src/os.rs:3-13 *)
    Place OsKqueue (All [Any [Apple; Os Freebsd; Os Netbsd; Os Openbsd; Os Dragonfly]; Not TestPoll]) None;
    (* src/os.rs:15 *)
    Place OsIocp (Os WindowsOs) None;
    (* src/lib.rs:834, 837 *)
    Place DefaultCapacity (Os Espidf) None;
    Place DefaultCapacity (Not (Os Espidf)) None;
    (* src/poll.rs:9, 11 *)
    Place PollFdTraits (Not (Os Hermit)) (Some Poll);
    Place PollFdTraits (Os Hermit) (Some Poll);
    (* src/poll.rs:455, 467 *)
    Place PollSyscall Unix (Some Poll);
    Place PollSyscall (Os Hermit) (Some Poll);
    (* src/poll.rs:459-464 within 455; 467 *)
    Place PollEventfd (All [Unix; Os Espidf]) (Some Poll);
    Place PollEventfd (Os Hermit) (Some Poll);
    (* src/poll.rs:630, 739 *)
    Place PollNotify poll_notify_pipe (Some Poll);
    Place PollNotify (Any [Os Espidf; Os Hermit]) (Some Poll);
    (* src/poll.rs:668, 671 within 630 *)
    Place PollPipes (All [poll_notify_pipe; Not (Os Haiku)]) (Some Poll);
    Place PollPipes (All [poll_notify_pipe; Os Haiku]) (Some Poll);
    (* src/epoll.rs:194, 196 *)
    Place EpollTimer (Not (Os Redox)) (Some Epoll);
    Place EpollTimer (Os Redox) (Some Epoll);
    (* src/kqueue.rs:397, 477 *)
    Place KqueueNotify (Any [Os Freebsd; Os Dragonfly; Apple]) (Some Kqueue);
    Place KqueueNotify (Not (Any [Os Freebsd; Os Dragonfly; Apple])) (Some Kqueue);
    (* Cargo.toml:27, 36, 51 *)
    Place Rustix (Any [Unix; Os Fuchsia; Os Vxworks]) None;
    Place WindowsSys Windows None;
    Place HermitAbi (Os Hermit) None ].

(** A definition is compiled if its condition holds and the module around it is compiled: rustc's rule, not in /repo. *)
Definition compiled (t : target) (p : place) : bool :=
  holds t (gate p) &&
  match within p, sys t with
  | None, _ => true
  | Some b, Some b' => backend_eqb b b'
  | Some _, None => false
  end.
(** How many definitions of the item the compiler sees. Over the lines cited in [places]. *)
Definition count (t : target) (i : item) : nat :=
  List.length (filter (fun p => item_beq (what p) i && compiled t p) places).
