(** What the pieces need of each other. *)
From Coq Require Import List String Bool.
From Verif Require Import CfgModel.
Import ListNotations.
Local Open Scope string_scope.

(** Targets as rustc has them: unix and windows exclude each other; windows is the family of Windows alone; Hermit belongs
    to neither; the systems named in the crate, and Apple's, are unix. *)
Definition named : list os_name :=
  [Linux; Android; Redox; Illumos; Solaris; Freebsd; Netbsd; Openbsd; Dragonfly; Vxworks; Fuchsia; Horizon; Espidf; Haiku;
   Vita].
Record real (t : target) : Prop := Real {
  r_excl : unix t = true -> windows t = true -> False;
  r_windows : windows t = true <-> os t = WindowsOs;
  r_hermit : os t = Hermit -> unix t = false /\ windows t = false;
  r_named : In (os t) named -> unix t = true;
  r_apple : apple t = true -> unix t = true /\ ~ In (os t) named
}.

(** What must be there exactly once for the code of the backend to compile, on this target. *)
Definition uses (t : target) (b : backend) : list item :=
  [SourceTraits; DefaultCapacity] ++
  match b with
  | Epoll => [EpollTimer; PollerAsFd; Rustix]
  | Port => [PollerAsFd; Rustix]
  | Kqueue => [KqueueNotify; PollerAsFd; OsKqueue; Rustix]
  | Poll => [PollFdTraits; PollSyscall; PollNotify] ++
            match os t with
             | Hermit => [PollEventfd; HermitAbi]
             | Espidf => [PollEventfd; Rustix]
             | _ => [PollPipes; Rustix]
             end
  | Iocp => [PollerAsHandle; OsIocp; WindowsSys]
  end.
(** What belongs to one backend alone. *)
Definition parts (b : backend) : list item :=
  match b with
  | Epoll => [EpollTimer]
  | Kqueue => [KqueueNotify; OsKqueue]
  | Poll => [PollFdTraits; PollSyscall; PollEventfd; PollNotify; PollPipes]
  | Port => []
  | Iocp => [OsIocp; PollerAsHandle]
  end.
(** What must not be there: the parts of other backends, and what calls what the backend lacks. *)
Definition excludes (b : backend) : list item :=
  match b with
  | Epoll => parts Kqueue ++ parts Poll ++ parts Iocp
  | Port => parts Epoll ++ parts Kqueue ++ parts Poll ++ parts Iocp
  | Kqueue => parts Epoll ++ parts Poll ++ parts Iocp
  | Poll => PollerAsFd :: parts Epoll ++ parts Kqueue ++ parts Iocp   (* src/poll.rs has no descriptor to give *)
  | Iocp => PollerAsFd :: parts Epoll ++ parts Kqueue ++ parts Poll
  end.
Definition fits (t : target) (b : backend) : Prop :=
  (forall i, In i (uses t b) -> count t i = 1) /\ (forall i, In i (excludes b) -> count t i = 0).
