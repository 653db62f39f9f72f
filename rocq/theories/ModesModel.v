(** What a poller says about the modes it supports. *)
From Verif Require Import Types PollModel.

(** The backends of src/lib.rs:77-120. *)
Inductive backend := BEpoll | BKqueue | BPoll | BPort | BIocp.

(** src/lib.rs:460-462 [Poller::supports_level]: src/epoll.rs:89-91, src/kqueue.rs:73-75, src/poll.rs:92-94,
    src/port.rs:36-38, src/iocp/mod.rs:158-160. *)
Definition supports_level (b : backend) : bool :=
  match b with BEpoll => true | BKqueue => true | BPoll => poll_supports_level | BPort => false | BIocp => true end.

(** src/lib.rs:465-467 [Poller::supports_edge]: src/epoll.rs:94-96, src/kqueue.rs:78-80, src/poll.rs:97-99,
    src/port.rs:41-43, src/iocp/mod.rs:163-165. *)
Definition supports_edge (b : backend) : bool :=
  match b with BEpoll => true | BKqueue => true | BPoll => poll_supports_edge | BPort => false | BIocp => false end.
