(** The waits of the backends in time: what the system is told about the timeout that src/lib.rs hands down. *)
From Coq Require Import ZArith NArith List.
From Verif Require Import Types TimeModel LibModel.
Import ListNotations.
Open Scope Z_scope.

(** src/epoll.rs:159 (without and with a timerfd), src/kqueue.rs:229, src/port.rs:107, src/poll.rs:205, src/iocp/mod.rs:422. *)
Inductive wait_backend := EpollMs | EpollTimer | Kqueue | Port | Poll | Iocp.

(** What the system is asked: block without a limit, or for so many nanoseconds. Not in /repo. *)
Inductive limit := Forever | Within (n : Z).
(** epoll_wait(2), poll(2): a negative number is no limit. For src/epoll.rs:214, src/poll.rs:248. *)
Definition ms_limit (ms : Z) : limit := if ms <? 0 then Forever else Within (ms * 1000000).
(** For src/epoll.rs:184, src/kqueue.rs:240, src/port.rs:116. *)
Definition ts_limit (v : Z * Z) : limit := Within (fst v * 1000000000 + snd v).

(** How a blocking call ends: with nothing when the time is up, with events (which may be nothing but a notification),
    interrupted by a signal, or with another failure. *)
(** Of src/epoll.rs:214 and its like. *)
Inductive ending (X : Type) := TimeUp | Woken (l : list (event X)) | Signal | Broken (e : io_error).
Arguments TimeUp {X}.
Arguments Woken {X}.
Arguments Signal {X}.
Arguments Broken {X}.

(** One call of the backend's wait by src/lib.rs:738-759.
    - [t_now]: the clock when the timeout is computed (src/lib.rs:741);
    - [t_start]: the clock when the backend computes its own deadline (src/poll.rs:213, src/iocp/mod.rs:431);
    - [t_read]: the clock when poll computes the timeout of its last system call (src/poll.rs:236);
    - [t_at], [t_back]: when the last system call is made (on epoll with a timerfd: when the timer is set) and when it
      returns.
    The earlier system calls of poll and IOCP are not recorded: the backend goes round after them. *)
Record turn (X : Type) := Turn {
  t_now : instant; t_start : instant; t_read : instant; t_at : instant; t_back : instant; t_end : ending X
}.
Arguments Turn {X}.
Arguments t_now {X}.
Arguments t_start {X}.
Arguments t_read {X}.
Arguments t_at {X}.
Arguments t_back {X}.
Arguments t_end {X}.

(** What the system is told in that call.  epoll: src/epoll.rs:167-211 (a timer that is set to zero is off, but then the
    milliseconds are zero); kqueue: src/kqueue.rs:240 and event ports: src/port.rs:116, where rustix copies seconds and
    nanoseconds; poll: src/poll.rs:234-245; IOCP: src/iocp/mod.rs:452. *)
Definition told {X} (imax : instant) (b : wait_backend) (t : option duration) (x : turn X) : limit :=
  match b with
  | EpollMs => ms_limit (epoll_timeout_ms false t)
  | EpollTimer =>
      match t with
      | Some d => if epoll_timeout_ms true t =? 0 then Within 0 else ts_limit (epoll_timerfd_value t)
      | None => ms_limit (epoll_timeout_ms true t)
      end
  | Kqueue | Port => match t with Some d => ts_limit (as_i64 (secs d), nanos d) | None => Forever end
  | Poll => ms_limit (poll_timeout_ms (deadline_of imax (t_start x) t) (t_read x))
  | Iocp =>
      match deadline_of imax (t_start x) t with
      | Some dl => let ms := iocp_timeout (Some (saturating_duration_since dl (t_read x))) in
                   if ms =? INFINITE then Forever else Within (ms * 1000000)
      | None => Forever
      end
  end.

(** src/lib.rs:738-759: what the loop sees of it. *)
Definition attempt_of {X} (x : turn X) : attempt X :=
  Attempt (t_now x) (fun c _ =>
    match t_end x with
    | TimeUp => (Ok tt, c)
    | Woken l => (Ok tt, c ++ l)
    | Signal => (Err (EOs EINTR), c)
    | Broken e => (Err e, c)
    end).
