(** What is assumed about the system, and what a wait in time means. *)
From Coq Require Import ZArith List.
From Verif Require Import Types TimeModel TimeSpec LibModel TimedModel.
Import ListNotations.
Open Scope Z_scope.

(** The clock does not go backwards, and a call that was given a limit says "time is up" only when the limit has passed;
    a call that was given none never says it. *)
Definition honest {X} (a : limit) (x : turn X) : Prop :=
  0 <= t_now x <= t_start x /\ t_start x <= t_read x <= t_at x /\ t_at x <= t_back x
  /\ (t_end x = TimeUp -> exists n, a = Within n /\ t_at x + n <= t_back x).
(** A call returns at most [slack] after its limit. *)
Definition prompt {X} (slack : Z) (a : limit) (x : turn X) : Prop :=
  forall n, a = Within n -> t_back x <= t_at x + Z.max 0 n + slack.
(** Timeouts that fit into the argument of the system call. *)
Definition fits (b : wait_backend) (d : duration) : Prop :=
  match b with EpollMs | Poll => ns d <= i32_max * 1000000 | _ => True end.
