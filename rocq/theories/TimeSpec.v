(** What the timeout properties mean, in plain arithmetic over nanoseconds. *)
From Coq Require Import ZArith.
From Verif Require Import TimeModel.
Open Scope Z_scope.

(** Length of a duration in nanoseconds. *)
Definition ns (d : duration) : Z := secs d * 1000000000 + nanos d.

(** [ms] is the least whole number of milliseconds that is not shorter than [d]. *)
Definition ceil_ms (d : duration) (ms : Z) : Prop :=
  (ms - 1) * 1000000 < ns d <= ms * 1000000.

(** What timerfd_settime(2) accepts in [it_value]. *)
Definition timer_accepts (v : Z * Z) : Prop :=
  0 <= fst v <= i64_max /\ 0 <= snd v < 1000000000.

(** A timer whose [it_value] is zero is disarmed. *)
Definition timer_disarmed (v : Z * Z) : Prop := v = (0, 0).

(** A timer that expires exactly [d] after being set. *)
Definition timer_expires_after (v : Z * Z) (d : duration) : Prop :=
  fst v * 1000000000 + snd v = ns d /\ v <> (0, 0).
