(** Meaning of the lib.rs properties. *)
From Coq Require Import NArith ZArith Bool List Sorted.
From Verif Require Import Types TimeModel TimeSpec LibModel.
Import ListNotations.

(** The key no user event may carry. *)
Definition reserved (k : N) : Prop := k = (2 ^ 64 - 1)%N.

(** [l] is what the user is meant to see of a container [c]: the events with user keys, each
    as often as it occurs, in the same order. *)
Inductive seen {X} : list (event X) -> list (event X) -> Prop :=
| seen_nil : seen [] []
| seen_user e c l : ~ reserved (ev_key e) -> seen c l -> seen (e :: c) (e :: l)
| seen_marker e c l : reserved (ev_key e) -> seen c l -> seen (e :: c) l.

(** An attempt at the platform wait that is interrupted by a signal, whatever container and
    timeout it gets. *)
Definition interrupted {X} (a : attempt X) : Prop :=
  forall c t, exists e c', at_run a c t = (Err e, c') /\ kind e = KInterrupted.

(** The time between two readings of the clock. *)
Definition remaining (start : instant) (d : duration) (now : instant) : Z :=
  Z.max 0 (start + ns d - now).

(** The clock readings of the attempts never go backwards, starting at [start]. *)
Fixpoint clock_ok {X} (start : instant) (ats : list (attempt X)) : Prop :=
  match ats with
  | [] => True
  | a :: r => (start <= at_now a)%Z /\ clock_ok (at_now a) r
  end.
