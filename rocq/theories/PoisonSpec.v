(** Meaning of C106, from what the callers see. *)
From stdpp Require Import prelude list.
From Verif Require Import Types PoisonModel.
Local Open Scope nat_scope.

(** [j] has called wait() and has not come back. *)
Definition wait_ends (j : nat) (o : obs) : bool :=
  match o with WaitRet i _ | WaitError i | WaitPanic i | Skipped i => bool_decide (i = j) | _ => false end.
Definition in_wait (j : nat) (h : list obs) : Prop :=
  exists h1 h2, h = h1 ++ WaitCall j :: h2 /\ forall o, o ∈ h2 -> wait_ends j o = false.

(** wait() skips waiting only because another thread is waiting. *)
Definition skips_are_contention (h : list obs) : Prop :=
  forall h1 i h2, h = h1 ++ Skipped i :: h2 -> exists j, j <> i /\ in_wait j h1.
Definition panicked (h : list obs) : Prop := exists i, WaitPanic i ∈ h.
Definition is_sent (o : obs) : bool := match o with NotifySent _ => true | _ => false end.
Definition sent (h : list obs) : nat := length (List.filter is_sent h).

(** wait() that does anything but skip. *)
Definition wait_works (o : obs) : Prop := match o with Asked _ | WaitRet _ _ | WaitError _ | WaitPanic _ => True | _ => False end.

Inductive later (p : policy) (s : state) : state -> Prop :=
| later_refl : later p s s
| later_step s1 l s2 : later p s s1 -> step p s1 l = Some s2 -> later p s s2.
