(** What C63 means, in terms of the history only. *)
From stdpp Require Import prelude list gmap.
From Verif Require Import Types AfdModel.
Local Open Scope nat_scope.

Definition reachable (s : state) : Prop := exists n ls, run (start n) ls = Some s.
Definition later (s s' : state) : Prop := exists ls, run s ls = Some s'.

(** How many references to the instance [a] there are after the history [h]: one more with every [Took] and
    [Created], one fewer with every [Dropped]. *)
Fixpoint users (a : nat) (h : list obs) : Z :=
  match h with
  | [] => 0
  | Took _ b :: h | Created _ b :: h => (if decide (b = a) then 1 else 0) + users a h
  | Dropped b :: h => users a h - (if decide (b = a) then 1 else 0)
  | _ :: h => users a h
  end%Z.
Definition opened (a : nat) (h : list obs) : Prop := exists i, Created i a ∈ h.

(** How often its handle was closed. *)
Fixpoint closings (a : nat) (h : list obs) : nat :=
  match h with
  | [] => 0
  | Closed b :: h => (if decide (b = a) then 1 else 0) + closings a h
  | _ :: h => closings a h
  end.

(** At some moment between the histories [h] and [h ++ d] the instance [a] satisfied [P]. *)
Definition at_some_time (a : nat) (P : Z -> Prop) (h d : list obs) : Prop :=
  exists d1 d2, d = d1 ++ d2 /\ P (users a (h ++ d1)).
(** The call of [i] ended. *)
Definition ended (i : nat) (d : list obs) : Prop := (exists a, Given i a ∈ d) \/ exists e, Refused i e ∈ d.
(** How many of the moves are moves of [i]. *)
Fixpoint moves (i : nat) (ls : list label) : nat :=
  match ls with
  | [] => 0
  | LThread j _ :: ls => (if decide (j = i) then 1 else 0) + moves i ls
  | LFree _ :: ls => moves i ls
  end.
