(** What the events mean, from the history of the program alone. *)
From stdpp Require Import prelude list gmap.
From Verif Require Import Types EventModel FileModel.
Local Open Scope nat_scope.

(** The file that descriptor [fd] refers to. *)
Definition file_step (fd : Z) (x : option nat) (o : obs) : option nat :=
  match o with
  | Opened g f => if decide (g = fd) then Some f else x
  | Closed g => if decide (g = fd) then None else x
  | _ => x
  end.
Definition file_at (fd : Z) (h : list obs) : option nat := fold_left (file_step fd) h None.

(** The registration of [fd]: the key of the last successful add or modify and the file that [fd] referred to then. *)
Definition asked_step (fd : Z) (x : option nat * option (N * option nat)) (o : obs) : option nat * option (N * option nat) :=
  (file_step fd x.1 o,
   match o with
   | AddRet g k (Ok _) | ModifyRet g k (Ok _) => if decide (g = fd) then Some (k, x.1) else x.2
   | DeleteRet g (Ok _) => if decide (g = fd) then None else x.2
   | _ => x.2
   end).
Definition asked (fd : Z) (h : list obs) : option (N * option nat) := (fold_left (asked_step fd) h (None, None)).2.

(** The contract: descriptors given to add and modify are open, and a registered descriptor is deleted before it is
    closed. *)
Definition contract (h : list obs) : Prop :=
  forall h1 o h2, h = h1 ++ o :: h2 ->
    match o with
    | AddRet fd _ _ | ModifyRet fd _ _ => file_at fd h1 <> None
    | Closed fd => asked fd h1 = None
    | _ => True
    end.

(** Every event is about the very file that was given to the last add or modify, with the key of that call, and that file
    is still there under the same number. *)
Definition events_belong (h : list obs) : Prop :=
  forall h1 k fd f h2, h = h1 ++ Got k fd f :: h2 ->
    exists g, f = Some g /\ asked fd h1 = Some (k, Some g) /\ file_at fd h1 = Some g.

(** Adds fail only because the source is registered already. *)
Definition adds_fail_as_duplicates (h : list obs) : Prop :=
  forall fd k e, AddRet fd k (Err e) ∈ h -> e = ESimple KAlreadyExists.
