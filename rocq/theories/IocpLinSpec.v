(** C109: the calls on completion ports as if they were made one after another. *)
From stdpp Require Import prelude list gmap.
From Verif Require Import Bits Types EventModel Pool IocpModel.
Local Open Scope nat_scope.

(** ** One call after another *)

(** What can be registered: a socket, or a waitable handle. *)
Notation src := (N + N)%type.
(** The registry of a poller that has one user: what is registered, with which interest and mode. *)
Notation registry := (gmap src (event N * poll_mode)).

Inductive kind := KAdd (k : src) (v : event N * poll_mode) | KModify (k : src) (v : event N * poll_mode)
                | KDelete (k : src) | KOther.
Definition kind_of (c : call) : kind :=
  match c with
  | CAdd x e m => KAdd (inl x) (e, m)
  | CAddW x e m => KAdd (inr x) (e, m)
  | CModify x e m => KModify (inl x) (e, m)
  | CModifyW x e m => KModify (inr x) (e, m)
  | CDelete x => KDelete (inl x)
  | CRemoveW x => KDelete (inr x)
  | CPost _ | CNotify => KOther
  end.

(** How a call fares: it is carried out, it finds that the source is (add) or is not (modify,
    delete) registered, or it does not come to look. *)
Inductive outcome := Carried | Unfit | Aside.
(** The registry after the call; [None] if it cannot fare so. *)
Definition perform (R : registry) (c : call) (a : outcome) : option registry :=
  match kind_of c, a with
  | KAdd k v, Carried => match R !! k with None => Some (<[k:=v]> R) | Some _ => None end
  | KAdd k v, Unfit => match R !! k with None => None | Some _ => Some R end
  | KModify k v, Carried => match R !! k with None => None | Some _ => Some (<[k:=v]> R) end
  | KModify k v, Unfit => match R !! k with None => Some R | Some _ => None end
  | KDelete k, Carried => match R !! k with None => None | Some _ => Some (delete k R) end
  | KDelete k, Unfit => match R !! k with None => Some R | Some _ => None end
  | KAdd _ _, Aside | KModify _ _, Aside | KOther, Aside => Some R
  | KDelete _, Aside | KOther, _ => None
  end.
(** The answers it can then give.  A call that is carried out fails only with an error of the
    system (and stays carried out: C81); so does one that does not come to look, or because of its
    mode. *)
Definition answers (c : call) (a : outcome) (r : res unit) : Prop :=
  match a, kind_of c with
  | Carried, _ => r = Ok tt \/ exists e, r = Err (EOs e)
  | Unfit, KAdd _ _ => r = Err (ESimple KAlreadyExists)
  | Unfit, KModify _ _ => r = Err (ESimple KNotFound)
  | Unfit, KDelete _ => r = Ok tt
  | Unfit, KOther => False
  | Aside, KOther => r = Ok tt \/ exists e, r = Err (EOs e)
  | Aside, _ => r = invalid_input \/ exists e, r = Err (EOs e)
  end.

(** ** Histories *)

(** What is seen of the poller, together with the moments at which the calls take effect, and at
    which wait() removes a socket that was reported closed. *)
Inductive item := Seen (o : obs) | Effect (i : nat) (c : call) (a : outcome) | Closed (x : N).
Definition visible (h : list item) : list obs := omap (fun t => match t with Seen o => Some o | _ => None end) h.

(** The effects follow one another as in a poller with one user. *)
Definition reg_step (R : option registry) (t : item) : option registry :=
  match t with
  | Seen _ => R
  | Effect _ c a => R ≫= fun R => perform R c a
  | Closed x => delete (inl x) <$> R
  end.
Definition after (h : list item) : option registry := fold_left reg_step h (Some ∅).

(** A thread calls, the call takes effect once, and it returns with an answer that fits. *)
Inductive stage := Idle' | InCall (c : call) | Effected (c : call) (a : outcome).
Definition ends (i : nat) (g : stage) (t : item) (g' : stage) : Prop :=
  match t with
  | Seen (Called j c) => if decide (j = i) then g = Idle' /\ g' = InCall c else g' = g
  | Seen (Returned j c r) =>
      if decide (j = i) then exists a, g = Effected c a /\ answers c a r /\ g' = Idle' else g' = g
  | Effect j c a => if decide (j = i) then g = InCall c /\ g' = Effected c a else g' = g
  | _ => g' = g
  end.
Inductive stages (i : nat) : list item -> stage -> Prop :=
| st_nil : stages i [] Idle'
| st_snoc h g t g' : stages i h g -> ends i g t g' -> stages i (h ++ [t]) g'.

(** AFD has reported that a socket was closed; wait() removes a socket only then. *)
Definition close_reported (l : list obs) : Prop :=
  exists n b e, Done n b e ∈ l /\ intersects e AFD_LOCAL_CLOSE = true.
Definition closes_reported (h : list item) : Prop :=
  forall h1 x h2, h = h1 ++ Closed x :: h2 -> close_reported (visible h1).

(** ** What the poller has *)

(** The interest and mode that a packet was last given by add or modify. *)
Definition given_step (p : pid) (x : option (event N * poll_mode)) (o : obs) :=
  match o with Armed q e m => if decide (p = q) then Some (e, m) else x | _ => x end.
Definition given (p : pid) (h : list obs) : option (event N * poll_mode) := fold_left (given_step p) h None.
(** The packet that is registered for a source. *)
Definition holds (s : state) (k : src) : option pid :=
  match k with inl x => PSock <$> sources s !! x | inr x => PWait <$> waitables s !! x end.

(** The history [h] explains what was seen and what the poller has. *)
Definition explains (h : list item) (s : state) : Prop :=
  visible h = log s
  /\ (forall i, exists g, stages i h g)
  /\ closes_reported h
  /\ exists R, after h = Some R /\ forall k, R !! k = p ← holds s k; given p (log s).
