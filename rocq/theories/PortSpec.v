(** Meaning of the event-port properties, read off the log of calls and returns. *)
From stdpp Require Import prelude list gmap.
From Verif Require Import Bits Types EventModel EventSpec PortModel.
Local Open Scope nat_scope.

(** The program cannot use the reserved key (src/lib.rs:554, 659, C01), readiness words have poll
    flags only, and containers have room (src/lib.rs:832-860: capacities are not zero). *)
Definition key_ok (e : event N) : Prop := ev_key e <> NOTIFY_KEY /\ (ev_key e < 2 ^ 64)%N.
Definition legal (l : label) : Prop :=
  match l with
  | LAdd _ e _ _ | LModify _ e _ _ => key_ok e
  | LDelete _ f => f <> Some ENOENT   (* the kernel says so only when it is true *)
  | LHappen _ m => truncate POLL_ALL m = m
  | LWait max _ => 0 < max
  | _ => True
  end.
Inductive reachable : state -> Prop :=
| reach_init : reachable init
| reach_step s l s' : reachable s -> legal l -> step s l = Some s' -> reachable s'.

(** The log entry (re)registers [fd]. *)
Definition registers (fd : Z) (o : obs) : option (event N) :=
  match o with
  | AddRet g e _ (Ok _) | ModifyRet g e _ (Ok _) => if decide (g = fd) then Some e else None
  | _ => None
  end.
Definition delivers (fd : Z) (o : obs) : Prop :=
  match o with WaitRet _ _ b => IFd fd ∈ b.*1 | _ => False end.
Global Instance delivers_dec fd o : Decision (delivers fd o).
Proof. destruct o; simpl; apply _. Defined.

(** The current registration: made by add or modify, ended by delete, close or a delivery. *)
Definition after (fd : Z) (r : option (event N)) (o : obs) : option (event N) :=
  match registers fd o with
  | Some e => Some e
  | None =>
      match o with
      | DeleteRet g (Ok _) | Closed g => if decide (g = fd) then None else r
      | _ => if decide (delivers fd o) then None else r
      end
  end.
Definition registered (fd : Z) (h : list obs) : option (event N) := fold_left (after fd) h None.

(** The readiness of the descriptor now. *)
Definition became (fd : Z) (m : N) (o : obs) : N :=
  match o with
  | Happened g x => if decide (g = fd) then x else m
  | Closed g => if decide (g = fd) then 0%N else m
  | _ => m
  end.
Definition readiness (fd : Z) (h : list obs) : N := fold_left (became fd) h 0%N.

(** The flags the descriptor has had at any time since it was last registered: pairs of current
    readiness and collected flags. *)
Definition collect (fd : Z) (st : N * N) (o : obs) : N * N :=
  let m := became fd st.1 o in
  (m, match registers fd o, o with
      | Some _, _ => m
      | None, Happened g x => if decide (g = fd) then N.lor st.2 x else st.2
      | None, _ => st.2
      end).
Definition flags_since (fd : Z) (h : list obs) : N := (fold_left (collect fd) h (0%N, 0%N)).2.

(** POLLNVAL *)
Definition b_nval : N := 5.
(** What is reported for an interest: what it asks for, and errors and hang-ups. *)
Definition asked (e : event N) (b : N) : Prop :=
  (ev_readable e = true /\ (b = b_in \/ b = b_pri)) \/ (ev_writable e = true /\ b = b_out)
  \/ b = b_hup \/ b = b_err \/ b = b_nval.

(** Notifications sent and reported. *)
Definition is_own (x : item * event N) : bool := match x.1 with IUser _ _ => true | IFd _ => false end.
Definition sent (h : list obs) : nat :=
  length (List.filter (fun o => match o with NotifyRet (Ok _) => true | _ => false end) h).
Definition told (h : list obs) : nat :=
  list_sum (map (fun o => match o with WaitRet _ _ b => length (List.filter is_own b) | _ => 0 end) h).

(** A history in which [n] waits retrieve events, none of them for [fd], and [fd] is not
    registered again, deleted or closed. *)
Definition touches (fd : Z) (l : label) : Prop :=
  match l with LAdd g _ _ _ | LModify g _ _ _ | LDelete g _ | LClose g => g = fd | _ => False end.
Inductive ignored (fd : Z) : nat -> state -> state -> Prop :=
| ig_nil s : ignored fd 0 s s
| ig_step n s s1 l s2 : ignored fd n s s1 -> legal l -> ~ touches fd l -> step s1 l = Some s2 ->
    (forall max o, l <> LWait max o) -> ignored fd n s s2
| ig_wait n s s1 max o s2 : ignored fd n s s1 -> legal (LWait max o) -> step s1 (LWait max o) = Some s2 ->
    (forall b, log s2 = log s1 ++ [WaitRet o (Ok tt) b] -> IFd fd ∉ b.*1) ->
    ignored fd (match o with GEvents => S n | _ => n end) s s2.
