(** Meaning of the completion-port properties, read off the log. *)
From stdpp Require Import prelude list gmap.
From Verif Require Import Bits Types EventModel Pool IocpModel.
Local Open Scope nat_scope.

(** The program: src/lib.rs:554, 659 reject the reserved key (C01); a packet is posted after it was
    made; containers have room (src/lib.rs:832-860).  The system: a completed request is not
    pending. *)
Definition legal (s : state) (l : label) : Prop :=
  match l with
  | LThread _ (Call (CAdd _ e _)) | LThread _ (Call (CModify _ e _)) => ev_key e <> NOTIFY_KEY
  | LThread _ (Call (CPost n)) => is_Some (customs (pmem s) !! n)
  | LWait cap _ _ => 0 < cap
  | LDone _ b _ _ => b <> BPending
  | _ => True
  end.
Inductive reachable (c : config) : state -> Prop :=
| reach_init n : reachable c (init n)
| reach_step s l s' : reachable c s -> legal s l -> step c s l = Some s' -> reachable c s'.
(** From [s] on. *)
Inductive later (c : config) (s : state) : state -> Prop :=
| later_now : later c s s
| later_step s1 l s2 : later c s s1 -> legal s1 l -> step c s1 l = Some s2 -> later c s s2.
Definition valid (c : config) : Prop := 0 < capacity c.

(** ** Who has a packet *)

(** Completions that were taken from the port and not yet processed. *)
Definition batch (w : wpc) : list pid :=
  match w with
  | WGot _ _ b | WFeed _ _ b | WOpen _ _ _ b | WUpd _ _ b _ _ _ | WDead _ _ b => b
  | _ => []
  end.
(** The one that is being processed. *)
Definition opened (w : wpc) : list pid := match w with WOpen _ _ p _ => [p] | _ => [] end.
Definition upd_refs (p : pid) (u : upc) : list pid := p :: match u with UDrainDo _ q => [q] | _ => [] end.
(** References owned by a thread. *)
Definition pc_refs (q : pc) : list pid :=
  match q with
  | AInsert _ p | MSet _ p | DBegin _ p => [p]
  | Upd _ p u => upd_refs p u
  | _ => []
  end.
Definition wait_refs (w : wpc) : list pid :=
  match w with
  | WDrainDo _ q => [q]
  | WUpd _ _ b _ p u => upd_refs p u ++ b
  | WDead _ own b => own ++ b
  | _ => opened w ++ batch w
  end.

(** Packets a thread is about to bring up to date. *)
Definition pc_updates (q : pc) : list pid := match q with Upd _ p u => upd_refs p u | _ => [] end.
Definition wait_updates (w : wpc) : list pid :=
  match w with WDrainDo _ q => [q] | WUpd _ _ _ _ p u => upd_refs p u | _ => [] end.
Definition updating (s : state) (p : pid) : Prop :=
  p ∈ wait_updates (waiter s) \/ exists i q, threads s !! i = Some q /\ p ∈ pc_updates q.

(** ** Reading the log *)

(** The interest a packet has: what it was last given, nothing after an event in one-shot mode.
    The flag says whether errors are asked for. *)
Definition interest_step (p : pid) (x : option (event N * bool * poll_mode)) (o : obs) :=
  match o with
  | Armed q e m => if decide (p = q) then Some (e, true, m) else x
  | Fed q (Some _) =>
      if decide (p = q)
      then match x with
           | Some (e, _, Oneshot) => Some (Ev (ev_key e) false false 0%N, false, Oneshot)
           | _ => x
           end
      else x
  | _ => x
  end.
Definition interest_of (p : pid) (h : list obs) : option (event N * bool * poll_mode) :=
  fold_left (interest_step p) h None.

(** The system never refused anything for the packet, and nothing of it was dropped because of
    the failure of another. *)
Definition spared (p : pid) (h : list obs) : Prop := Fault p ∉ h /\ Lost p ∉ h.

(** ** References *)

Definition occ (p : pid) (l : list pid) : nat := cnt (fun q => bool_decide (p = q)) l.
Definition cb_packet (x : cb) : pid := match x with CbStart n | CbPost n => PWait n end.
(** Packets whose address the system has: requests, completions, waits and callbacks. *)
Definition system_refs (k : kern) : list pid :=
  map (fun o => PSock (op_pk o)) (ops k) ++ queue k ++ map PWait (map_to_list (waits k)).*2 ++ map cb_packet (cbs k).
(** The tables of the poller, and the packets the program has made (and the poller's own). *)
Definition table_refs (s : state) : list pid :=
  map PSock (map_to_list (sources s)).*2 ++ map PWait (map_to_list (waitables s)).*2.
Definition user_refs (m : mem) : list pid := PWake :: map PCustom (map_to_list (customs m)).*1.
(** All places where a packet is referred to. *)
Definition owners (s : state) : list pid :=
  system_refs (sys s) ++ table_refs s ++ pending s ++ user_refs (pmem s)
  ++ wait_refs (waiter s) ++ concat (map pc_refs (threads s)).

(** ** Sockets *)

(** How the last request on the packet ended. *)
Definition last_done (n : nat) (h : list obs) : option (iosb * N) :=
  fold_left (fun x o => match o with Done j b e => if decide (j = n) then Some (b, e) else x | _ => x end) h None.

(** [e] may be delivered for socket packet [n] after history [h]: it has the key that was last
    given, claims only what the last interest asks for and AFD reported, claims something, and
    the packet was not deleted. *)
Definition justified (n : nat) (h : list obs) (e : event N) : Prop :=
  exists i err m b flags,
    interest_of (PSock n) h = Some (i, err, m) /\ last_done n h = Some (b, flags)
    /\ Removed (PSock n) ∉ h
    /\ ev_key e = ev_key i
    /\ (ev_readable e = true ->
          ev_readable i = true /\ (b = BError \/ b = BDone /\ (afd_mask_to_event flags).1 = true))
    /\ (ev_writable e = true ->
          ev_writable i = true /\ (b = BError \/ b = BDone /\ (afd_mask_to_event flags).2 = true))
    /\ (ev_extra e = 0%N \/ b = BDone /\ ev_extra e = flags)
    /\ (ev_readable e || ev_writable e || intersects (ev_extra e) (ev_extra i) = true).
(** Every event delivered for the packet was justified. *)
Definition all_justified (n : nat) (h : list obs) : Prop :=
  forall h1 e h2, h = h1 ++ Fed (PSock n) (Some e) :: h2 -> justified n h1 e.

(** ** The call of wait() that is running *)

(** Its deadline, the last time it read, whether it took a notification, and the events it has
    processed. *)
Record progress := Prog { pr_deadline : option N; pr_clock : option N; pr_notified : bool; pr_events : list (pid * event N) }.
Definition progress_step (x : option progress) (o : obs) : option progress :=
  match o with
  | WaitBegun d _ => Some (Prog d None false [])
  | Clock now => (fun w => Prog (pr_deadline w) (Some now) (pr_notified w) (pr_events w)) <$> x
  | Fed PWake _ => (fun w => Prog (pr_deadline w) (pr_clock w) true (pr_events w)) <$> x
  | Fed p (Some e) => (fun w => Prog (pr_deadline w) (pr_clock w) (pr_notified w) (pr_events w ++ [(p, e)])) <$> x
  | WaitRet _ _ => None
  | _ => x
  end.
Definition current (h : list obs) : option progress := fold_left progress_step h None.
(** The last time it read was not before the deadline. *)
Definition late (w : progress) : Prop :=
  exists d now, pr_deadline w = Some d /\ pr_clock w = Some now /\ (d <= now)%N.

(** ** Notifications and posted packets *)

Definition tally (f : obs -> bool) (h : list obs) : nat := cnt f h.
Definition posts (p : pid) (o : obs) : bool := match o with Posted q => bool_decide (p = q) | _ => false end.
Definition taken (p : pid) (o : obs) : bool := match o with Fed q _ => bool_decide (p = q) | _ => false end.
Definition losses (p : pid) (o : obs) : bool := match o with Lost q => bool_decide (p = q) | _ => false end.
(** Completions of [p] that were not processed. *)
Definition outstanding (s : state) (p : pid) : nat :=
  occ p (queue (sys s)) + occ p (batch (waiter s)) + occ p (opened (waiter s)).

(** ** Calls *)

(** The calls that are in progress. *)
Definition calls_step (m : gmap nat call) (o : obs) : gmap nat call :=
  match o with Called i c => <[i:=c]> m | Returned i _ _ => delete i m | _ => m end.
Definition calls (h : list obs) : gmap nat call := fold_left calls_step h ∅.

(** A call was made and returned, both after the last reset: the calls that were made since, and
    whether one of them returned. *)
Definition since_step (start fin : obs -> option nat) (reset : obs -> bool) (x : list nat * bool) (o : obs) : list nat * bool :=
  if reset o then ([], false)
  else match start o, fin o with
       | Some i, _ => (i :: x.1, x.2)
       | None, Some i => (x.1, x.2 || bool_decide (i ∈ x.1))
       | None, None => x
       end.
Definition since (start fin : obs -> option nat) (reset : obs -> bool) (h : list obs) : list nat * bool :=
  fold_left (since_step start fin reset) h ([], false).

(** A call of notify() was made and returned, and wait() did not return since it was made. *)
Definition notify_start (o : obs) : option nat := match o with Called i CNotify => Some i | _ => None end.
Definition notify_fin (o : obs) : option nat := match o with Returned i CNotify (Ok _) => Some i | _ => None end.
Definition wait_end (o : obs) : bool := match o with WaitRet _ _ => true | _ => false end.
Definition notify_due (h : list obs) : Prop := (since notify_start notify_fin wait_end h).2 = true.

(** A call of delete([x]) was made and returned, and [x] was not entered into the table since it was made. *)
Definition delete_start (x : N) (o : obs) : option nat :=
  match o with Called i (CDelete y) => if decide (y = x) then Some i else None | _ => None end.
Definition delete_fin (x : N) (o : obs) : option nat :=
  match o with Returned i (CDelete y) _ => if decide (y = x) then Some i else None | _ => None end.
Definition enters (x : N) (o : obs) : bool := match o with Entered (PSock _) y => bool_decide (y = x) | _ => false end.
Definition deleted (x : N) (h : list obs) : Prop := (since (delete_start x) (delete_fin x) (enters x) h).2 = true.

(** The calls that were in progress when wait() last read the clock, before it blocked. *)
Definition clock_step (x : gmap nat call * gmap nat call) (o : obs) : gmap nat call * gmap nat call :=
  (calls_step x.1 o, match o with Clock _ => x.1 | _ => x.2 end).
Definition calls_at_clock (h : list obs) : gmap nat call := (fold_left clock_step h (∅, ∅)).2.
(** No wait() failed. *)
Definition no_wait_failed (h : list obs) : Prop := forall e evs, WaitRet (Err e) evs ∉ h.

(** ** What is arranged for a socket *)

(** The flags that the interest asks of AFD. *)
Definition asked (n : nat) (h : list obs) : option N :=
  match interest_of (PSock n) h with Some (e, err, _) => Some (event_to_afd_mask e err) | None => None end.
(** AFD is polling for just these; or the request was told to end; or a completion was not processed yet. *)
Definition arranged (s : state) (n : nat) : Prop :=
  (exists o, o ∈ ops (sys s) /\ op_pk o = n /\ op_cancel o = false /\ asked n (log s) = Some (op_mask o))
  \/ (exists o, o ∈ ops (sys s) /\ op_pk o = n /\ op_cancel o = true)
  \/ 0 < outstanding s (PSock n).

(** ** What a call gives its packet *)

Definition gives (c : call) : option (N * event N * poll_mode) :=
  match c with
  | CAdd x e m | CModify x e m | CAddW x e m | CModifyW x e m => Some (x, e, m)
  | _ => None
  end.
Definition kind (c : call) (p : pid) : Prop :=
  match c, p with
  | (CAdd _ _ _ | CModify _ _ _), PSock _ | (CAddW _ _ _ | CModifyW _ _ _), PWait _ => True
  | _, _ => False
  end.
(** During the last call of [i], which is [c], packet [p] was given the interest. *)
Definition armed_by (i : nat) (c : call) (p : pid) (h : list obs) : Prop :=
  exists x e m h1 h2 h3, gives c = Some (x, e, m) /\ kind c p /\ h = h1 ++ Called i c :: h2 ++ Armed p e m :: h3
    /\ forall c', Called i c' ∉ h2 ++ h3.
(** It was entered for the source that the call names. *)
Definition entered_for (c : call) (p : pid) (h : list obs) : Prop :=
  exists x e m, gives c = Some (x, e, m) /\ kind c p /\ Entered p x ∈ h.

(** The step brings packet [p] up to date, and the system refuses nothing. *)
Definition updates (s : state) (l : label) (p : pid) : Prop :=
  match l with
  | LThread i (Go None) =>
      (exists cl, threads s !! i = Some (Upd cl p UDo)) \/ (exists cl q n, threads s !! i = Some (Upd cl q (UDrainDo n p)))
  | LWaiter (WGo None) =>
      (exists lc, waiter s = WDrainDo lc p) \/ (exists lc z b r, waiter s = WUpd lc z b r p UDo)
      \/ (exists lc z b r q n, waiter s = WUpd lc z b r q (UDrainDo n p))
  | _ => False
  end.

(** Completions of the requests on packet [n]. *)
Definition dones (n : nat) (o : obs) : bool := match o with Done j _ _ => bool_decide (j = n) | _ => false end.

(** ** What has to be delivered *)

(** What AFD says about the socket, restricted to interest [i]: nothing if the request was cancelled,
    everything if it failed. *)
Definition tells_r (i : event N) (b : iosb) (flags : N) : bool :=
  ev_readable i && match b with BError => true | BDone => (afd_mask_to_event flags).1 | _ => false end.
Definition tells_w (i : event N) (b : iosb) (flags : N) : bool :=
  ev_writable i && match b with BError => true | BDone => (afd_mask_to_event flags).2 | _ => false end.
Definition tells_x (b : iosb) (flags : N) : N := match b with BDone => flags | _ => 0%N end.
(** [r] is what processing a completion of socket packet [n] gives after history [h]: nothing if it was
    deleted or closed, else exactly what AFD says, unless that is nothing of interest. *)
Definition told (n : nat) (h : list obs) (r : option (event N)) : Prop :=
  exists i err m b flags, interest_of (PSock n) h = Some (i, err, m) /\ last_done n h = Some (b, flags) /\ b <> BPending
    /\ (Removed (PSock n) ∈ h -> r = None)
    /\ (b = BDone -> intersects flags AFD_LOCAL_CLOSE = true -> r = None)
    /\ (Removed (PSock n) ∉ h -> ~ (b = BDone /\ intersects flags AFD_LOCAL_CLOSE = true) ->
        r = if tells_r i b flags || tells_w i b flags || intersects (tells_x b flags) (ev_extra i)
            then Some (Ev (ev_key i) (tells_r i b flags) (tells_w i b flags) (tells_x b flags)) else None).

(** Successful calls of post([n]) that returned. *)
Definition posted_ok (n : nat) (o : obs) : bool := match o with Returned _ (CPost m) (Ok _) => bool_decide (n = m) | _ => false end.

(** What the system refused is about what the call asked for: the source a delete names, the packet of a post, the
    wake-up of a notify.  (An add or a modify also brings other sources up to date.) *)
Definition concerned (c : call) (p : pid) (h : list obs) : Prop :=
  match c with
  | CDelete x => Entered p x ∈ h /\ exists n, p = PSock n
  | CRemoveW x => Entered p x ∈ h /\ exists n, p = PWait n
  | CPost n => p = PCustom n
  | CNotify => p = PWake
  | _ => True
  end.
(** During the call of [c] by [i], the last one, the system refused something. *)
Definition refused_in (i : nat) (c : call) (h : list obs) : Prop :=
  exists h1 h2 p, h = h1 ++ Called i c :: h2 /\ (forall c', Called i c' ∉ h2) /\ Fault p ∈ h2 /\ concerned c p h.

(** ** AFD reports only what it was asked about *)

(** The step ends a request with no flag that the request did not ask for. *)
Definition only_asked (s : state) (l : label) : Prop :=
  match l with
  | LDone i _ _ e => forall o, ops (sys s) !! i = Some o -> N.land e (op_mask o) = e
  | _ => True
  end.
Inductive reachable_asked (c : config) : state -> Prop :=
| reach_asked_init n : reachable_asked c (init n)
| reach_asked_step s l s' : reachable_asked c s -> legal s l -> only_asked s l -> step c s l = Some s' -> reachable_asked c s'.
