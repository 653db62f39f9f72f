(** Meaning of the kqueue properties, read off the log of calls, kernel answers and reports. *)
From stdpp Require Import prelude list gmap.
From Verif Require Import Bits Types EventModel EventSpec KqueueModel.
Local Open Scope nat_scope.

(** The poller's own filters. *)
Definition own_filter (c : config) (f : kq_filter) : Prop :=
  match noti c with UserEvent => f = FUser 0 | SocketPair fd => f = FRead fd \/ f = FWrite fd end.
Definition own_fd (c : config) (fd : N) : Prop := noti c = SocketPair fd.

(** Calls the program can make: not on the poller's own descriptor; add and modify with the
    reserved key are refused by src/lib.rs:554, 659 (C01), add_filter and modify_filter are not. *)
Definition user_call (c : config) (cl : call) : Prop :=
  match noti c with SocketPair fd => call_source cl <> SFd fd | UserEvent => True end.
Definition key_ok (cl : call) : Prop :=
  match cl with
  | CAdd _ e _ | CModify _ e _ => ev_key e <> NOTIFY_KEY /\ (ev_key e < 2 ^ 64)%N
  | CAddFilter _ k _ | CModifyFilter _ k _ => (k < 2 ^ 64)%N
  | _ => True
  end.

(** The source the thread's current call is about. *)
Definition busy (p : pc) : option source :=
  match p with
  | PInsert cl | PHas cl | PSubmit cl | PRemove cl | PRet cl _ => Some (call_source cl)
  | _ => None
  end.
Definition unused (s : state) (src : source) : Prop :=
  forall i p, threads s !! i = Some p -> busy p <> Some src.

(** The kernel does not pretend that a filter it is told to remove is not there. *)
Definition honest (c : config) (cl : call) (faults : list (option errno)) : Prop :=
  forall j ch e, default [] (call_changes c cl) !! j = Some ch ->
    intersects (ch_flags ch) EV_DELETE = true -> faults !! j = Some (Some e) -> e <> ENOENT /\ e <> EPIPE.

(** What may happen.  [excl]: no two threads work on the same source at the same time. *)
Definition legal (c : config) (excl : bool) (s : state) (l : label) : Prop :=
  match l with
  | LThread i (Call cl) =>
      user_call c cl /\ key_ok cl /\ (excl = true -> unused s (call_source cl))
  | LThread i (Kernel_ok faults) | LThread i (Kernel_err _ faults _) =>
      forall cl, threads s !! i = Some (PSubmit cl) -> honest c cl faults
  | LHappen f st wake =>
      (* a filter that gets something to report is put on the queue *)
      ~ own_filter c f /\ (is_Some st -> is_pending (kern s) f = false -> wake = true)
  | LClose fd => ~ own_fd c fd
  | LWait _ max => 0 < max
  | _ => True
  end.

Inductive reachable (c : config) (excl : bool) : state -> Prop :=
| reach_init n : reachable c excl (init c n)
| reach_step s l s' : reachable c excl s -> legal c excl s l -> step c s l = Some s' ->
    reachable c excl s'.

(** *** Which sources the poller takes for registered *)
Definition is_add (cl : call) : bool :=
  match cl with CAdd _ _ _ | CAddFilter _ _ _ => true | _ => false end.
Definition is_modify (cl : call) : bool :=
  match cl with CModify _ _ _ | CModifyFilter _ _ _ => true | _ => false end.
Definition exists_err : res unit := Err (ESimple KAlreadyExists).
Definition missing_err : res unit := Err (ESimple KNotFound).

(** An add that was not refused as a duplicate, and no successful delete since.  (An add that
    fails for another reason counts: C44 is about that.) *)
Definition enter (src : source) (r : bool) (o : obs) : bool :=
  match o with
  | Returned _ cl x =>
      if decide (call_source cl = src) then
        if is_add cl then match x with Err (ESimple KAlreadyExists) => r | _ => true end
        else if deletes cl then match x with Ok _ => false | _ => r end
        else r
      else r
  | _ => r
  end.
Definition entered (src : source) (h : list obs) : bool := fold_left (enter src) h false.

(** The property C44 asks for: only a successful add registers. *)
Definition enter_ok (src : source) (r : bool) (o : obs) : bool :=
  match o with
  | Returned _ cl (Ok _) =>
      if decide (call_source cl = src) then
        if is_add cl then true else if deletes cl then false else r
      else r
  | _ => r
  end.
Definition added (src : source) (h : list obs) : bool := fold_left (enter_ok src) h false.

(** The filters of a source. *)
Definition source_filter (src : source) (f : kq_filter) : Prop :=
  match src with
  | SFd fd => f = FRead fd \/ f = FWrite fd
  | SSignal n => f = FSignal n
  | SPid p => f = FProc p
  | STimer i => f = FTimer i
  end.
Definition user_source (c : config) (src : source) : Prop :=
  match noti c with SocketPair fd => src <> SFd fd | UserEvent => True end.

(** *** Which filters are armed, with which key and mode *)
(** What the call asks for filter [f]: [Some (Some _)]: watch it; [Some None]: do not;
    [None]: nothing. *)
Definition wants (b : bool) (k : N) (m : poll_mode) : option (N * poll_mode) :=
  if b then Some (k, m) else None.
Definition filter_of (u : user_filter) : kq_filter :=
  match u with USignal n => FSignal n | UProcess p _ => FProc p | UTimer i _ => FTimer i end.
Definition asks (cl : call) (f : kq_filter) : option (option (N * poll_mode)) :=
  match cl with
  | CAdd fd e m | CModify fd e m =>
      if decide (f = FRead fd) then Some (wants (ev_readable e) (ev_key e) m)
      else if decide (f = FWrite fd) then Some (wants (ev_writable e) (ev_key e) m)
      else None
  | CDelete fd => if decide (f = FRead fd \/ f = FWrite fd) then Some None else None
  | CAddFilter u k m | CModifyFilter u k m => if decide (f = filter_of u) then Some (Some (k, m)) else None
  | CDeleteFilter u => if decide (f = filter_of u) then Some None else None
  end.
(** The position of the kernel's answer about [f]. *)
Definition slot (f : kq_filter) : nat := match f with FWrite _ => 1 | _ => 0 end.

(** What the kernel granted for [f] in this log entry. *)
Definition granted (f : kq_filter) (o : obs) : option (option (N * poll_mode)) :=
  match o with
  | Answered _ cl a | Aborted _ cl a _ =>
      match a !! slot f with Some None => asks cl f | _ => None end
  | Closed fd => if decide (f = FRead fd \/ f = FWrite fd) then Some None else None
  | _ => None
  end.
Definition arms (f : kq_filter) (o : obs) : Prop := exists k m, granted f o = Some (Some (k, m)).

Definition arm (keeps : bool) (f : kq_filter) (st : option (N * poll_mode)) (o : obs)
  : option (N * poll_mode) :=
  match granted f o with
  | Some (Some (k, m)) =>
      match st with Some (_, m0) => if keeps then Some (k, m0) else Some (k, m) | None => Some (k, m) end
  | Some None => None
  | None =>
      match o, st with
      | Reported b, Some (k, m) =>
          if decide (f ∈ b.*1) then
            match m with Oneshot | EdgeOneshot => None | _ => st end
          else st
      | _, _ => st
      end
  end.
Definition armed (keeps : bool) (f : kq_filter) (h : list obs) : option (N * poll_mode) :=
  fold_left (arm keeps f) h None.

(** *** Readiness of a descriptor's filter, from the log *)
Definition is_fd_filter (f : kq_filter) : Prop := exists fd, f = FRead fd \/ f = FWrite fd.
Definition became (f : kq_filter) (st : option N) (o : obs) : option N :=
  match o with
  | Happened g x _ => if decide (g = f) then x else st
  | Closed fd => if decide (f = FRead fd \/ f = FWrite fd) then None else st
  | _ => st
  end.
Definition readiness (f : kq_filter) (h : list obs) : option N := fold_left (became f) h None.

(** The note the kernel holds for a key and a mode. *)
Definition holds (f : kq_filter) (n : knote) (k : N) (m : poll_mode) : Prop :=
  kn_udata n = k /\
  (intersects (kn_flags n) EV_ONESHOT = true <-> mode_oneshot m) /\
  (intersects (kn_flags n) EV_CLEAR = true <-> mode_edge m \/ forced_flags f <> 0%N).

(** Runs in which nothing is granted for [f] and it is not reported. *)
Inductive undisturbed (c : config) (excl : bool) (f : kq_filter) : state -> state -> Prop :=
| ud_nil s : undisturbed c excl f s s
| ud_step s s1 l s2 : undisturbed c excl f s s1 -> legal c excl s1 l -> step c s1 l = Some s2 ->
    (forall o, log s2 = log s1 ++ [o] -> granted f o = None /\ forall b e, o = Reported b -> (f, e) ∉ b) ->
    undisturbed c excl f s s2.

(** The step wakes [f], or the kernel grants a request to watch it. *)
Definition news (f : kq_filter) (s s' : state) : Prop :=
  exists o, log s' = log s ++ [o] /\ (arms f o \/ exists st, o = Happened f st true).

(** *** Answers of the kernel *)
(** Answers the documentation of [submit_changes] treats as success. *)
Definition mild (x : option errno) : Prop := x = None \/ x = Some ENOENT \/ x = Some EPIPE.

Inductive verdict := VAnswers (a : list (option errno)) | VAborted (e : errno).
(** What the kernel said to the current call of thread [i]. *)
Definition reply (i : nat) (st : option verdict) (o : obs) : option verdict :=
  match o with
  | Called j _ => if decide (j = i) then None else st
  | Answered j _ a => if decide (j = i) then Some (VAnswers a) else st
  | Aborted j _ _ e => if decide (j = i) then Some (VAborted e) else st
  | _ => st
  end.
Definition last_reply (i : nat) (h : list obs) : option verdict := fold_left (reply i) h None.

(** The result the caller gets for what the kernel said. *)
Definition result_of (cl : call) (v : option verdict) (r : res unit) : Prop :=
  match v with
  | None => r = exists_err \/ r = missing_err \/ r = Panic
  | Some (VAborted e) => r = Err (EOs e)
  | Some (VAnswers a) =>
      (Forall mild a /\ (r = Ok tt \/ (deletes cl = true /\ r = missing_err))) \/
      (exists pre e post, a = pre ++ Some e :: post /\ Forall mild pre /\ ~ mild (Some e) /\ r = Err (EOs e))
  end.

(** *** Notifications *)
(** The filter notifications arrive on. *)
Definition noti_filter (c : config) : kq_filter :=
  match noti c with UserEvent => FUser 0 | SocketPair fd => FRead fd end.
(** A notification was sent and no wait has returned since. *)
Definition owe (st : bool) (o : obs) : bool :=
  match o with Notified => true | WaitOk | WaitErr _ => false | _ => st end.
Definition owed (h : list obs) : bool := fold_left owe h false.
(** The kernel accepted the last registration of the notifier. *)
Definition rearm (st : bool) (o : obs) : bool :=
  match o with Rearmed (None :: _) => true | Rearmed _ => false | _ => st end.
Definition rearmed (h : list obs) : bool := fold_left rearm h true.
(** A notification was sent since the notifier was last reported. *)
Definition send (f : kq_filter) (st : bool) (o : obs) : bool :=
  match o with
  | Notified => true
  | Reported b => if decide (f ∈ b.*1) then false else st
  | _ => st
  end.
Definition sent (f : kq_filter) (h : list obs) : bool := fold_left (send f) h false.
