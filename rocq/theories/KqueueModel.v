(** Model of src/kqueue.rs and src/os/kqueue.rs on top of a kqueue-like kernel.  Any number of
    threads call add, modify, delete, add_filter, modify_filter, delete_filter and notify, one
    (src/lib.rs:735) is in wait().  Every access to the set of sources and every system call is
    one step. *)
From stdpp Require Import prelude list gmap.
From Verif Require Import Bits Types EventModel.
Local Open Scope nat_scope.

Global Instance kq_filter_eq_dec : EqDecision kq_filter.
Proof. solve_decision. Defined.
Global Instance kq_filter_countable : Countable kq_filter.
Proof.
  refine (inj_countable'
    (fun f => match f with
              | FRead x => (0, x) | FWrite x => (1, x) | FVnode x => (2, x) | FProc x => (3, x)
              | FSignal x => (4, x) | FTimer x => (5, x) | FUser x => (6, x) | FOther x => (7, x)
              end)
    (fun p => match p with
              | (0, x) => FRead x | (1, x) => FWrite x | (2, x) => FVnode x | (3, x) => FProc x
              | (4, x) => FSignal x | (5, x) => FTimer x | (6, x) => FUser x | (_, x) => FOther x
              end) _).
  by intros [].
Defined.

(* ------------------------------------------------------------------ *)
(** ** The kernel (sys/kern/kern_event.c), which is not part of /repo: trusted *)

(** A registered filter: its EV_ONESHOT and EV_CLEAR flags, its udata, its parameter (fflags or
    data, for example the period of a timer), and whether it is on the queue. *)
(** Not in /repo. *)
Record knote := Knote { kn_flags : N; kn_udata : N; kn_param : N; kn_active : bool }.

(** The registered filters, and which filters have something to report, with the flags
    (EV_EOF) they would report. *)
(** Not in /repo. *)
Record kernel := Kernel { notes : gmap kq_filter knote; pending : gmap kq_filter N }.

(** One element of a change list. What is submitted at src/kqueue.rs:126-136, 154. *)
Record change := Change { ch_filter : kq_filter; ch_flags : N; ch_udata : N; ch_param : N;
                          ch_trigger : bool (* NOTE_TRIGGER *) }.

(** Filters that count events themselves, are reset by a report and always have EV_CLEAR, except
    EVFILT_USER, which has it only if asked. *)
(** Not in /repo. *)
Definition counting (f : kq_filter) : bool :=
  match f with FProc _ | FSignal _ | FTimer _ | FUser _ => true | _ => false end.
(** Not in /repo. *)
Definition forced_flags (f : kq_filter) : N :=
  match f with FProc _ | FSignal _ | FTimer _ => EV_CLEAR | _ => 0%N end.
(** Not in /repo. *)
Definition stored_flags (f : kq_filter) (flags : N) : N :=
  N.lor (N.land flags (N.lor EV_ONESHOT EV_CLEAR)) (forced_flags f).

(** Not in /repo. *)
Definition is_pending (k : kernel) (f : kq_filter) : bool := bool_decide (is_Some (pending k !! f)).

(** kqueue_register: one change.  [keeps]: adding a filter that is already there leaves its
    EV_ONESHOT and EV_CLEAR flags as they are (FreeBSD's kqueue_register only stores udata,
    fflags and data); otherwise they are replaced, as the manual page says of "the parameters of
    the original event".  [fault]: the change is refused with this error. *)
(** Not in /repo. *)
Definition register (keeps : bool) (k : kernel) (ch : change) (fault : option errno)
  : option errno * kernel :=
  match fault with
  | Some e => (Some e, k)
  | None =>
      let f := ch_filter ch in
      if intersects (ch_flags ch) EV_DELETE then
        match notes k !! f with
        | Some _ => (None, Kernel (delete f (notes k))
                             (if counting f then delete f (pending k) else pending k))
        | None => (Some ENOENT, k)
        end
      else if intersects (ch_flags ch) EV_ADD then
        let p := if ch_trigger ch then <[f:=0%N]> (pending k) else pending k in
        let k1 := Kernel (notes k) p in
        match notes k !! f with
        | Some n =>
            (None, Kernel (<[f:=Knote (if keeps then kn_flags n else stored_flags f (ch_flags ch))
                                 (ch_udata ch) (ch_param ch) (kn_active n || is_pending k1 f)]>
                             (notes k)) p)
        | None =>
            (None, Kernel (<[f:=Knote (stored_flags f (ch_flags ch)) (ch_udata ch) (ch_param ch)
                                 (is_pending k1 f)]> (notes k)) p)
        end
      else match notes k !! f with Some _ => (None, k) | None => (Some ENOENT, k) end
  end.

(** kevent with a change list in which every change has EV_RECEIPT: one answer per change;
    [None]: success. *)
(** Called at src/kqueue.rs:154. *)
Fixpoint kevent (keeps : bool) (k : kernel) (chs : list change) (faults : list (option errno))
  : list (option errno) * kernel :=
  match chs with
  | [] => ([], k)
  | ch :: r =>
      let (a, k1) := register keeps k ch (default None (head faults)) in
      let (l, k2) := kevent keeps k1 r (tail faults) in
      (a :: l, k2)
  end.

(** Something happens to a filter: it has ([Some flags]) or no longer has anything to report;
    [wake]: its note is put on the queue. *)
(** Not in /repo. *)
Definition happen (k : kernel) (f : kq_filter) (st : option N) (wake : bool) : kernel :=
  Kernel (match notes k !! f with
          | Some n => <[f:=Knote (kn_flags n) (kn_udata n) (kn_param n) (kn_active n || wake)]> (notes k)
          | None => notes k
          end)
         (partial_alter (fun _ => st) f (pending k)).

(** close(2) removes the filters of the descriptor. Not in /repo. *)
Definition close_fd (k : kernel) (fd : N) : kernel :=
  Kernel (delete (FRead fd) (delete (FWrite fd) (notes k)))
         (delete (FRead fd) (delete (FWrite fd) (pending k))).

(** kqueue_scan would report this filter. Not in /repo. *)
Definition reportable (k : kernel) (f : kq_filter) : bool :=
  match notes k !! f with Some n => kn_active n && is_pending k f | None => false end.

(** Reporting one filter: EV_ONESHOT removes it, EV_CLEAR takes it off the queue. Not in /repo. *)
Definition consume (k : kernel) (f : kq_filter) : kernel :=
  match notes k !! f with
  | None => k
  | Some n =>
      let cleared := intersects (kn_flags n) EV_ONESHOT || intersects (kn_flags n) EV_CLEAR in
      let p := if cleared && counting f then delete f (pending k) else pending k in
      if intersects (kn_flags n) EV_ONESHOT then Kernel (delete f (notes k)) p
      else if intersects (kn_flags n) EV_CLEAR
      then Kernel (<[f:=Knote (kn_flags n) (kn_udata n) (kn_param n) false]> (notes k)) p
      else k
  end.

(** A reported event. What kevent writes into the buffer of src/kqueue.rs:240. *)
Record report := Report { rp_filter : kq_filter; rp_flags : N; rp_udata : N }.
(** Not in /repo. *)
Definition report_of (k : kernel) (f : kq_filter) : report :=
  Report f (default 0%N (pending k !! f))
         (match notes k !! f with Some n => kn_udata n | None => 0%N end).

(** kevent without changes may report the filters [fs]: each at most once, all of them with
    something to report, not more than fit, and everything there is if there is room left.  The
    order is up to the kernel. *)
(** Not in /repo. *)
Definition may_report (k : kernel) (max : nat) (fs : list kq_filter) : bool :=
  bool_decide (NoDup fs) && forallb (reportable k) fs && bool_decide (length fs <= max) &&
  (bool_decide (length fs = max) ||
   bool_decide (map_Forall (fun f _ => reportable k f = true -> f ∈ fs) (notes k))).

(* ------------------------------------------------------------------ *)
(** ** The poller *)

(** src/kqueue.rs:34-47 *)
Inductive source := SFd (fd : N) | SSignal (n : N) | SPid (pid : N) | STimer (id : N).
Global Instance source_eq_dec : EqDecision source.
Proof. solve_decision. Defined.
Global Instance source_countable : Countable source.
Proof.
  refine (inj_countable'
    (fun f => match f with SFd x => (0, x) | SSignal x => (1, x) | SPid x => (2, x) | STimer x => (3, x) end)
    (fun p => match p with (0, x) => SFd x | (1, x) => SSignal x | (2, x) => SPid x | (_, x) => STimer x end) _).
  by intros [].
Defined.

(** Which notifier is compiled in. *)
Inductive notifier :=
| UserEvent          (* src/kqueue.rs:402-475, EVFILT_USER *)
| SocketPair (fd : N). (* src/kqueue.rs:482-561; [fd] is the read end *)

(** [keeps]: see [register].  [signal_ok]: the numbers rustix::process::Signal::from_raw knows.
    The condition for [noti] is at src/kqueue.rs:397, 477. *)
Record config := Config { keeps : bool; signal_ok : N -> bool; noti : notifier }.

(** src/os/kqueue.rs:145-287: the filters of the extension trait.  The parameter of a process
    filter is the operation it watches, that of a timer its timeout. *)
Inductive user_filter :=
| USignal (n : N)
| UProcess (pid ops : N)
| UTimer (id timeout : N).

(** src/os/kqueue.rs:165-167, 249-252, 282-284 [source_id]. *)
Definition filter_source (u : user_filter) : source :=
  match u with USignal n => SSignal n | UProcess p _ => SPid p | UTimer i _ => STimer i end.

(** src/os/kqueue.rs:150-162, 222-239, 272-281 [filter]; [None]: panics (line 155). *)
Definition filter_change (c : config) (u : user_filter) (flags key : N) : option change :=
  match u with
  | USignal n =>
      if signal_ok c n then Some (Change (FSignal n) (N.lor flags EV_RECEIPT) (key_to_u64 key) 0 false)
      else None
  | UProcess p ops => Some (Change (FProc p) (N.lor flags EV_RECEIPT) (key_to_u64 key) ops false)
  | UTimer i t => Some (Change (FTimer i) (N.lor flags EV_RECEIPT) (key_to_u64 key) t false)
  end.

(** src/kqueue.rs:113-136 *)
Definition fd_changes (fd : N) (e : event unit) (m : poll_mode) : list change :=
  [Change (FRead fd) (kqueue_change_flags (ev_readable e) m) (key_to_u64 (ev_key e)) 0 false;
   Change (FWrite fd) (kqueue_change_flags (ev_writable e) m) (key_to_u64 (ev_key e)) 0 false].

(** Calls. src/kqueue.rs:87, 95, 221; src/os/kqueue.rs:100, 106, 116. *)
Inductive call :=
| CAdd (fd : N) (e : event unit) (m : poll_mode)
| CModify (fd : N) (e : event unit) (m : poll_mode)
| CDelete (fd : N)
| CAddFilter (u : user_filter) (key : N) (m : poll_mode)
| CModifyFilter (u : user_filter) (key : N) (m : poll_mode)
| CDeleteFilter (u : user_filter).

(** src/kqueue.rs:88, 109, 225; src/os/kqueue.rs:102, 107, 123. *)
Definition call_source (cl : call) : source :=
  match cl with
  | CAdd fd _ _ | CModify fd _ _ | CDelete fd => SFd fd
  | CAddFilter u _ _ | CModifyFilter u _ _ | CDeleteFilter u => filter_source u
  end.

(** The change list a call submits; [None]: panics.
    src/kqueue.rs:126-136, 223; src/os/kqueue.rs:110, 118. *)
Definition call_changes (c : config) (cl : call) : option (list change) :=
  match cl with
  | CAdd fd e m | CModify fd e m => Some (fd_changes fd e m)
  | CDelete fd => Some (fd_changes fd (Ev 0%N false false tt) Oneshot)
  | CAddFilter u key m | CModifyFilter u key m =>
      (fun ch => [ch]) <$> filter_change c u (N.lor EV_ADD (mode_to_flags m)) key
  | CDeleteFilter u => (fun ch => [ch]) <$> filter_change c u EV_DELETE 0
  end.

(** src/kqueue.rs:157-170: a receipt, and the check of all receipts. *)
Record receipt := Receipt { rc_flags : N; rc_data : option errno }.
(** src/kqueue.rs:163-168. *)
Definition serious (r : receipt) : option errno :=
  if contains (rc_flags r) EV_ERROR then
    match rc_data r with
    | None | Some ENOENT | Some EPIPE => None
    | Some e => Some e
    end
  else None.
(** src/kqueue.rs:159-172. *)
Fixpoint check_receipts (l : list receipt) : res unit :=
  match l with
  | [] => Ok tt
  | r :: t => match serious r with Some e => Err (EOs e) | None => check_receipts t end
  end.
(** Every receipt has EV_ERROR (kevent(2)); checked at src/kqueue.rs:163. *)
Definition receipts (l : list (option errno)) : list receipt := map (Receipt EV_ERROR) l.

(** Program counters of the calls. *)
Inductive pc :=
| Idle
| PInsert (cl : call)               (* src/kqueue.rs:177-189 *)
| PHas (cl : call)                  (* src/kqueue.rs:192-204 *)
| PSubmit (cl : call)               (* src/kqueue.rs:154 *)
| PRemove (cl : call)               (* src/kqueue.rs:207-218 *)
| PRet (cl : call) (r : res unit)
| NSend                             (* src/kqueue.rs:441-454, 543-548 *)
| NRet.

(** The thread in wait(): src/kqueue.rs:229-252. *)
Inductive wpc :=
| Out
| WPoll (sleep : bool) (max : nat)    (* line 240; [sleep]: without timeout *)
| WDrain                              (* line 531 *)
| WHas                                (* lines 534-538: modify *)
| WSubmit
| WFail (e : io_error)
| WRet.

(** The history that the statements are about; not in /repo. *)
Inductive obs :=
| Called (i : nat) (cl : call)
| Returned (i : nat) (cl : call) (r : res unit)
| Answered (i : nat) (cl : call) (a : list (option errno))   (* kevent processed the changes *)
| Aborted (i : nat) (cl : call) (a : list (option errno)) (e : errno)
    (* kevent failed after processing the first changes *)
| Happened (f : kq_filter) (st : option N) (wake : bool)
| Closed (fd : N)
| Notified
| WaitBegun
| Reported (b : list (kq_filter * event unit))
| Rearmed (a : list (option errno))     (* what kevent answered the re-registration *)
| WaitOk
| WaitErr (e : io_error).

(** src/kqueue.rs:16-30, the kernel and the threads. *)
Record state := State {
  sources : gset source; kern : kernel; wait : wpc; threads : list pc; log : list obs
}.

(** Bookkeeping of the model: a thread moves. No code of its own. *)
Definition set_pc (s : state) (i : nat) (p : pc) : state :=
  State (sources s) (kern s) (wait s) (<[i:=p]> (threads s)) (log s).
(** Bookkeeping of the model: the set of sources changes. No code of its own. *)
Definition set_sources (s : state) (x : gset source) : state :=
  State x (kern s) (wait s) (threads s) (log s).
(** Bookkeeping of the model: the kernel changes. No code of its own. *)
Definition set_kern (s : state) (k : kernel) : state :=
  State (sources s) k (wait s) (threads s) (log s).
(** Bookkeeping of the model: the waiting thread moves. No code of its own. *)
Definition set_wait (s : state) (w : wpc) : state :=
  State (sources s) (kern s) w (threads s) (log s).
(** Bookkeeping of the model: the history grows. No code of its own. *)
Definition emit (s : state) (o : obs) : state :=
  State (sources s) (kern s) (wait s) (threads s) (log s ++ [o]).

(** src/kqueue.rs:423-431, 443-451: the change of EVFILT_USER; 517-526: that of the socket pair. *)
Definition user_register : change :=
  Change (FUser 0) (N.lor (N.lor EV_ADD EV_RECEIPT) EV_CLEAR) (key_to_u64 NOTIFY_KEY) 0 false.
(** src/kqueue.rs:443-451. *)
Definition user_trigger : change :=
  Change (FUser 0) (N.lor EV_ADD EV_RECEIPT) (key_to_u64 NOTIFY_KEY) 0 true.
(** src/kqueue.rs:517-526. *)
Definition pair_changes (fd : N) : list change := fd_changes fd (Ev NOTIFY_KEY true false tt) Oneshot.

(** src/kqueue.rs:51-71 [new], with no failure, and [n] threads. *)
Definition init (c : config) (n : nat) : state :=
  let k0 := Kernel ∅ ∅ in
  match noti c with
  | UserEvent => State ∅ (kevent (keeps c) k0 [user_register] []).2 Out (replicate n Idle) []
  | SocketPair fd => State {[SFd fd]} (kevent (keeps c) k0 (pair_changes fd) []).2 Out (replicate n Idle) []
  end.

(** What a thread does next. The lines of src/kqueue.rs are those in [pc]. *)
Inductive act :=
| Call (cl : call)
| CallNotify
| Go                                        (* the next access *)
| Kernel_ok (faults : list (option errno))  (* kevent processes the changes, refusing some *)
| Kernel_err (n : nat) (faults : list (option errno)) (e : errno).
    (* kevent fails with [e] after processing [n] changes *)

(** Steps of the threads, of the thread in src/kqueue.rs:229-252, and of the outside world. *)
Inductive label :=
| LThread (i : nat) (a : act)
| LHappen (f : kq_filter) (st : option N) (wake : bool)
| LClose (fd : N)
| LWait (sleep : bool) (max : nat)
| LReport (fs : list kq_filter)             (* kevent reports these filters *)
| LWaitFail (e : errno)                     (* kevent fails *)
| LWaitGo (faults : list (option errno))    (* the next step of wait after kevent *).

(** src/kqueue.rs:312-326 on a 64-bit target. *)
Definition to_event (r : report) : kq_filter * event unit :=
  (rp_filter r, kqueue_to_event 64 (rp_udata r) (rp_filter r) (rp_flags r)).

(** src/kqueue.rs:87-92, 95, 221; src/os/kqueue.rs:98-125: where a call starts. *)
Definition entry (c : config) (cl : call) : pc :=
  match cl with
  | CAdd _ _ _ | CAddFilter _ _ _ => PInsert cl
  | CModify _ _ _ | CModifyFilter _ _ _ | CDelete _ => PHas cl
  | CDeleteFilter _ =>
      match call_changes c cl with Some _ => PSubmit cl | None => PRet cl Panic end
  end.
(** src/kqueue.rs:221 and src/os/kqueue.rs:116. *)
Definition deletes (cl : call) : bool :=
  match cl with CDelete _ | CDeleteFilter _ => true | _ => false end.
(** src/kqueue.rs:172, 223-225; src/os/kqueue.rs:121-123. *)
Definition after_submit (cl : call) (r : res unit) : pc :=
  match r with Ok _ => if deletes cl then PRemove cl else PRet cl r | _ => PRet cl r end.

(** src/kqueue.rs:87-227, 255-264, as in [pc]. *)
Definition thread_step (c : config) (s : state) (i : nat) (p : pc) (a : act) : option state :=
  match p, a with
  | Idle, Call cl => Some (emit (set_pc s i (entry c cl)) (Called i cl))
  | PInsert cl, Go =>
      if decide (call_source cl ∈ sources s)
      then Some (set_pc s i (PRet cl (Err (ESimple KAlreadyExists))))
      else Some (set_pc (set_sources s ({[call_source cl]} ∪ sources s)) i (PHas cl))
  | PHas cl, Go =>
      if decide (call_source cl ∈ sources s)
      then Some (set_pc s i (match call_changes c cl with
                             | Some _ => PSubmit cl | None => PRet cl Panic end))
      else Some (set_pc s i (PRet cl (Err (ESimple KNotFound))))
  | PSubmit cl, Kernel_ok faults =>
      let (a, k) := kevent (keeps c) (kern s) (default [] (call_changes c cl)) faults in
      Some (emit (set_pc (set_kern s k) i (after_submit cl (check_receipts (receipts a))))
              (Answered i cl a))
  | PSubmit cl, Kernel_err n faults e =>
      let (a, k) := kevent (keeps c) (kern s) (take n (default [] (call_changes c cl))) faults in
      Some (emit (set_pc (set_kern s k) i (PRet cl (Err (EOs e)))) (Aborted i cl a e))
  | PRemove cl, Go =>
      Some (set_pc (set_sources s (sources s ∖ {[call_source cl]})) i
              (PRet cl (if decide (call_source cl ∈ sources s) then Ok tt else Err (ESimple KNotFound))))
  | PRet cl r, Go => Some (emit (set_pc s i Idle) (Returned i cl r))
  | Idle, CallNotify => Some (set_pc s i NSend)
  | NSend, Kernel_ok _ =>
      match noti c with
      | UserEvent =>
          Some (emit (set_pc (set_kern s (kevent (keeps c) (kern s) [user_trigger] []).2) i NRet) Notified)
      | SocketPair fd => Some (emit (set_pc (set_kern s (happen (kern s) (FRead fd) (Some 0%N) true)) i NRet) Notified)
      end
  | NSend, Go => Some (set_pc s i NRet)   (* the write or the kevent fails; ignored, line 262 *)
  | NRet, Go => Some (set_pc s i Idle)
  | _, _ => None
  end.

(** src/kqueue.rs:229-252, 529-539, as in [wpc]. *)
Definition wait_step (c : config) (s : state) (faults : list (option errno)) : option state :=
  match wait s with
  | WDrain =>
      match noti c with
      | SocketPair fd => Some (set_wait (set_kern s (happen (kern s) (FRead fd) None false)) WHas)
      | UserEvent => None
      end
  | WHas =>
      match noti c with
      | SocketPair fd =>
          if decide (SFd fd ∈ sources s) then Some (set_wait s WSubmit)
          else Some (emit (set_wait s Out) (WaitErr (ESimple KNotFound)))
      | UserEvent => None
      end
  | WSubmit =>
      match noti c with
      | SocketPair fd =>
          let (a, k) := kevent (keeps c) (kern s) (pair_changes fd) faults in
          match check_receipts (receipts a) with
          | Err e => Some (emit (set_wait (set_kern s k) (WFail e)) (Rearmed a))
          | _ => Some (emit (set_wait (set_kern s k) WRet) (Rearmed a))
          end
      | UserEvent => None
      end
  | WFail e => Some (emit (set_wait s Out) (WaitErr e))
  | WRet => Some (emit (set_wait s Out) WaitOk)
  | _ => None
  end.

(** src/kqueue.rs:87-264, as in [pc] and [wpc]. *)
Definition step (c : config) (s : state) (l : label) : option state :=
  match l with
  | LThread i a => match threads s !! i with Some p => thread_step c s i p a | None => None end
  | LHappen f st wake => Some (emit (set_kern s (happen (kern s) f st wake)) (Happened f st wake))
  | LClose fd => Some (emit (set_kern s (close_fd (kern s) fd)) (Closed fd))
  | LWait sleep max =>
      match wait s with
      | Out => Some (emit (set_wait s (WPoll sleep max)) WaitBegun)
      | _ => None
      end
  | LReport fs =>
      match wait s with
      | WPoll sleep max =>
          if may_report (kern s) max fs && negb (sleep && bool_decide (fs = []))
          then Some (emit (set_wait (set_kern s (foldl consume (kern s) fs))
                             (match noti c with UserEvent => WRet | SocketPair _ => WDrain end))
                       (Reported (map (fun f => to_event (report_of (kern s) f)) fs)))
          else None
      | _ => None
      end
  | LWaitFail e =>
      match wait s, e with
      | WPoll _ _, EINTR => Some s    (* src/lib.rs:744 *)
      | WPoll _ _, _ => Some (emit (set_wait s Out) (WaitErr (EOs e)))
      | _, _ => None
      end
  | LWaitGo faults => wait_step c s faults
  end.

(** A sequence of steps; not in /repo. *)
Fixpoint run (c : config) (s : state) (ls : list label) : option state :=
  match ls with
  | [] => Some s
  | l :: r => match step c s l with Some s' => run c s' r | None => None end
  end.
