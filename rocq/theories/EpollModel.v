(** Model of src/epoll.rs on top of a Linux-like epoll instance: registrations, the kernel's
    ready list, the timer and notifier descriptors, and the system calls of wait().  One step is
    one system call (of any thread) or one event in the outside world, so the histories of this
    model include all interleavings of any number of threads; src/lib.rs:735 lets only one
    thread at a time be in wait(). *)
From stdpp Require Import prelude list gmap.
From Verif Require Import Bits Types EventModel.
Local Open Scope nat_scope.

(* ------------------------------------------------------------------ *)
(** ** The kernel (fs/eventpoll.c), which is not part of /repo: trusted *)

(** EP_PRIVATE_BITS: EPOLLEXCLUSIVE, EPOLLWAKEUP, EPOLLONESHOT, EPOLLET. Not in /repo. *)
Definition EP_PRIVATE : N := 4026531840.

(** One registration: events word and data. What epoll_ctl is given at src/epoll.rs:113-118, 133-138. *)
Record item := Item { it_events : N; it_data : N }.

(** An epoll instance: registrations, ready list, and the readiness of all open files.
    Simplification: a registration is identified by its descriptor alone, so duplicated
    descriptors are not modelled. *)
(** Not in /repo. *)
Record kernel := Kernel { items : gmap Z item; rdl : list Z; masks : gmap Z N }.

(** The readiness of a file. Not in /repo. *)
Definition ready (k : kernel) (fd : Z) : N := default 0%N (masks k !! fd).

(** ep_item_poll: what would be reported for the registration. Not in /repo. *)
Definition item_poll (k : kernel) (fd : Z) (it : item) : N := N.land (ready k fd) (it_events it).

(** Append to the ready list unless already on it. Not in /repo. *)
Definition enqueue (l : list Z) (fd : Z) : list Z := if decide (fd ∈ l) then l else l ++ [fd].

(** EPOLL_CTL_ADD and EPOLL_CTL_MOD add EPOLLERR and EPOLLHUP to the events. Not in /repo. *)
Definition ctl_word (ev : N) : N := N.lor ev (N.lor EPOLLERR EPOLLHUP).

(** ep_insert, ep_modify: store the registration, queue it if it is ready. Not in /repo. *)
Definition install (k : kernel) (fd : Z) (ev data : N) : kernel :=
  let it := Item (ctl_word ev) data in
  Kernel (<[fd:=it]> (items k))
         (if is_empty (item_poll k fd it) then rdl k else enqueue (rdl k) fd)
         (masks k).

(** epoll_ctl; [f]: the call fails for another reason (no memory, bad descriptor, ...). Called at src/epoll.rs:113-118. *)
Definition ctl_add (k : kernel) (fd : Z) (ev data : N) (f : option errno) : res unit * kernel :=
  match f with
  | Some e => (Err (EOs e), k)
  | None =>
      match items k !! fd with
      | Some _ => (Err (EOs EEXIST), k)
      | None => (Ok tt, install k fd ev data)
      end
  end.
(** epoll_ctl with EPOLL_CTL_MOD, called at src/epoll.rs:133-138. *)
Definition ctl_mod (k : kernel) (fd : Z) (ev data : N) (f : option errno) : res unit * kernel :=
  match f with
  | Some e => (Err (EOs e), k)
  | None =>
      match items k !! fd with
      | None => (Err (EOs ENOENT), k)
      | Some _ => (Ok tt, install k fd ev data)
      end
  end.
(** The registration is gone, also from the ready list. Not in /repo. *)
Definition forget (k : kernel) (fd : Z) : kernel :=
  Kernel (delete fd (items k)) (List.filter (fun x => bool_decide (x <> fd)) (rdl k)) (masks k).
(** epoll_ctl with EPOLL_CTL_DEL, called at src/epoll.rs:152. *)
Definition ctl_del (k : kernel) (fd : Z) (f : option errno) : res unit * kernel :=
  match f with
  | Some e => (Err (EOs e), k)
  | None =>
      match items k !! fd with
      | None => (Err (EOs ENOENT), k)
      | Some _ => (Ok tt, forget k fd)
      end
  end.

(** The registration has been disabled by EPOLLONESHOT. Not in /repo. *)
Definition disabled (it : item) : bool := is_empty (N.ldiff (it_events it) EP_PRIVATE).

(** ep_poll_callback: the file wakes its pollers because of the events [key]. Not in /repo. *)
Definition wake (k : kernel) (fd : Z) (key : N) : kernel :=
  match items k !! fd with
  | None => k
  | Some it =>
      if disabled it then k
      else if is_empty (N.land key (it_events it)) then k
      else Kernel (items k) (enqueue (rdl k) fd) (masks k)
  end.

(** A file becomes, or is no longer, ready. Not in /repo. *)
Definition set_ready (k : kernel) (fd : Z) (m : N) : kernel :=
  Kernel (items k) (rdl k) (<[fd:=m]> (masks k)).

(** One reported event: the registration's descriptor (not visible to the program), the flags
    and the data. *)
(** What epoll_wait writes into the buffer of src/epoll.rs:214. *)
Record report := Report { rp_fd : Z; rp_flags : N; rp_data : N }.

(** ep_send_events: walk the ready list, report at most [max] registrations; what is left over,
    what goes back to the end of the list, and the registrations after disabling the one-shot
    ones. *)
(** Not in /repo. *)
Fixpoint send (k : kernel) (l : list Z) (max : nat) (its : gmap Z item)
  : list report * list Z * list Z * gmap Z item :=
  match l with
  | [] => ([], [], [], its)
  | fd :: r =>
      match max with
      | 0 => ([], l, [], its)
      | S m =>
          match its !! fd with
          | None => send k r max its
          | Some it =>
              if is_empty (item_poll k fd it) then send k r max its
              else
                let its' := if intersects (it_events it) EPOLLONESHOT
                            then <[fd := Item (N.land (it_events it) EP_PRIVATE) (it_data it)]> its
                            else its in
                let back := negb (intersects (it_events it) EPOLLONESHOT)
                            && negb (intersects (it_events it) EPOLLET) in
                let '(b, rest, req, its'') := send k r m its' in
                (Report fd (item_poll k fd it) (it_data it) :: b, rest,
                 (if back then fd :: req else req), its'')
          end
      end
  end.
(** epoll_wait, called at src/epoll.rs:214. *)
Definition epoll_wait (k : kernel) (max : nat) : list report * kernel :=
  let '(b, rest, req, its) := send k (rdl k) max (items k) in
  (b, Kernel its (rest ++ req) (masks k)).

(* ------------------------------------------------------------------ *)
(** ** The poller *)

(** src/epoll.rs:24-37: the notifier's descriptor (eventfd, or the read end of a pipe) and the
    timer's, if timerfd_create succeeded (lines 49-53). *)
Record config := Config { notifier : Z; timer : option Z }.

(** src/lib.rs [Event::readable], [Event::none] for the poller's own descriptors
    (src/epoll.rs:67, 74, 189, 226). *)
Definition own_readable : event N := Ev NOTIFY_KEY true false 0%N.
(** src/epoll.rs:67. *)
Definition own_none : event N := Ev NOTIFY_KEY false false 0%N.

(** src/epoll.rs:104-155 *)
Definition sys_add (k : kernel) (fd : Z) (e : event N) (m : poll_mode) (f : option errno) :=
  ctl_add k fd (epoll_interest e m) (key_to_u64 (ev_key e)) f.
(** src/epoll.rs:124-141. *)
Definition sys_modify (k : kernel) (fd : Z) (e : event N) (m : poll_mode) (f : option errno) :=
  ctl_mod k fd (epoll_interest e m) (key_to_u64 (ev_key e)) f.
(** src/epoll.rs:144-155. *)
Definition sys_delete (k : kernel) (fd : Z) (f : option errno) := ctl_del k fd f.

(** The waiting thread: src/epoll.rs:159-229. *)
Inductive wpc :=
| Out
| WSet (t : option bool) (max : nat)     (* line 184, timerfd_settime *)
| WTimer (t : option bool) (max : nat)   (* lines 187-191, re-arming the timer *)
| WPoll (t : option bool) (max : nat)    (* line 214, epoll_wait *)
| WClear (b : list report)               (* line 222 *)
| WRearm (b : list report)               (* lines 223-227 *).

(** Calls and returns, and what the outside world did; oldest first. The history that the statements are about; not in /repo. *)
Inductive obs :=
| AddRet (fd : Z) (e : event N) (m : poll_mode) (r : res unit)
| ModifyRet (fd : Z) (e : event N) (m : poll_mode) (r : res unit)
| DeleteRet (fd : Z) (r : res unit)
| Closed (fd : Z)
| Happened (fd : Z) (mask key : N)
| Notified
| Expired
| WaitBegun (t : option bool)
| TimerSet (t : option bool)             (* timerfd_settime returned *)
| Reported (b : list (Z * event N))     (* epoll_wait returned these *)
| WaitOk
| WaitErr (e : io_error).

(** [clock]: the timer is running.  [signalled]: the notifier has been written to and not read.
    The timeout is abstracted to: none, zero ([Some false]) or positive ([Some true]); the
    conversion of durations is in [TimeModel]. *)
(** src/epoll.rs:24-37 and the kernel. *)
Record state := State {
  kern : kernel; signalled : bool; clock : bool; wait : wpc; log : list obs
}.

(** src/epoll.rs:41-86 [new]; failures of its system calls are not modelled here. *)
Definition init (c : config) : state :=
  let k0 := Kernel ∅ [] ∅ in
  let k1 := match timer c with
            | Some t => (sys_add k0 t own_none Oneshot None).2
            | None => k0
            end in
  let k2 := (sys_add k1 (notifier c) own_readable Oneshot None).2 in
  State k2 false false Out [].

(** Bookkeeping of the model: the kernel changes. No code of its own. *)
Definition set_kern (s : state) (k : kernel) : state :=
  State k (signalled s) (clock s) (wait s) (log s).
(** Bookkeeping of the model: the waiting thread moves. No code of its own. *)
Definition set_wait (s : state) (w : wpc) : state :=
  State (kern s) (signalled s) (clock s) w (log s).
(** Bookkeeping of the model: the history grows. No code of its own. *)
Definition emit (s : state) (o : obs) : state :=
  State (kern s) (signalled s) (clock s) (wait s) (log s ++ [o]).

(** The steps of the system; those of the program are src/epoll.rs:104-229, 459-489. *)
Inductive label :=
| LAdd (fd : Z) (e : event N) (m : poll_mode) (f : option errno)
| LModify (fd : Z) (e : event N) (m : poll_mode) (f : option errno)
| LDelete (fd : Z) (f : option errno)
| LClose (fd : Z)                     (* the program closes a descriptor *)
| LHappen (fd : Z) (mask key : N)     (* a file's readiness becomes [mask], pollers woken with [key] *)
| LNotify                             (* src/epoll.rs:459-472 *)
| LExpire                             (* the timer runs out *)
| LWait (t : option bool) (max : nat) (* a thread enters wait() *)
| LGo                                 (* its next system call succeeds *)
| LFail (e : errno).                  (* its next system call fails *)

(** src/epoll.rs:323-333 on a 64-bit target. *)
Definition to_event (r : report) : Z * event N := (rp_fd r, epoll_to_event 64 (rp_data r) (rp_flags r)).

(** src/epoll.rs:200-213: the timeout given to epoll_wait is -1, so it returns only with an event
    or a signal.  (Without a timerfd a positive timeout is given to the kernel, which may return
    with no event.) *)
Definition sleeps (c : config) (t : option bool) : bool :=
  match t, timer c with
  | Some false, _ => false
  | Some true, None => false
  | _, _ => true
  end.

(** src/epoll.rs:104-229, 459-489, as in [label] and [wpc]. *)
Definition step (c : config) (s : state) (l : label) : option state :=
  match l with
  | LAdd fd e m f =>
      let (r, k) := sys_add (kern s) fd e m f in Some (emit (set_kern s k) (AddRet fd e m r))
  | LModify fd e m f =>
      let (r, k) := sys_modify (kern s) fd e m f in Some (emit (set_kern s k) (ModifyRet fd e m r))
  | LDelete fd f =>
      let (r, k) := sys_delete (kern s) fd f in Some (emit (set_kern s k) (DeleteRet fd r))
  | LClose fd =>
      (* the kernel drops the registration with the last descriptor of the file *)
      Some (emit (set_kern s (set_ready (forget (kern s) fd) fd 0)) (Closed fd))
  | LHappen fd m key => Some (emit (set_kern s (wake (set_ready (kern s) fd m) fd key)) (Happened fd m key))
  | LNotify =>
      (* the notifier becomes readable; EPOLLOUT of an eventfd is left out, nobody asks for it *)
      Some (emit (State (wake (set_ready (kern s) (notifier c) EPOLLIN) (notifier c) EPOLLIN)
                    true (clock s) (wait s) (log s)) Notified)
  | LExpire =>
      match timer c with
      | Some t => if clock s
                  then Some (emit (State (wake (set_ready (kern s) t EPOLLIN) t EPOLLIN)
                                (signalled s) false (wait s) (log s)) Expired)
                  else None
      | None => None
      end
  | LWait t max =>
      match wait s with
      | Out => Some (emit (set_wait s (match timer c with Some _ => WSet t max | None => WPoll t max end))
                      (WaitBegun t))
      | _ => None
      end
  | LGo =>
      match wait s with
      | Out => None
      | WSet t max =>
          (* lines 170-184: a zero it_value stops the timer; setting it clears its readiness *)
          match timer c with
          | Some fd => Some (State (set_ready (kern s) fd 0) (signalled s)
                               (match t with Some true => true | _ => false end)
                               (WTimer t max) (log s ++ [TimerSet t]))
          | None => None
          end
      | WTimer t max =>
          match timer c with
          | Some fd =>
              let (r, k) := sys_modify (kern s) fd own_readable Oneshot None in
              match r with
              | Ok _ => Some (set_wait (set_kern s k) (WPoll t max))
              | Err e => Some (emit (set_wait (set_kern s k) Out) (WaitErr e))
              | Panic => None
              end
          | None => None
          end
      | WPoll t max =>
          let (b, k) := epoll_wait (kern s) max in
          if sleeps c t && bool_decide (length b = 0) then None else
          Some (emit (set_wait (set_kern s k) (WClear b)) (Reported (map to_event b)))
      | WClear b =>
          (* lines 475-489: read until it is empty *)
          Some (set_wait (State (set_ready (kern s) (notifier c) 0) false (clock s) (wait s) (log s))
                  (WRearm b))
      | WRearm b =>
          let (r, k) := sys_modify (kern s) (notifier c) own_readable Oneshot None in
          match r with
          | Ok _ => Some (emit (set_wait (set_kern s k) Out) WaitOk)
          | Err e => Some (emit (set_wait (set_kern s k) Out) (WaitErr e))
          | Panic => None
          end
      end
  | LFail e =>
      match wait s with
      | WSet _ _ | WTimer _ _ | WPoll _ _ | WRearm _ =>
          Some (emit (set_wait s Out) (WaitErr (EOs e)))
      | _ => None
      end
  end.

(** A sequence of steps; not in /repo. *)
Fixpoint run (c : config) (s : state) (ls : list label) : option state :=
  match ls with
  | [] => Some s
  | l :: r => match step c s l with Some s' => run c s' r | None => None end
  end.
