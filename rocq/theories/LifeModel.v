(** Making and dropping a poller: which descriptors are opened and closed, and what is registered.

    Every system call that can fail consumes one answer of a script, which says whether it is refused and, if
    it opens descriptors, which numbers they get.  Theorems hold for every script.  A Rust value that goes out of
    scope closes the descriptors it owns ([OwnedFd], [UnixStream]): each error path below closes what the function
    owns at that point, in reverse order of declaration. *)
From stdpp Require Import prelude list gmap.
From Verif Require Import Types.
Local Open Scope nat_scope.

(** Kinds of descriptors.  [KUser] is any descriptor of the program. The lines are at the functions that open them. *)
Inductive fkind := KEpoll | KEventfd | KTimerfd | KPipeRead | KPipeWrite | KKqueue | KStreamRead | KStreamWrite | KPort | KAfd | KIocp | KUser.
(** Descriptors of the process; not in /repo. *)
Record desc := Desc { d_kind : fkind; d_cloexec : bool; d_nonblock : bool }.

(** The system calls that [new] and [drop] make and that can be refused.
    The lines are at the functions below: src/epoll.rs:41-86, 257-272, 424-458, src/kqueue.rs:51-71 and so on. *)
Inductive kcall :=
| EpollCreate | Eventfd | TimerfdCreate | Pipe2 | Pipe | Getfd | Setfd | Getfl | Setfl | CtlAdd | CtlDel
| Kqueue | Kevent | Socketpair | SetNonblocking | PortCreate | LoadNtdll | OpenAfd.

(** What a system call answers; not in /repo. *)
Record answer := Ans { an_err : option errno; an_fst : nat; an_snd : nat }.

(** An entry of a polling instance: the watched descriptor, or EVFILT_USER. *)
Notation entry := (nat * option nat)%type.
(** The process; not in /repo. *)
Record world := World {
  opened : gmap nat desc;                          (* open descriptors of the process *)
  regs : gmap entry (event unit * poll_mode);      (* what the polling instances watch *)
  script : nat -> answer; pos : nat;
  done : list (kcall * option errno);              (* system calls made, and their errors *)
  closes : list (nat * bool)                       (* descriptors closed, and whether they were open *)
}.
(** Bookkeeping of the model: descriptors are opened or closed. No code of its own. *)
Definition set_opened (w : world) (m : gmap nat desc) : world := World m (regs w) (script w) (pos w) (done w) (closes w).
(** Bookkeeping of the model: registrations change. No code of its own. *)
Definition set_regs (w : world) (m : gmap entry (event unit * poll_mode)) : world := World (opened w) m (script w) (pos w) (done w) (closes w).
(** The next answer is used. Bookkeeping of the model: the script goes on. No code of its own. *)
Definition answered (w : world) (c : kcall) (e : option errno) : world :=
  World (opened w) (regs w) (script w) (S (pos w)) (done w ++ [(c, e)]) (closes w).
(** Bookkeeping of the model: the next answer. No code of its own. *)
Definition now (w : world) : answer := script w (pos w).

(** An answer that names a descriptor in use counts as EMFILE. Not in /repo. *)
Definition EMFILE : errno := EOTHER 24.

(** A call that opens one descriptor. A system call; not in /repo. *)
Definition sys_open (c : kcall) (d : desc) (w : world) : res nat * world :=
  match an_err (now w) with
  | Some e => (Err (EOs e), answered w c (Some e))
  | None =>
      let n := an_fst (now w) in
      match opened w !! n with
      | Some _ => (Err (EOs EMFILE), answered w c (Some EMFILE))
      | None => (Ok n, set_opened (answered w c None) (<[n := d]> (opened w)))
      end
  end.
(** A call that opens two. A system call (pipe, socketpair); not in /repo. *)
Definition sys_open2 (c : kcall) (d1 d2 : desc) (w : world) : res (nat * nat) * world :=
  match an_err (now w) with
  | Some e => (Err (EOs e), answered w c (Some e))
  | None =>
      let n := an_fst (now w) in
      let m := an_snd (now w) in
      match opened w !! n, opened w !! m with
      | None, None =>
          if decide (n = m) then (Err (EOs EMFILE), answered w c (Some EMFILE))
          else (Ok (n, m), set_opened (answered w c None) (<[n := d1]> (<[m := d2]> (opened w))))
      | _, _ => (Err (EOs EMFILE), answered w c (Some EMFILE))
      end
  end.
(** A call that only changes something if it is not refused. A system call; not in /repo. *)
Definition sys_do (c : kcall) (f : world -> world) (w : world) : res unit * world :=
  match an_err (now w) with
  | Some e => (Err (EOs e), answered w c (Some e))
  | None => (Ok tt, f (answered w c None))
  end.
(** Bookkeeping of the model: the flags of a descriptor change. No code of its own. *)
Definition change_desc (n : nat) (f : desc -> desc) (w : world) : world := set_opened w (alter f n (opened w)).
(** FD_CLOEXEC is set; see [set_cloexec] for the lines in src/epoll.rs. *)
Definition with_cloexec (d : desc) : desc := Desc (d_kind d) true (d_nonblock d).
(** O_NONBLOCK is set; see [set_nonblock] for the lines in src/epoll.rs. *)
Definition with_nonblock (d : desc) : desc := Desc (d_kind d) (d_cloexec d) true.

(** close(2): the descriptor is free again, and no instance watches it; an instance that is closed watches nothing.
    Simplification: nobody has duplicated the descriptor. *)
(** Not in /repo. *)
Definition watches (n : nat) (x : entry) : Prop := x.1 = n \/ x.2 = Some n.
Global Instance watches_dec n x : Decision (watches n x).
Proof. unfold watches. apply _. Defined.
(** Not in /repo. *)
Definition sys_close (n : nat) (w : world) : world :=
  World (delete n (opened w)) (filter (fun x => ~ watches n x.1) (regs w)) (script w) (pos w) (done w)
    (closes w ++ [(n, bool_decide (is_Some (opened w !! n)))]).
(** Several are closed, in order: the fields of a struct, as the language says; not in /repo. *)
Definition sys_closes (l : list nat) (w : world) : world := fold_left (fun w n => sys_close n w) l w.

(** The operator `?` in a function that owns [l]. For example src/epoll.rs:45, 48. *)
Definition try {A B} (m : world -> res A * world) (l : list nat) (k : A -> world -> res B * world) (w : world) : res B * world :=
  match m w with
  | (Ok a, w') => k a w'
  | (Err e, w') => (Err e, sys_closes l w')
  | (Panic, w') => (Panic, w')
  end.
(** `let _ = …` and `.ok()`. For example src/epoll.rs:268, 270 and src/kqueue.rs:287. *)
Definition ignore {A} (m : world -> res A * world) (w : world) : world := (m w).2.

(** fcntl_setfd(fd, fcntl_getfd(fd)? | CLOEXEC). src/epoll.rs:448-449, src/poll.rs:663-664, src/port.rs:24-25. *)
Definition set_cloexec (n : nat) (l : list nat) {B} (k : world -> res B * world) : world -> res B * world :=
  try (sys_do Getfd id) l (fun _ => try (sys_do Setfd (change_desc n with_cloexec)) l (fun _ => k)).
(** fcntl_setfl(fd, fcntl_getfl(fd)? | NONBLOCK). src/epoll.rs:453, src/poll.rs:675. *)
Definition set_nonblock (n : nat) (l : list nat) {B} (k : world -> res B * world) : world -> res B * world :=
  try (sys_do Getfl id) l (fun _ => try (sys_do Setfl (change_desc n with_nonblock)) l (fun _ => k)).

(** Which code is compiled in: epoll on Linux, epoll on Redox (no eventfd, no timerfd), epoll with
    `polling_test_epoll_pipe`, kqueue with EVFILT_USER, kqueue with a socket pair, event ports, poll with a pipe,
    poll on Haiku, poll with an eventfd (ESP-IDF, Hermit), completion ports. *)
(** The conditions are at src/lib.rs:77-120 (see CfgModel), src/epoll.rs:409, 426-444, src/kqueue.rs:397, 477, src/poll.rs:630, 668-671, 739. *)
Inductive flavour := Linux | Redox | LinuxPipe | KqueueUser | KqueuePair | Ports | PollPipe | PollHaiku | PollEventfd | Iocp.

(** src/epoll.rs:407-420, src/poll.rs:646-656, 752-760. *)
Inductive notifier := NEventfd (n : nat) | NPipe (r w : nat).
(** What is registered, read or polled of a notifier.  src/epoll.rs:461-470 [as_fd], src/poll.rs [fd]. *)
Definition notifier_fd (x : notifier) : nat := match x with NEventfd n => n | NPipe r _ => r end.
(** The fields in src/epoll.rs:407-420, src/poll.rs:646-656. *)
Definition notifier_fds (x : notifier) : list nat := match x with NEventfd n => [n] | NPipe r w => [r; w] end.

Inductive poller :=
| PEpoll (ep : nat) (no : notifier) (timer : option nat)   (* src/epoll.rs:24-37 *)
| PKqueue (kq : nat) (st : option (nat * nat))           (* src/kqueue.rs:14-30 and its two [Notify] *)
| PPort (port : nat)                                       (* src/port.rs:14-18 *)
| PPoll (no : notifier)                                    (* src/poll.rs:22-41 *)
| PIocp (port : nat).                                      (* src/iocp/mod.rs:71-114, before anything is registered *)

(** ** Pipes *)

(** The closure with pipe() in src/epoll.rs:446-451 and src/poll.rs:661-666. *)
Definition fallback_pipe : world -> res (nat * nat) * world :=
  try (sys_open2 Pipe (Desc KPipeRead false false) (Desc KPipeWrite false false)) [] (fun '(r, w) =>
  set_cloexec r [w; r] (set_cloexec w [w; r] (fun s => (Ok (r, w), s)))).
(** pipe_with(CLOEXEC).or_else(fallback). src/epoll.rs:446-451, src/poll.rs:661-669. *)
Definition pipe_or_fallback (w : world) : res (nat * nat) * world :=
  match sys_open2 Pipe2 (Desc KPipeRead true false) (Desc KPipeWrite true false) w with
  | (Err _, w') => fallback_pipe w'
  | x => x
  end.
(** src/epoll.rs:446-457 and src/poll.rs:660-681: the read end becomes non-blocking. *)
Definition pipe_notifier (m : world -> res (nat * nat) * world) : world -> res notifier * world :=
  try m [] (fun '(r, w) => set_nonblock r [w; r] (fun s => (Ok (NPipe r w), s))).

(** ** epoll *)

(** The argument at src/epoll.rs:68. *)
Definition none_event : event unit := Ev NOTIFY_KEY false false tt.
(** The argument at src/epoll.rs:75 and src/kqueue.rs:522. *)
Definition readable_event : event unit := Ev NOTIFY_KEY true false tt.

(** src/epoll.rs:424-458 [Notifier::new]. *)
Definition epoll_notifier (f : flavour) (w : world) : res notifier * world :=
  match f with
  | Linux =>
      match sys_open Eventfd (Desc KEventfd true true) w with
      | (Ok n, w') => (Ok (NEventfd n), w')
      | (_, w') => pipe_notifier pipe_or_fallback w'
      end
  | _ => pipe_notifier pipe_or_fallback w
  end.
(** src/epoll.rs:104-121 [add] and :144-155 [delete] for the poller's own descriptors. *)
Definition ctl_add (ep n : nat) (e : event unit) (m : poll_mode) : world -> res unit * world :=
  sys_do CtlAdd (fun w => set_regs w (<[(ep, Some n) := (e, m)]> (regs w))).
(** src/epoll.rs:144-155. *)
Definition ctl_del (ep n : nat) : world -> res unit * world :=
  sys_do CtlDel (fun w => set_regs w (delete (ep, Some n) (regs w))).
(** src/epoll.rs:257-272 [drop], then the fields in order of declaration. *)
Definition epoll_drop (ep : nat) (no : notifier) (timer : option nat) (w : world) : world :=
  let w1 := match timer with
            | Some t => sys_close t (ignore (ctl_del ep t) w)
            | None => w
            end in
  sys_closes (ep :: notifier_fds no) (ignore (ctl_del ep (notifier_fd no)) w1).
(** `?` where the function owns the finished poller. src/epoll.rs:63-78, where [poller] is dropped. *)
Definition try_epoll {B} (m : world -> res unit * world) (ep : nat) (no : notifier) (timer : option nat) (k : world -> res B * world)
  (w : world) : res B * world :=
  match m w with
  | (Ok _, w') => k w'
  | (Err e, w') => (Err e, epoll_drop ep no timer w')
  | (Panic, w') => (Panic, w')
  end.
(** src/epoll.rs:49-54: the timerfd is made if it can be. *)
Definition epoll_timer (f : flavour) (w : world) : option nat * world :=
  match f with
  | Redox => (None, w)
  | _ => match sys_open TimerfdCreate (Desc KTimerfd true true) w with
         | (Ok t, w') => (Some t, w')
         | (_, w') => (None, w')
         end
  end.
(** src/epoll.rs:41-86 [new]. *)
Definition epoll_new (f : flavour) : world -> res poller * world :=
  try (sys_open EpollCreate (Desc KEpoll true false)) [] (fun ep =>
  try (epoll_notifier f) [ep] (fun no w =>
  let (timer, w) := epoll_timer f w in
  let rest := try_epoll (ctl_add ep (notifier_fd no) readable_event Oneshot) ep no timer (fun s => (Ok (PEpoll ep no timer), s)) in
  match timer with
  | Some t => try_epoll (ctl_add ep t none_event Oneshot) ep no timer rest w
  | None => rest w
  end)).

(** ** kqueue *)

(** src/kqueue.rs:505-514 [Notify::new] with a socket pair; the standard library makes both ends close-on-exec. *)
Definition pair_new : world -> res (option (nat * nat)) * world :=
  try (sys_open2 Socketpair (Desc KStreamRead true false) (Desc KStreamWrite true false)) [] (fun '(r, w) =>
  try (sys_do SetNonblocking (change_desc r with_nonblock)) [w; r] (fun _ =>
  try (sys_do SetNonblocking (change_desc w with_nonblock)) [w; r] (fun _ s => (Ok (Some (r, w)), s)))).
(** src/kqueue.rs:416-418 and 505-514 [Notify::new]. *)
Definition kqueue_notify (f : flavour) (w : world) : res (option (nat * nat)) * world :=
  match f with
  | KqueuePair => pair_new w
  | _ => (Ok None, w)
  end.
(** The filter of src/kqueue.rs:421-432 or the descriptor of 517-526. *)
Definition kqueue_target (st : option (nat * nat)) : option nat := match st with Some (r, _) => Some r | None => None end.
(** EVFILT_USER is cleared when it is reported (EV_CLEAR), the read end is registered as one-shot. src/kqueue.rs:429, 523. *)
Definition kqueue_mode (st : option (nat * nat)) : poll_mode := match st with Some _ => Oneshot | None => Edge end.
(** src/kqueue.rs:421-432 and 517-526 [register], 457-468 and 551-554 [deregister].  Simplification: the two changes
    that [add] makes for a descriptor are one entry here; see KqueueModel for the filters. *)
Definition kqueue_register (kq : nat) (st : option (nat * nat)) : world -> res unit * world :=
  sys_do Kevent (fun w => set_regs w (<[(kq, kqueue_target st) := (readable_event, kqueue_mode st)]> (regs w))).
(** src/kqueue.rs:457-468, 551-554. *)
Definition kqueue_deregister (kq : nat) (st : option (nat * nat)) : world -> res unit * world :=
  sys_do Kevent (fun w => set_regs w (delete (kq, kqueue_target st) (regs w))).
(** The fields of src/kqueue.rs:495-501. *)
Definition pair_fds (st : option (nat * nat)) : list nat := match st with Some (r, w) => [r; w] | None => [] end.
(** src/kqueue.rs:279-289 [drop], then the fields. *)
Definition kqueue_drop (kq : nat) (st : option (nat * nat)) (w : world) : world :=
  sys_closes (kq :: pair_fds st) (ignore (kqueue_deregister kq st) w).
(** src/kqueue.rs:51-71 [new].  (Here CLOEXEC is set without reading the flags first.) *)
Definition kqueue_new (f : flavour) : world -> res poller * world :=
  try (sys_open Kqueue (Desc KKqueue false false)) [] (fun kq =>
  try (sys_do Setfd (change_desc kq with_cloexec)) [kq] (fun _ =>
  try (kqueue_notify f) [kq] (fun st w =>
  match kqueue_register kq st w with
  | (Ok _, w') => (Ok (PKqueue kq st), w')
  | (Err e, w') => (Err e, kqueue_drop kq st w')
  | (Panic, w') => (Panic, w')
  end))).

(** ** Event ports *)

(** src/port.rs:22-33 [new]. *)
Definition port_new : world -> res poller * world :=
  try (sys_open PortCreate (Desc KPort false false)) [] (fun p =>
  set_cloexec p [p] (fun w => (Ok (PPort p), w))).

(** ** poll *)

(** src/poll.rs:70-89 [new] with src/poll.rs:660-681 and 764-793 [Notify::new].  On ESP-IDF and Hermit the eventfd is
    made without flags (there is no exec there; ESP-IDF makes it non-blocking by itself, Hermit does not, see PollConcModel).
    Simplification: the text added to a permission error (lines 775-783) is left out. *)
Definition poll_new (f : flavour) : world -> res poller * world :=
  match f with
  | PollEventfd => try (sys_open Eventfd (Desc KEventfd false false)) [] (fun n w => (Ok (PPoll (NEventfd n)), w))
  | PollHaiku => try (pipe_notifier fallback_pipe) [] (fun no w => (Ok (PPoll no), w))
  | _ => try (pipe_notifier pipe_or_fallback) [] (fun no w => (Ok (PPoll no), w))
  end.

(** ** Completion ports *)

(** src/iocp/mod.rs:123-138: .map_err(…) *)
Definition unsupported {A} (m : world -> res A * world) (w : world) : res A * world :=
  match m w with
  | (Err _, w') => (Err (ESimple KUnsupported), w')
  | x => x
  end.
(** src/iocp/mod.rs:121-155 [new]: ntdll is loaded, an AFD device opened and closed again as a test, the port made.
    Handles are not inherited by default.  Simplifications: the functions of ntdll are found at every call or not
    (afd.rs:287-310 remembers the answer of the first); the text of the errors is left out. *)
Definition iocp_new : world -> res poller * world :=
  try (unsupported (sys_do LoadNtdll id)) [] (fun _ =>
  try (unsupported (sys_open OpenAfd (Desc KAfd true false))) [] (fun a w =>
  try (sys_open PortCreate (Desc KIocp true false)) [] (fun p w => (Ok (PIocp p), w)) (sys_close a w))).

(** ** All of them *)

(** src/lib.rs:451-457 [Poller::new]. *)
Definition new (f : flavour) : world -> res poller * world :=
  match f with
  | Linux | Redox | LinuxPipe => epoll_new f
  | KqueueUser | KqueuePair => kqueue_new f
  | Ports => port_new
  | PollPipe | PollHaiku | PollEventfd => poll_new f
  | Iocp => iocp_new
  end.
(** Dropping a poller. *)
Definition drop (p : poller) (w : world) : world :=
  match p with
  | PEpoll ep no timer => epoll_drop ep no timer w
  | PKqueue kq st => kqueue_drop kq st w
  | PPort n => sys_close n w
  | PPoll no => sys_closes (notifier_fds no) w
  | PIocp n => sys_close n w   (* src/iocp/port.rs:117-123; IocpDropModel is about the rest *)
  end.

(** ** A process *)

(** A program makes and drops pollers, opens and closes descriptors of its own, and has pollers watch those.
    What the pollers do in between (add, modify, delete, wait, notify) opens and closes nothing.  More is allowed than a
    program can do: any open descriptor may be watched. *)
(** A program that uses src/lib.rs; not in /repo. *)
Record process := Process { env : world; mine : list nat; pollers : list (option poller) }.
(** What the program does: src/lib.rs:451, the drop of a Poller, src/lib.rs:548, 688, and things of its own. *)
Inductive action :=
| ANew (f : flavour)
| ADrop (i : nat)
| AOpen (n : nat)                                          (* the program opens a descriptor *)
| AClose (n : nat)                                         (* and closes one of its own *)
| AWatch (i n : nat) (e : event unit) (m : poll_mode)      (* poller [i] watches a descriptor *)
| AUnwatch (i n : nat).
(** src/epoll.rs:27, src/kqueue.rs:18, src/port.rs:17. *)
Definition instance (p : poller) : option nat :=
  match p with PEpoll n _ _ | PKqueue n _ | PPort n => Some n | PPoll _ | PIocp _ => None end.
(** [new] and [drop] are the code of /repo, see there: src/lib.rs:451-457. *)
Definition act (s : process) (a : action) : option process :=
  let w := env s in
  match a with
  | ANew f =>
      match new f w with
      | (Ok p, w') => Some (Process w' (mine s) (pollers s ++ [Some p]))
      | (_, w') => Some (Process w' (mine s) (pollers s))
      end
  | ADrop i =>
      match pollers s !! i with
      | Some (Some p) => Some (Process (drop p w) (mine s) (<[i := None]> (pollers s)))
      | _ => None
      end
  | AOpen n =>
      match opened w !! n with
      | Some _ => None
      | None => Some (Process (set_opened w (<[n := Desc KUser false false]> (opened w))) (n :: mine s) (pollers s))
      end
  | AClose n =>
      if decide (n ∈ mine s)
      then Some (Process (World (delete n (opened w)) (filter (fun x => ~ watches n x.1) (regs w)) (script w) (pos w) (done w) (closes w))
                         (List.filter (fun m => negb (m =? n)) (mine s)) (pollers s))
      else None
  | AWatch i n e m =>
      match pollers s !! i with
      | Some (Some p) =>
          match instance p with
          | Some q => if decide (is_Some (opened w !! n)) then Some (Process (set_regs w (<[(q, Some n) := (e, m)]> (regs w))) (mine s) (pollers s)) else None
          | None => None
          end
      | _ => None
      end
  | AUnwatch i n =>
      match pollers s !! i with
      | Some (Some p) =>
          match instance p with
          | Some q => Some (Process (set_regs w (delete (q, Some n) (regs w))) (mine s) (pollers s))
          | None => None
          end
      | _ => None
      end
  end.
