(** The [Event] API of src/lib.rs over the five platform representations of extra flags, the
    translation of interests into kernel flags, and the translation of kernel reports into
    events. *)
From Coq Require Import NArith Bool List.
From Verif Require Import Bits Types.
Import ListNotations.
Open Scope N_scope.

(* ------------------------------------------------------------------ *)
(** ** Platform constants *)

(** <sys/epoll.h> (rustix::event::epoll::EventFlags). Linux's value; used through rustix at src/epoll.rs:279-305, 348-400. *)
Definition EPOLLIN : N := 1.
(** Linux's value; used through rustix at src/epoll.rs:279-305, 348-400. *)
Definition EPOLLPRI : N := 2.
(** Linux's value; used through rustix at src/epoll.rs:279-305, 348-400. *)
Definition EPOLLOUT : N := 4.
(** Linux's value; used through rustix at src/epoll.rs:279-305, 348-400. *)
Definition EPOLLERR : N := 8.
(** Linux's value; used through rustix at src/epoll.rs:279-305, 348-400. *)
Definition EPOLLHUP : N := 16.
(** Linux's value; used through rustix at src/epoll.rs:279-305, 348-400. *)
Definition EPOLLONESHOT : N := 1073741824.
(** Linux's value; used through rustix at src/epoll.rs:279-305, 348-400. *)
Definition EPOLLET : N := 2147483648.

(** <poll.h> (rustix::event::PollFlags, hermit_abi).  Values as on Linux and Hermit; the
    proofs use only that they are distinct single bits. *)
(** Used at src/poll.rs:343-364, 396-443, 686-691 and src/port.rs:166-174, 216-263. *)
Definition POLLIN : N := 1.
(** Used at src/poll.rs:343-364, 396-443, 686-691 and src/port.rs:166-174, 216-263. *)
Definition POLLPRI : N := 2.
(** Used at src/poll.rs:343-364, 396-443, 686-691 and src/port.rs:166-174, 216-263. *)
Definition POLLOUT : N := 4.
(** Used at src/poll.rs:343-364, 396-443, 686-691 and src/port.rs:166-174, 216-263. *)
Definition POLLERR : N := 8.
(** Used at src/poll.rs:343-364, 396-443, 686-691 and src/port.rs:166-174, 216-263. *)
Definition POLLHUP : N := 16.
(** Used at src/poll.rs:343-364, 396-443, 686-691 and src/port.rs:166-174, 216-263. *)
Definition POLLNVAL : N := 32.
(** Used at src/poll.rs:343-364, 396-443, 686-691 and src/port.rs:166-174, 216-263. *)
Definition POLLRDNORM : N := 64.
(** Used at src/poll.rs:343-364, 396-443, 686-691 and src/port.rs:166-174, 216-263. *)
Definition POLLRDBAND : N := 128.
(** Used at src/poll.rs:343-364, 396-443, 686-691 and src/port.rs:166-174, 216-263. *)
Definition POLLWRNORM : N := 256.
(** Used at src/poll.rs:343-364, 396-443, 686-691 and src/port.rs:166-174, 216-263. *)
Definition POLLWRBAND : N := 512.
(** All flags known to rustix. from_bits_truncate of src/port.rs:193 keeps these. *)
Definition POLL_ALL : N := 1023.

(** src/iocp/afd.rs:82-110 [AfdPollMask]. *)
Definition AFD_RECEIVE : N := 1.
(** src/iocp/afd.rs:84. *)
Definition AFD_RECEIVE_EXPEDITED : N := 2.
(** src/iocp/afd.rs:85. *)
Definition AFD_SEND : N := 4.
(** src/iocp/afd.rs:86. *)
Definition AFD_DISCONNECT : N := 8.
(** src/iocp/afd.rs:87. *)
Definition AFD_ABORT : N := 16.
(** src/iocp/afd.rs:88. *)
Definition AFD_LOCAL_CLOSE : N := 32.
(** src/iocp/afd.rs:89. *)
Definition AFD_ACCEPT : N := 128.
(** src/iocp/afd.rs:90. *)
Definition AFD_CONNECT_FAIL : N := 256.

(** <sys/event.h> (rustix::event::kqueue::EventFlags).
    Used through rustix at src/kqueue.rs:97-171, 312-326, 386-395, 421-468. *)
Definition EV_ADD : N := 1.
(** Used through rustix at src/kqueue.rs:97-171, 312-326, 386-395, 421-468. *)
Definition EV_DELETE : N := 2.
(** Used through rustix at src/kqueue.rs:97-171, 312-326, 386-395, 421-468. *)
Definition EV_ONESHOT : N := 16.
(** Used through rustix at src/kqueue.rs:97-171, 312-326, 386-395, 421-468. *)
Definition EV_CLEAR : N := 32.
(** Used through rustix at src/kqueue.rs:97-171, 312-326, 386-395, 421-468. *)
Definition EV_RECEIPT : N := 64.
(** Used through rustix at src/kqueue.rs:97-171, 312-326, 386-395, 421-468. *)
Definition EV_ERROR : N := 16384.
(** Used through rustix at src/kqueue.rs:97-171, 312-326, 386-395, 421-468. *)
Definition EV_EOF : N := 32768.

(* ------------------------------------------------------------------ *)
(** ** EventExtra *)

(** The methods of [sys::EventExtra] used by src/lib.rs. *)
Record extra_ops (X : Type) := ExtraOps {
  x_empty : X;
  x_set_hup : X -> bool -> X;
  x_set_pri : X -> bool -> X;
  x_is_hup : X -> bool;
  x_is_pri : X -> bool;
  x_is_connect_failed : X -> option bool;
  x_is_err : X -> option bool
}.
Arguments ExtraOps {X}.
Arguments x_empty {X}.
Arguments x_set_hup {X}.
Arguments x_set_pri {X}.
Arguments x_is_hup {X}.
Arguments x_is_pri {X}.
Arguments x_is_connect_failed {X}.
Arguments x_is_err {X}.

(** src/epoll.rs:352-397 *)
Definition epoll_extra : extra_ops N := {|
  x_empty := 0;
  x_set_hup := fun f v => fset f EPOLLHUP v;
  x_set_pri := fun f v => fset f EPOLLPRI v;
  x_is_hup := fun f => contains f EPOLLHUP;
  x_is_pri := fun f => contains f EPOLLPRI;
  x_is_connect_failed := fun f => Some (contains f EPOLLERR && contains f EPOLLHUP);
  x_is_err := fun f => Some (contains f EPOLLERR)
|}.

(** src/poll.rs:401-443, with rustix's PollFlags. *)
Definition poll_extra : extra_ops N := {|
  x_empty := 0;
  x_set_hup := fun f v => fset f POLLHUP v;
  x_set_pri := fun f v => fset f POLLPRI v;
  x_is_hup := fun f => contains f POLLHUP;
  x_is_pri := fun f => contains f POLLPRI;
  x_is_connect_failed := fun f => Some (contains f POLLERR || contains f POLLHUP);
  x_is_err := fun f => Some (contains f POLLERR)
|}.

(** src/poll.rs:401-443 with the Hermit shim of PollFlags (src/poll.rs:557-607), whose
    [contains] is an intersection test. *)
Definition hermit_extra : extra_ops N := {|
  x_empty := 0;
  x_set_hup := fun f v => fset f POLLHUP v;
  x_set_pri := fun f v => fset f POLLPRI v;
  x_is_hup := fun f => intersects f POLLHUP;
  x_is_pri := fun f => intersects f POLLPRI;
  x_is_connect_failed := fun f => Some (intersects f POLLERR || intersects f POLLHUP);
  x_is_err := fun f => Some (intersects f POLLERR)
|}.

(** src/port.rs:222-263 *)
Definition port_extra : extra_ops N := {|
  x_empty := 0;
  x_set_hup := fun f v => fset f POLLHUP v;
  x_set_pri := fun f v => fset f POLLPRI v;
  x_is_hup := fun f => contains f POLLHUP;
  x_is_pri := fun f => contains f POLLPRI;
  x_is_connect_failed := fun f => Some (contains f POLLERR && contains f POLLHUP);
  x_is_err := fun f => Some (contains f POLLERR)
|}.

(** src/iocp/mod.rs:652-696 *)
Definition iocp_extra : extra_ops N := {|
  x_empty := 0;
  x_set_hup := fun f v => fset f AFD_ABORT v;
  x_set_pri := fun f v => fset f AFD_RECEIVE_EXPEDITED v;
  x_is_hup := fun f => intersects f AFD_ABORT;
  x_is_pri := fun f => intersects f AFD_RECEIVE_EXPEDITED;
  x_is_connect_failed := fun f => Some (intersects f AFD_CONNECT_FAIL);
  x_is_err := fun f => Some (intersects f AFD_CONNECT_FAIL)
|}.

(** src/kqueue.rs:342-384 *)
Definition kqueue_extra : extra_ops unit := {|
  x_empty := tt;
  x_set_hup := fun f _ => f;
  x_set_pri := fun f _ => f;
  x_is_hup := fun _ => false;
  x_is_pri := fun _ => false;
  x_is_connect_failed := fun _ => None;
  x_is_err := fun _ => None
|}.

(* ------------------------------------------------------------------ *)
(** ** Event (src/lib.rs:184-431) *)

Section EventApi.
  Context {X : Type} (o : extra_ops X).

  (** src/lib.rs:186-193 *)
  Definition ev_new (key : N) (r w : bool) : event X := Ev key r w (x_empty o).
  (** src/lib.rs:199-201 *)
  Definition ev_all (key : N) : event X := ev_new key true true.
  (** src/lib.rs:207-209 *)
  Definition ev_readable_only (key : N) : event X := ev_new key true false.
  (** src/lib.rs:215-217 *)
  Definition ev_writable_only (key : N) : event X := ev_new key false true.
  (** src/lib.rs:223-225 *)
  Definition ev_none (key : N) : event X := ev_new key false false.

  (** The changes of self.extra at src/lib.rs:242, 279, 420. *)
  Definition set_extra (e : event X) (x : X) : event X :=
    Ev (ev_key e) (ev_readable e) (ev_writable e) x.

  (** src/lib.rs:241-243 *)
  Definition set_interrupt (e : event X) (active : bool) : event X :=
    set_extra e (x_set_hup o (ev_extra e) active).
  (** src/lib.rs:259-262 *)
  Definition with_interrupt (e : event X) : event X := set_interrupt e true.
  (** src/lib.rs:278-280 *)
  Definition set_priority (e : event X) (active : bool) : event X :=
    set_extra e (x_set_pri o (ev_extra e) active).
  (** src/lib.rs:296-299 *)
  Definition with_priority (e : event X) : event X := set_priority e true.
  (** src/lib.rs:315-317 *)
  Definition is_interrupt (e : event X) : bool := x_is_hup o (ev_extra e).
  (** src/lib.rs:333-335 *)
  Definition is_priority (e : event X) : bool := x_is_pri o (ev_extra e).
  (** src/lib.rs:396-398 *)
  Definition is_connect_failed (e : event X) : option bool := x_is_connect_failed o (ev_extra e).
  (** src/lib.rs:413-415 *)
  Definition is_err (e : event X) : option bool := x_is_err o (ev_extra e).
  (** src/lib.rs:419-421 *)
  Definition clear_extra (e : event X) : event X := set_extra e (x_empty o).
  (** src/lib.rs:427-430 *)
  Definition with_no_extra (e : event X) : event X := clear_extra e.
End EventApi.

(** The platforms whose extra information is a flag word.
    src/epoll.rs:348, src/poll.rs:396 (twice: rustix and src/poll.rs:559-607), src/port.rs:216, src/iocp/mod.rs:647. *)
Inductive platform := PEpoll | PPoll | PHermit | PPort | PIocp.

(** The types [EventExtra] of src/epoll.rs:348, src/poll.rs:396, src/port.rs:216, src/iocp/mod.rs:647. *)
Definition extra_of (p : platform) : extra_ops N :=
  match p with
  | PEpoll => epoll_extra
  | PPoll => poll_extra
  | PHermit => hermit_extra
  | PPort => port_extra
  | PIocp => iocp_extra
  end.

(* ------------------------------------------------------------------ *)
(** ** Keys *)

(** [key as u64] and [u64 as usize] on a target with [w]-bit usize
    (src/epoll.rs:116,136,327; src/port.rs:80,195; src/kqueue.rs:129,134,313). *)
Definition key_to_u64 (k : N) : N := k mod 2 ^ 64.
(** src/epoll.rs:327, src/port.rs:195, src/kqueue.rs:313. *)
Definition u64_to_key (w : N) (x : N) : N := x mod 2 ^ w.

(* ------------------------------------------------------------------ *)
(** ** Interest to kernel flags *)

(** src/epoll.rs:296-299 *)
Definition epoll_read_flags : N := N.lor (N.lor (N.lor EPOLLIN EPOLLHUP) EPOLLERR) EPOLLPRI.
(** src/epoll.rs:302-305 *)
Definition epoll_write_flags : N := N.lor (N.lor EPOLLOUT EPOLLHUP) EPOLLERR.

(** src/epoll.rs:279-293 *)
Definition epoll_flags (e : event N) (mode : poll_mode) : N :=
  let flags := match mode with
               | Oneshot => EPOLLONESHOT
               | Level => 0
               | Edge => EPOLLET
               | EdgeOneshot => N.lor EPOLLET EPOLLONESHOT
               end in
  let flags := if ev_readable e then N.lor flags epoll_read_flags else flags in
  if ev_writable e then N.lor flags epoll_write_flags else flags.

(** src/epoll.rs:117,137 — the events word of epoll_ctl. *)
Definition epoll_interest (e : event N) (mode : poll_mode) : N :=
  N.lor (epoll_flags e mode) (ev_extra e).

(** src/poll.rs:343-353 *)
Definition poll_events (e : event N) : N :=
  N.lor (if ev_readable e then N.lor POLLIN POLLPRI else 0)
        (if ev_writable e then N.lor POLLOUT POLLWRBAND else 0).

(** src/port.rs:166-173 *)
Definition port_read_flags : N := N.lor (N.lor (N.lor POLLIN POLLHUP) POLLERR) POLLPRI.
(** src/port.rs:171-174. *)
Definition port_write_flags : N := N.lor (N.lor POLLOUT POLLHUP) POLLERR.

(** src/port.rs:65-71 — the events word of port_associate. *)
Definition port_interest (e : event N) : N :=
  let flags := 0 in
  let flags := if ev_readable e then N.lor flags port_read_flags else flags in
  if ev_writable e then N.lor flags port_write_flags else flags.

(** src/iocp/mod.rs:1273-1292 *)
Definition event_properties_to_afd_mask (readable writable error : bool) : N :=
  let mask := 0 in
  let mask := if error || readable || writable
              then N.lor mask (N.lor AFD_ABORT AFD_CONNECT_FAIL) else mask in
  let mask := if readable
              then N.lor mask (N.lor (N.lor (N.lor AFD_RECEIVE AFD_ACCEPT) AFD_DISCONNECT)
                                     AFD_RECEIVE_EXPEDITED)
              else mask in
  if writable then N.lor mask AFD_SEND else mask.

(** src/iocp/mod.rs:1267-1269 *)
Definition event_to_afd_mask (e : event N) (error : bool) : N :=
  N.lor (event_properties_to_afd_mask (ev_readable e) (ev_writable e) error) (ev_extra e).

(** src/kqueue.rs:386-395 *)
Definition mode_to_flags (mode : poll_mode) : N :=
  match mode with
  | Oneshot => EV_ONESHOT
  | Level => 0
  | Edge => EV_CLEAR
  | EdgeOneshot => N.lor EV_ONESHOT EV_CLEAR
  end.

(** src/kqueue.rs:113-123 — flags of the read and write change of one descriptor, with the
    RECEIPT bit added at lines 129 and 134. *)
Definition kqueue_change_flags (wanted : bool) (mode : poll_mode) : N :=
  N.lor (if wanted then N.lor EV_ADD (mode_to_flags mode) else EV_DELETE) EV_RECEIPT.

(* ------------------------------------------------------------------ *)
(** ** Kernel reports to events *)

(** src/epoll.rs:323-333; [data] is the u64 registered with the source, [w] the width of
    usize. *)
Definition epoll_to_event (w data flags : N) : event N :=
  Ev (u64_to_key w data) (intersects flags epoll_read_flags) (intersects flags epoll_write_flags)
     flags.

(** src/poll.rs:356-363 *)
Definition poll_read_events : N := N.lor (N.lor (N.lor POLLIN POLLPRI) POLLHUP) POLLERR.
(** src/poll.rs:361-364. *)
Definition poll_write_events : N := N.lor (N.lor (N.lor POLLOUT POLLWRBAND) POLLHUP) POLLERR.

(** src/poll.rs:275-280 *)
Definition poll_to_event (key revents : N) : event N :=
  Ev key (intersects revents poll_read_events) (intersects revents poll_write_events) revents.

(** src/port.rs:191-201 *)
Definition port_to_event (w data events : N) : event N :=
  let flags := truncate POLL_ALL events in
  Ev (u64_to_key w data) (intersects flags port_read_flags) (intersects flags port_write_flags)
     flags.

(** rustix::event::kqueue::EventFilter; descriptors, pids etc. are numbers. Used at src/kqueue.rs:312-326. *)
Inductive kq_filter :=
| FRead (fd : N) | FWrite (fd : N) | FVnode (fd : N) | FProc (pid : N)
| FSignal (sig : N) | FTimer (id : N) | FUser (id : N) | FOther (id : N).

(** src/kqueue.rs:312-326 *)
Definition kqueue_to_event (w udata : N) (f : kq_filter) (flags : N) : event unit :=
  Ev (u64_to_key w udata)
     (match f with
      | FRead _ | FVnode _ | FProc _ | FSignal _ | FTimer _ => true
      | _ => false
      end)
     ((match f with FWrite _ => true | _ => false end)
      || ((match f with FRead _ => true | _ => false end) && intersects flags EV_EOF))
     tt.

(** src/iocp/mod.rs:1296-1318 *)
Definition afd_mask_to_event (mask : N) : bool * bool :=
  let readable := intersects mask
        (N.lor (N.lor (N.lor AFD_RECEIVE AFD_ACCEPT) AFD_DISCONNECT) AFD_RECEIVE_EXPEDITED) in
  let writable := intersects mask AFD_SEND in
  if intersects mask (N.lor AFD_ABORT AFD_CONNECT_FAIL) then (true, true)
  else (readable, writable).
