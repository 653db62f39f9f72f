(** Meaning of the event properties, in terms of single bits of the platforms' headers. *)
From Coq Require Import NArith Bool List.
From Verif Require Import Types EventModel.
Import ListNotations.
Open Scope N_scope.

(** Bit [n] is set in the word [w]. *)
Definition bit (w n : N) : Prop := N.testbit w n = true.

(** Bit positions, <sys/epoll.h> and <poll.h> (the low ones coincide). *)
Definition b_in : N := 0.
Definition b_pri : N := 1.
Definition b_out : N := 2.
Definition b_err : N := 3.
Definition b_hup : N := 4.
Definition b_wrband : N := 9.
Definition b_oneshot : N := 30.
Definition b_et : N := 31.
(** Bit positions of AFD_POLL_* *)
Definition a_receive : N := 0.
Definition a_expedited : N := 1.
Definition a_send : N := 2.
Definition a_disconnect : N := 3.
Definition a_abort : N := 4.
Definition a_local_close : N := 5.
Definition a_accept : N := 7.
Definition a_connect_fail : N := 8.
(** Bit positions of EV_*, <sys/event.h> *)
Definition k_add : N := 0.
Definition k_delete : N := 1.
Definition k_oneshot : N := 4.
Definition k_clear : N := 5.
Definition k_eof : N := 15.

(** The modes that deliver once / that are edge-triggered. *)
Definition mode_oneshot (m : poll_mode) : Prop := m = Oneshot \/ m = EdgeOneshot.
Definition mode_edge (m : poll_mode) : Prop := m = Edge \/ m = EdgeOneshot.

(** Interests a program can build with the constructors, the setters and assignments to the
    public fields, without starting from an event received from wait(). *)
Inductive built (p : platform) : event N -> Prop :=
| built_new k r w : built p (ev_new (extra_of p) k r w)
| built_interrupt e b : built p e -> built p (set_interrupt (extra_of p) e b)
| built_priority e b : built p e -> built p (set_priority (extra_of p) e b)
| built_clear e : built p e -> built p (clear_extra (extra_of p) e)
| built_fields e k r w : built p e -> built p (Ev k r w (ev_extra e)).

(** Two events agree on everything but the extra part. *)
Definition same_fields {X} (a b : event X) : Prop :=
  ev_key a = ev_key b /\ ev_readable a = ev_readable b /\ ev_writable a = ev_writable b.
