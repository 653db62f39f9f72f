(** Proofs about [EventModel]. *)
From Coq Require Import NArith Bool List Lia.
From Verif Require Import Bits Types EventModel EventSpec.
Import ListNotations.
Open Scope N_scope.
Local Arguments N.testbit : simpl never.
Local Arguments N.pow : simpl never.
Local Arguments N.lor : simpl never.
Local Arguments N.land : simpl never.
Local Arguments intersects : simpl never.
Local Arguments contains : simpl never.
Local Arguments fset : simpl never.
Local Arguments truncate : simpl never.

Lemma intersects_lor f a b : intersects f (N.lor a b) = intersects f a || intersects f b.
Proof.
  unfold intersects. rewrite N.land_lor_distr_r.
  destruct (N.eqb_spec (N.land f a) 0) as [E1|E1], (N.eqb_spec (N.land f b) 0) as [E2|E2],
    (N.eqb_spec (N.lor (N.land f a) (N.land f b)) 0) as [E3|E3]; cbn; try reflexivity; exfalso.
  - apply E3. rewrite E1, E2. reflexivity.
  - apply N.lor_eq_0_iff in E3. tauto.
  - apply N.lor_eq_0_iff in E3. tauto.
  - apply N.lor_eq_0_iff in E3. tauto.
Qed.

Lemma land_pow2 f n : N.land f (2 ^ n) = if N.testbit f n then 2 ^ n else 0.
Proof.
  apply N.bits_inj. intros m. rewrite N.land_spec, N.pow2_bits_eqb.
  destruct (N.eqb_spec n m) as [->|E].
  - rewrite andb_true_r.
    destruct (N.testbit f m) eqn:E; [rewrite N.pow2_bits_true|rewrite N.bits_0]; reflexivity.
  - rewrite andb_false_r. destruct (N.testbit f n); [rewrite N.pow2_bits_false by auto|rewrite N.bits_0];
      reflexivity.
Qed.

Lemma pow2_nz n : 2 ^ n <> 0.
Proof. apply N.pow_nonzero. discriminate. Qed.

Lemma intersects_pow2 f n : intersects f (2 ^ n) = N.testbit f n.
Proof.
  unfold intersects. rewrite land_pow2. destruct (N.testbit f n); [|reflexivity].
  destruct (N.eqb_spec (2 ^ n) 0) as [E|E]; [|reflexivity]. destruct (pow2_nz n E).
Qed.

Lemma contains_pow2 f n : contains f (2 ^ n) = N.testbit f n.
Proof.
  unfold contains. rewrite land_pow2. destruct (N.testbit f n).
  - apply N.eqb_refl.
  - destruct (N.eqb_spec 0 (2 ^ n)) as [E|E]; [|reflexivity]. destruct (pow2_nz n (eq_sym E)).
Qed.

Lemma fset_pow2 f n v m :
  N.testbit (fset f (2 ^ n) v) m = if n =? m then v else N.testbit f m.
Proof.
  unfold fset. destruct v.
  - rewrite N.lor_spec, N.pow2_bits_eqb. destruct (n =? m); [apply orb_true_r|apply orb_false_r].
  - rewrite N.ldiff_spec, N.pow2_bits_eqb. destruct (n =? m); cbn;
      [apply andb_false_r|apply andb_true_r].
Qed.

(* the constants as powers of two *)
Lemma p2_EPOLLIN : EPOLLIN = 2 ^ 0. Proof. reflexivity. Qed.
Lemma p2_EPOLLPRI : EPOLLPRI = 2 ^ 1. Proof. reflexivity. Qed.
Lemma p2_EPOLLOUT : EPOLLOUT = 2 ^ 2. Proof. reflexivity. Qed.
Lemma p2_EPOLLERR : EPOLLERR = 2 ^ 3. Proof. reflexivity. Qed.
Lemma p2_EPOLLHUP : EPOLLHUP = 2 ^ 4. Proof. reflexivity. Qed.
Lemma p2_EPOLLONESHOT : EPOLLONESHOT = 2 ^ 30. Proof. reflexivity. Qed.
Lemma p2_EPOLLET : EPOLLET = 2 ^ 31. Proof. reflexivity. Qed.
Lemma p2_POLLIN : POLLIN = 2 ^ 0. Proof. reflexivity. Qed.
Lemma p2_POLLPRI : POLLPRI = 2 ^ 1. Proof. reflexivity. Qed.
Lemma p2_POLLOUT : POLLOUT = 2 ^ 2. Proof. reflexivity. Qed.
Lemma p2_POLLERR : POLLERR = 2 ^ 3. Proof. reflexivity. Qed.
Lemma p2_POLLHUP : POLLHUP = 2 ^ 4. Proof. reflexivity. Qed.
Lemma p2_POLLWRBAND : POLLWRBAND = 2 ^ 9. Proof. reflexivity. Qed.
Lemma p2_AFD_RECEIVE : AFD_RECEIVE = 2 ^ 0. Proof. reflexivity. Qed.
Lemma p2_AFD_RECEIVE_EXPEDITED : AFD_RECEIVE_EXPEDITED = 2 ^ 1. Proof. reflexivity. Qed.
Lemma p2_AFD_SEND : AFD_SEND = 2 ^ 2. Proof. reflexivity. Qed.
Lemma p2_AFD_DISCONNECT : AFD_DISCONNECT = 2 ^ 3. Proof. reflexivity. Qed.
Lemma p2_AFD_ABORT : AFD_ABORT = 2 ^ 4. Proof. reflexivity. Qed.
Lemma p2_AFD_LOCAL_CLOSE : AFD_LOCAL_CLOSE = 2 ^ 5. Proof. reflexivity. Qed.
Lemma p2_AFD_ACCEPT : AFD_ACCEPT = 2 ^ 7. Proof. reflexivity. Qed.
Lemma p2_AFD_CONNECT_FAIL : AFD_CONNECT_FAIL = 2 ^ 8. Proof. reflexivity. Qed.
Lemma p2_EV_ADD : EV_ADD = 2 ^ 0. Proof. reflexivity. Qed.
Lemma p2_EV_DELETE : EV_DELETE = 2 ^ 1. Proof. reflexivity. Qed.
Lemma p2_EV_ONESHOT : EV_ONESHOT = 2 ^ 4. Proof. reflexivity. Qed.
Lemma p2_EV_CLEAR : EV_CLEAR = 2 ^ 5. Proof. reflexivity. Qed.
Lemma p2_EV_RECEIPT : EV_RECEIPT = 2 ^ 6. Proof. reflexivity. Qed.
Lemma p2_EV_EOF : EV_EOF = 2 ^ 15. Proof. reflexivity. Qed.
Global Hint Rewrite p2_EPOLLIN p2_EPOLLPRI p2_EPOLLOUT p2_EPOLLERR p2_EPOLLHUP p2_EPOLLONESHOT
  p2_EPOLLET p2_POLLIN p2_POLLPRI p2_POLLOUT p2_POLLERR p2_POLLHUP p2_POLLWRBAND p2_AFD_RECEIVE
  p2_AFD_RECEIVE_EXPEDITED p2_AFD_SEND p2_AFD_DISCONNECT p2_AFD_ABORT p2_AFD_LOCAL_CLOSE p2_AFD_ACCEPT
  p2_AFD_CONNECT_FAIL p2_EV_ADD p2_EV_DELETE p2_EV_ONESHOT p2_EV_CLEAR p2_EV_RECEIPT p2_EV_EOF : p2.
Global Hint Rewrite N.lor_spec N.pow2_bits_eqb N.bits_0 intersects_lor intersects_pow2 contains_pow2
  fset_pow2 : bitw.
Ltac bits := autorewrite with p2; autorewrite with bitw.

Lemma Some_iff {A} (x y : A) : Some x = Some y <-> x = y.
Proof. split; congruence. Qed.
Ltac sb := rewrite ?Some_iff, ?andb_true_iff, ?orb_true_iff; repeat split; tauto.

(* ------------------------------------------------------------------ *)
(** ** C20, C21 *)

Lemma set_interrupt_laws p e b :
  is_interrupt (extra_of p) (set_interrupt (extra_of p) e b) = b /\
  is_priority (extra_of p) (set_interrupt (extra_of p) e b) = is_priority (extra_of p) e /\
  is_err (extra_of p) (set_interrupt (extra_of p) e b) = is_err (extra_of p) e /\
  same_fields (set_interrupt (extra_of p) e b) e.
Proof.
  unfold same_fields. destruct p; cbn; bits; repeat split.
Qed.

Lemma set_priority_laws p e b :
  is_priority (extra_of p) (set_priority (extra_of p) e b) = b /\
  is_interrupt (extra_of p) (set_priority (extra_of p) e b) = is_interrupt (extra_of p) e /\
  is_err (extra_of p) (set_priority (extra_of p) e b) = is_err (extra_of p) e /\
  is_connect_failed (extra_of p) (set_priority (extra_of p) e b)
    = is_connect_failed (extra_of p) e /\
  same_fields (set_priority (extra_of p) e b) e.
Proof.
  unfold same_fields. destruct p; cbn; bits; repeat split.
Qed.

(** all other bits are untouched *)
Lemma set_interrupt_bits p e b n :
  n <> b_hup ->
  N.testbit (ev_extra (set_interrupt (extra_of p) e b)) n = N.testbit (ev_extra e) n.
Proof.
  unfold b_hup. intros H. destruct p; cbn; bits; destruct (4 =? n) eqn:E; try reflexivity;
    apply N.eqb_eq in E; congruence.
Qed.
Lemma set_priority_bits p e b n :
  n <> b_pri ->
  N.testbit (ev_extra (set_priority (extra_of p) e b)) n = N.testbit (ev_extra e) n.
Proof.
  unfold b_pri. intros H. destruct p; cbn; bits; destruct (1 =? n) eqn:E; try reflexivity;
    apply N.eqb_eq in E; congruence.
Qed.

Lemma clear_extra_laws p e :
  same_fields (clear_extra (extra_of p) e) e /\
  is_interrupt (extra_of p) (clear_extra (extra_of p) e) = false /\
  is_priority (extra_of p) (clear_extra (extra_of p) e) = false /\
  is_err (extra_of p) (clear_extra (extra_of p) e) = Some false /\
  is_connect_failed (extra_of p) (clear_extra (extra_of p) e) = Some false.
Proof. unfold same_fields. destruct p; cbn; repeat split. Qed.

Lemma ev_new_laws p k r w :
  ev_key (ev_new (extra_of p) k r w) = k /\ ev_readable (ev_new (extra_of p) k r w) = r /\
  ev_writable (ev_new (extra_of p) k r w) = w /\
  is_interrupt (extra_of p) (ev_new (extra_of p) k r w) = false /\
  is_priority (extra_of p) (ev_new (extra_of p) k r w) = false /\
  is_err (extra_of p) (ev_new (extra_of p) k r w) = Some false /\
  is_connect_failed (extra_of p) (ev_new (extra_of p) k r w) = Some false.
Proof. destruct p; cbn; repeat split. Qed.

Lemma kqueue_extra_noop (e : event unit) b :
  set_interrupt kqueue_extra e b = e /\ set_priority kqueue_extra e b = e /\
  clear_extra kqueue_extra e = e /\
  is_interrupt kqueue_extra e = false /\ is_priority kqueue_extra e = false /\
  is_err kqueue_extra e = None /\ is_connect_failed kqueue_extra e = None.
Proof. destruct e as [k r w []]. repeat split. Qed.

(* ------------------------------------------------------------------ *)
(** ** Built events *)

Lemma built_bits p e : built p e -> forall n,
  bit (ev_extra e) n <->
    (is_interrupt (extra_of p) e = true /\ n = b_hup)
    \/ (is_priority (extra_of p) e = true /\ n = b_pri).
Proof.
  unfold bit, b_hup, b_pri. induction 1 as [k r w|e b H IH|e b H IH|e H IH|e k r w H IH]; intros n.
  - destruct p; cbn; bits; split; intros; try discriminate; intuition discriminate.
  - specialize (IH n).
    destruct p; cbn in *; autorewrite with p2 in *; autorewrite with bitw in *;
      change (4 =? 4) with true; change (4 =? 1) with false;
      change (1 =? 4) with false; change (1 =? 1) with true; cbv iota;
      (destruct (N.eqb_spec 4 n) as [E|E];
       [subst n; destruct b; split; [tauto|tauto|discriminate|intros [[]|[]]; discriminate]
       |rewrite IH; split; intros [[H1 H2]|[H1 H2]]; subst; tauto]).
  - specialize (IH n).
    destruct p; cbn in *; autorewrite with p2 in *; autorewrite with bitw in *;
      change (4 =? 4) with true; change (4 =? 1) with false;
      change (1 =? 4) with false; change (1 =? 1) with true; cbv iota;
      (destruct (N.eqb_spec 1 n) as [E|E];
       [subst n; destruct b; split; [tauto|tauto|discriminate|intros [[]|[]]; discriminate]
       |rewrite IH; split; intros [[H1 H2]|[H1 H2]]; subst; tauto]).
  - destruct p; cbn; bits; split; intros; try discriminate; intuition discriminate.
  - specialize (IH n). destruct p; cbn in *; exact IH.
Qed.

(* ------------------------------------------------------------------ *)
(** ** C23: interests *)

Lemma eqb_iff a b : (a =? b) = true <-> b = a.
Proof. rewrite N.eqb_eq. split; congruence. Qed.

Lemma epoll_interest_bits e m n :
  bit (epoll_interest e m) n <->
    (ev_readable e = true /\ (n = b_in \/ n = b_pri \/ n = b_hup \/ n = b_err))
    \/ (ev_writable e = true /\ (n = b_out \/ n = b_hup \/ n = b_err))
    \/ (mode_oneshot m /\ n = b_oneshot) \/ (mode_edge m /\ n = b_et)
    \/ bit (ev_extra e) n.
Proof.
  unfold bit, epoll_interest, epoll_flags, epoll_read_flags, epoll_write_flags, mode_oneshot, mode_edge,
    b_in, b_pri, b_hup, b_err, b_out, b_oneshot, b_et.
  destruct m, (ev_readable e), (ev_writable e); bits; rewrite ?orb_true_iff, ?eqb_iff;
    intuition (try discriminate; subst; tauto).
Qed.

Lemma poll_events_bits e n :
  bit (poll_events e) n <->
    (ev_readable e = true /\ (n = b_in \/ n = b_pri))
    \/ (ev_writable e = true /\ (n = b_out \/ n = b_wrband)).
Proof.
  unfold bit, poll_events, b_in, b_pri, b_out, b_wrband.
  destruct (ev_readable e), (ev_writable e); bits; rewrite ?orb_true_iff, ?eqb_iff;
    intuition (try discriminate; subst; tauto).
Qed.

Lemma port_interest_bits e n :
  bit (port_interest e) n <->
    (ev_readable e = true /\ (n = b_in \/ n = b_pri \/ n = b_hup \/ n = b_err))
    \/ (ev_writable e = true /\ (n = b_out \/ n = b_hup \/ n = b_err)).
Proof.
  unfold bit, port_interest, port_read_flags, port_write_flags, b_in, b_pri, b_out, b_hup, b_err.
  destruct (ev_readable e), (ev_writable e); bits; rewrite ?orb_true_iff, ?eqb_iff;
    intuition (try discriminate; subst; tauto).
Qed.

Lemma afd_mask_bits e err n :
  bit (event_to_afd_mask e err) n <->
    (ev_readable e = true /\
       (n = a_receive \/ n = a_accept \/ n = a_disconnect \/ n = a_expedited))
    \/ (ev_writable e = true /\ n = a_send)
    \/ ((err = true \/ ev_readable e = true \/ ev_writable e = true) /\
        (n = a_abort \/ n = a_connect_fail))
    \/ bit (ev_extra e) n.
Proof.
  unfold bit, event_to_afd_mask, event_properties_to_afd_mask, a_receive, a_accept, a_disconnect,
    a_expedited, a_send, a_abort, a_connect_fail.
  destruct err, (ev_readable e), (ev_writable e); cbn [orb]; bits; rewrite ?orb_true_iff, ?eqb_iff;
    intuition (try discriminate; subst; tauto).
Qed.

Lemma kqueue_flags_bits wanted m :
  (bit (kqueue_change_flags wanted m) k_add <-> wanted = true) /\
  (bit (kqueue_change_flags wanted m) k_delete <-> wanted = false) /\
  (bit (kqueue_change_flags wanted m) k_oneshot <-> wanted = true /\ mode_oneshot m) /\
  (bit (kqueue_change_flags wanted m) k_clear <-> wanted = true /\ mode_edge m).
Proof.
  unfold bit, mode_oneshot, mode_edge. destruct wanted, m; cbn;
    intuition (try discriminate; try congruence).
Qed.

(* ------------------------------------------------------------------ *)
(** ** C22: reports *)

Lemma epoll_report w data flags :
  let e := epoll_to_event w data flags in
  (ev_readable e = true <-> bit flags b_in \/ bit flags b_hup \/ bit flags b_err \/ bit flags b_pri)
  /\ (ev_writable e = true <-> bit flags b_out \/ bit flags b_hup \/ bit flags b_err)
  /\ (is_interrupt epoll_extra e = true <-> bit flags b_hup)
  /\ (is_priority epoll_extra e = true <-> bit flags b_pri)
  /\ (is_err epoll_extra e = Some true <-> bit flags b_err)
  /\ (is_connect_failed epoll_extra e = Some true <-> bit flags b_err /\ bit flags b_hup).
Proof.
  unfold bit, epoll_to_event, epoll_read_flags, epoll_write_flags, is_interrupt, is_priority, is_err,
    is_connect_failed, b_in, b_hup, b_err, b_pri, b_out. cbn. bits.
  sb.
Qed.

Lemma poll_report p key flags :
  p = PPoll \/ p = PHermit ->
  let e := poll_to_event key flags in
  ev_key e = key
  /\ (ev_readable e = true <->
        bit flags b_in \/ bit flags b_hup \/ bit flags b_err \/ bit flags b_pri)
  /\ (ev_writable e = true <->
        bit flags b_out \/ bit flags b_wrband \/ bit flags b_hup \/ bit flags b_err)
  /\ (is_interrupt (extra_of p) e = true <-> bit flags b_hup)
  /\ (is_priority (extra_of p) e = true <-> bit flags b_pri)
  /\ (is_err (extra_of p) e = Some true <-> bit flags b_err)
  /\ (is_connect_failed (extra_of p) e = Some true <-> bit flags b_err \/ bit flags b_hup).
Proof.
  unfold bit, poll_to_event, poll_read_events, poll_write_events, is_interrupt, is_priority, is_err,
    is_connect_failed, b_in, b_hup, b_err, b_pri, b_out, b_wrband.
  intros [->| ->]; cbn; bits; sb.
Qed.

Lemma poll_all_bits n : N.testbit POLL_ALL n = (n <? 10).
Proof.
  change POLL_ALL with (N.ones 10). destruct (N.ltb_spec n 10) as [H|H].
  - apply N.ones_spec_low. exact H.
  - apply N.ones_spec_high. exact H.
Qed.

Lemma port_report w data flags :
  let e := port_to_event w data flags in
  (ev_readable e = true <->
        bit flags b_in \/ bit flags b_hup \/ bit flags b_err \/ bit flags b_pri)
  /\ (ev_writable e = true <-> bit flags b_out \/ bit flags b_hup \/ bit flags b_err)
  /\ (is_interrupt port_extra e = true <-> bit flags b_hup)
  /\ (is_priority port_extra e = true <-> bit flags b_pri)
  /\ (is_err port_extra e = Some true <-> bit flags b_err)
  /\ (is_connect_failed port_extra e = Some true <-> bit flags b_err /\ bit flags b_hup).
Proof.
  unfold bit, port_to_event, port_read_flags, port_write_flags, is_interrupt, is_priority, is_err,
    is_connect_failed, truncate, b_in, b_hup, b_err, b_pri, b_out. cbn. bits.
  rewrite ?N.land_spec, ?poll_all_bits. cbn [N.ltb N.compare Pos.compare Pos.compare_cont].
  rewrite ?andb_true_r. sb.
Qed.

Lemma kqueue_report w udata f flags :
  let e := kqueue_to_event w udata f flags in
  (ev_readable e = true <->
      (exists x, f = FRead x \/ f = FVnode x \/ f = FProc x \/ f = FSignal x \/ f = FTimer x))
  /\ (ev_writable e = true <->
      (exists x, f = FWrite x) \/ (exists x, f = FRead x) /\ bit flags k_eof).
Proof.
  unfold bit, kqueue_to_event, k_eof. cbn. bits. split.
  - destruct f; split; intros H; try discriminate; try reflexivity;
      try (eexists; intuition reflexivity); destruct H as [x H]; intuition discriminate.
  - destruct f; cbn; split; intros H; try discriminate; try reflexivity;
      try (left; eexists; reflexivity);
      try (destruct H as [[x H]|[[x H] _]]; discriminate).
    + right. split; [eexists; reflexivity|exact H].
    + destruct H as [[x H]|[_ H]]; [discriminate|exact H].
Qed.

Lemma afd_report mask :
  (fst (afd_mask_to_event mask) = true <->
     bit mask a_receive \/ bit mask a_accept \/ bit mask a_disconnect \/ bit mask a_expedited
     \/ bit mask a_abort \/ bit mask a_connect_fail)
  /\ (snd (afd_mask_to_event mask) = true <->
     bit mask a_send \/ bit mask a_abort \/ bit mask a_connect_fail).
Proof.
  unfold bit, afd_mask_to_event, a_receive, a_accept, a_disconnect, a_expedited, a_abort,
    a_connect_fail, a_send. bits.
  destruct (N.testbit mask 4) eqn:E4, (N.testbit mask 8) eqn:E8; cbn [orb fst snd];
    rewrite ?orb_true_iff; intuition (try congruence).
Qed.

(** Keys survive the trip through the kernel's 64-bit user data. *)
Lemma key_roundtrip w k : w <= 64 -> k < 2 ^ w -> u64_to_key w (key_to_u64 k) = k.
Proof.
  intros Hw Hk. unfold u64_to_key, key_to_u64.
  assert (2 ^ w <= 2 ^ 64) by (apply N.pow_le_mono_r; [discriminate|exact Hw]).
  rewrite (N.mod_small k (2 ^ 64)) by lia. apply N.mod_small. exact Hk.
Qed.
