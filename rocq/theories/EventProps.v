(** Theorems about the Event API and flag translation: C20-C25. *)
From Coq Require Import NArith Bool List Lia.
From Verif Require Import Bits Types EventModel EventSpec EventProofs.
Import ListNotations.
Open Scope N_scope.

(** ** C20 *)
Theorem C20_set_interrupt :
  forall p e b,
    is_interrupt (extra_of p) (set_interrupt (extra_of p) e b) = b /\
    is_priority (extra_of p) (set_interrupt (extra_of p) e b) = is_priority (extra_of p) e /\
    is_err (extra_of p) (set_interrupt (extra_of p) e b) = is_err (extra_of p) e /\
    same_fields (set_interrupt (extra_of p) e b) e.
Proof. exact set_interrupt_laws. Qed.
Print Assumptions C20_set_interrupt.

Theorem C20_set_priority :
  forall p e b,
    is_priority (extra_of p) (set_priority (extra_of p) e b) = b /\
    is_interrupt (extra_of p) (set_priority (extra_of p) e b) = is_interrupt (extra_of p) e /\
    is_err (extra_of p) (set_priority (extra_of p) e b) = is_err (extra_of p) e /\
    is_connect_failed (extra_of p) (set_priority (extra_of p) e b)
      = is_connect_failed (extra_of p) e /\
    same_fields (set_priority (extra_of p) e b) e.
Proof. exact set_priority_laws. Qed.
Print Assumptions C20_set_priority.

(** The setters touch a single bit of the flag word. *)
Theorem C20_set_interrupt_touches_one_bit :
  forall p e b n, n <> b_hup ->
    N.testbit (ev_extra (set_interrupt (extra_of p) e b)) n = N.testbit (ev_extra e) n.
Proof. exact set_interrupt_bits. Qed.
Print Assumptions C20_set_interrupt_touches_one_bit.

Theorem C20_set_priority_touches_one_bit :
  forall p e b n, n <> b_pri ->
    N.testbit (ev_extra (set_priority (extra_of p) e b)) n = N.testbit (ev_extra e) n.
Proof. exact set_priority_bits. Qed.
Print Assumptions C20_set_priority_touches_one_bit.

Theorem C20_clear_extra :
  forall p e,
    same_fields (clear_extra (extra_of p) e) e /\
    is_interrupt (extra_of p) (clear_extra (extra_of p) e) = false /\
    is_priority (extra_of p) (clear_extra (extra_of p) e) = false /\
    is_err (extra_of p) (clear_extra (extra_of p) e) = Some false /\
    is_connect_failed (extra_of p) (clear_extra (extra_of p) e) = Some false.
Proof. exact clear_extra_laws. Qed.
Print Assumptions C20_clear_extra.

Theorem C20_new :
  forall p k r w,
    ev_key (ev_new (extra_of p) k r w) = k /\ ev_readable (ev_new (extra_of p) k r w) = r /\
    ev_writable (ev_new (extra_of p) k r w) = w /\
    is_interrupt (extra_of p) (ev_new (extra_of p) k r w) = false /\
    is_priority (extra_of p) (ev_new (extra_of p) k r w) = false /\
    is_err (extra_of p) (ev_new (extra_of p) k r w) = Some false /\
    is_connect_failed (extra_of p) (ev_new (extra_of p) k r w) = Some false.
Proof. exact ev_new_laws. Qed.
Print Assumptions C20_new.

(** The named constructors and consuming setters are what their names say. *)
Theorem C20_constructors :
  forall p k,
    (ev_readable (ev_all (extra_of p) k), ev_writable (ev_all (extra_of p) k)) = (true, true) /\
    (ev_readable (ev_readable_only (extra_of p) k), ev_writable (ev_readable_only (extra_of p) k))
      = (true, false) /\
    (ev_readable (ev_writable_only (extra_of p) k), ev_writable (ev_writable_only (extra_of p) k))
      = (false, true) /\
    (ev_readable (ev_none (extra_of p) k), ev_writable (ev_none (extra_of p) k)) = (false, false) /\
    (forall e, is_interrupt (extra_of p) (with_interrupt (extra_of p) e) = true) /\
    (forall e, is_priority (extra_of p) (with_priority (extra_of p) e) = true) /\
    (forall e, with_no_extra (extra_of p) e = clear_extra (extra_of p) e).
Proof.
  exact (fun p k => conj eq_refl (conj eq_refl (conj eq_refl (conj eq_refl
    (conj (fun e => proj1 (set_interrupt_laws p e true))
      (conj (fun e => proj1 (set_priority_laws p e true)) (fun e => eq_refl))))))).
Qed.
Print Assumptions C20_constructors.

Example C20_nonvacuous :
  is_interrupt iocp_extra
    (set_interrupt iocp_extra (with_priority iocp_extra (ev_readable_only iocp_extra 7)) true) = true
  /\ ev_extra (set_interrupt iocp_extra (Ev 7 true false 511) false) = 495.
Proof. split; reflexivity. Qed.

(** ** C21 *)
Theorem C21_kqueue_extra_noop :
  forall (e : event unit) b,
    set_interrupt kqueue_extra e b = e /\ set_priority kqueue_extra e b = e /\
    clear_extra kqueue_extra e = e /\
    is_interrupt kqueue_extra e = false /\ is_priority kqueue_extra e = false /\
    is_err kqueue_extra e = None /\ is_connect_failed kqueue_extra e = None.
Proof. exact kqueue_extra_noop. Qed.
Print Assumptions C21_kqueue_extra_noop.

Example C21_nonvacuous : set_interrupt kqueue_extra (Ev 3 true false tt) true = Ev 3 true false tt.
Proof. reflexivity. Qed.

(** ** C22 *)
Theorem C22_epoll :
  forall w data flags,
    let e := epoll_to_event w data flags in
    (ev_readable e = true <->
       bit flags b_in \/ bit flags b_hup \/ bit flags b_err \/ bit flags b_pri)
    /\ (ev_writable e = true <-> bit flags b_out \/ bit flags b_hup \/ bit flags b_err)
    /\ (is_interrupt epoll_extra e = true <-> bit flags b_hup)
    /\ (is_priority epoll_extra e = true <-> bit flags b_pri)
    /\ (is_err epoll_extra e = Some true <-> bit flags b_err)
    /\ (is_connect_failed epoll_extra e = Some true <-> bit flags b_err /\ bit flags b_hup).
Proof. exact epoll_report. Qed.
Print Assumptions C22_epoll.

Theorem C22_poll :
  forall p key flags, p = PPoll \/ p = PHermit ->
    let e := poll_to_event key flags in
    ev_key e = key
    /\ (ev_readable e = true <->
          bit flags b_in \/ bit flags b_hup \/ bit flags b_err \/ bit flags b_pri)
    /\ (ev_writable e = true <->
          bit flags b_out \/ bit flags b_wrband \/ bit flags b_hup \/ bit flags b_err)
    /\ (is_interrupt (extra_of p) e = true <-> bit flags b_hup)
    /\ (is_priority (extra_of p) e = true <-> bit flags b_pri)
    /\ (is_err (extra_of p) e = Some true <-> bit flags b_err)
    /\ (is_connect_failed (extra_of p) e = Some true <-> bit flags b_err \/ bit flags b_hup).
Proof. exact poll_report. Qed.
Print Assumptions C22_poll.

Theorem C22_port :
  forall w data flags,
    let e := port_to_event w data flags in
    (ev_readable e = true <->
          bit flags b_in \/ bit flags b_hup \/ bit flags b_err \/ bit flags b_pri)
    /\ (ev_writable e = true <-> bit flags b_out \/ bit flags b_hup \/ bit flags b_err)
    /\ (is_interrupt port_extra e = true <-> bit flags b_hup)
    /\ (is_priority port_extra e = true <-> bit flags b_pri)
    /\ (is_err port_extra e = Some true <-> bit flags b_err)
    /\ (is_connect_failed port_extra e = Some true <-> bit flags b_err /\ bit flags b_hup).
Proof. exact port_report. Qed.
Print Assumptions C22_port.

Theorem C22_kqueue :
  forall w udata f flags,
    let e := kqueue_to_event w udata f flags in
    (ev_readable e = true <->
       (exists x, f = FRead x \/ f = FVnode x \/ f = FProc x \/ f = FSignal x \/ f = FTimer x))
    /\ (ev_writable e = true <->
       (exists x, f = FWrite x) \/ (exists x, f = FRead x) /\ bit flags k_eof).
Proof. exact kqueue_report. Qed.
Print Assumptions C22_kqueue.

Theorem C22_iocp :
  forall mask,
    (fst (afd_mask_to_event mask) = true <->
       bit mask a_receive \/ bit mask a_accept \/ bit mask a_disconnect \/ bit mask a_expedited
       \/ bit mask a_abort \/ bit mask a_connect_fail)
    /\ (snd (afd_mask_to_event mask) = true <->
       bit mask a_send \/ bit mask a_abort \/ bit mask a_connect_fail).
Proof. exact afd_report. Qed.
Print Assumptions C22_iocp.

(** The accessors of an event of a socket, which carries the reported mask (C84). *)
Theorem C22_iocp_accessors :
  forall key r w mask,
    let e := Ev key r w mask in
    (is_interrupt iocp_extra e = true <-> bit mask a_abort)
    /\ (is_priority iocp_extra e = true <-> bit mask a_expedited)
    /\ (is_err iocp_extra e = Some true <-> bit mask a_connect_fail)
    /\ (is_connect_failed iocp_extra e = Some true <-> bit mask a_connect_fail).
Proof.
  intros key r w mask.
  unfold is_interrupt, is_priority, is_err, is_connect_failed, iocp_extra, bit, a_abort, a_expedited, a_connect_fail.
  cbn [ev_extra x_is_hup x_is_pri x_is_err x_is_connect_failed]. bits.
  intuition congruence.
Qed.
Print Assumptions C22_iocp_accessors.

(** Two delivered events for the same key compare equal exactly if the kernel reported the same
    flags; on event ports, the same of the ten flags of <poll.h> that the library knows. *)
Theorem C22_equal_reports :
  forall w data f g,
    (epoll_to_event w data f = epoll_to_event w data g <-> f = g) /\
    (poll_to_event data f = poll_to_event data g <-> f = g) /\
    (port_to_event w data f = port_to_event w data g <->
       forall n, n < 10 -> (bit f n <-> bit g n)).
Proof.
  intros w data f g. split; [|split].
  - split; [intros E; injection E; auto | intros ->; reflexivity].
  - split; [intros E; injection E; auto | intros ->; reflexivity].
  - assert (A : forall x n, N.testbit (truncate POLL_ALL x) n = (N.testbit x n && (n <? 10))%bool).
    { intros x n. unfold truncate. change POLL_ALL with (N.ones 10). rewrite N.land_spec. f_equal.
      destruct (N.ltb_spec n 10) as [Hn|Hn].
      - apply N.ones_spec_low. exact Hn.
      - apply N.ones_spec_high. exact Hn. }
    split.
    + intros E n Hn. assert (F : truncate POLL_ALL f = truncate POLL_ALL g) by (injection E; auto).
      pose proof (A f n) as Af. rewrite F, A in Af. apply N.ltb_lt in Hn. rewrite Hn, !andb_true_r in Af.
      unfold bit. rewrite Af. reflexivity.
    + intros Hb. assert (F : truncate POLL_ALL f = truncate POLL_ALL g).
      { apply N.bits_inj. intros n. rewrite !A. destruct (N.ltb_spec n 10) as [Hn|Hn].
        - specialize (Hb n Hn). unfold bit in Hb. rewrite !andb_true_r.
          destruct (N.testbit f n), (N.testbit g n); intuition congruence.
        - rewrite !andb_false_r. reflexivity. }
      unfold port_to_event. rewrite F. reflexivity.
Qed.
Print Assumptions C22_equal_reports.

(** A report with the invalid-descriptor flag (bit 5) differs from one without. *)
Example C22_equal_reports_case : port_to_event 64 7 33 <> port_to_event 64 7 1.
Proof. discriminate. Qed.

(** The key given at registration comes back unchanged, for any width of usize up to 64. *)
Theorem C22_key_roundtrip :
  forall w k flags f, w <= 64 -> k < 2 ^ w ->
    ev_key (epoll_to_event w (key_to_u64 k) flags) = k /\
    ev_key (port_to_event w (key_to_u64 k) flags) = k /\
    ev_key (kqueue_to_event w (key_to_u64 k) f flags) = k.
Proof.
  exact (fun w k flags f Hw Hk => conj (key_roundtrip w k Hw Hk)
           (conj (key_roundtrip w k Hw Hk) (key_roundtrip w k Hw Hk))).
Qed.
Print Assumptions C22_key_roundtrip.

Example C22_nonvacuous :
  epoll_to_event 64 (key_to_u64 42) 5 = Ev 42 true true 5 /\
  epoll_to_event 64 42 0 = Ev 42 false false 0 /\
  kqueue_to_event 64 42 (FRead 3) 32768 = Ev 42 true true tt /\
  afd_mask_to_event 4 = (false, true).
Proof. repeat split. Qed.

(** ** C23 *)
Theorem C23_epoll :
  forall e m n, built PEpoll e ->
    (bit (epoll_interest e m) n <->
      (ev_readable e = true /\ (n = b_in \/ n = b_pri \/ n = b_hup \/ n = b_err))
      \/ (ev_writable e = true /\ (n = b_out \/ n = b_hup \/ n = b_err))
      \/ (mode_oneshot m /\ n = b_oneshot) \/ (mode_edge m /\ n = b_et)
      \/ (is_interrupt epoll_extra e = true /\ n = b_hup)
      \/ (is_priority epoll_extra e = true /\ n = b_pri)).
Proof.
  exact (fun e m n H => iff_trans (epoll_interest_bits e m n)
    (or_iff_compat_l _ (or_iff_compat_l _ (or_iff_compat_l _ (or_iff_compat_l _
      (built_bits PEpoll e H n)))))).
Qed.
Print Assumptions C23_epoll.

Theorem C23_poll :
  forall e n,
    bit (poll_events e) n <->
      (ev_readable e = true /\ (n = b_in \/ n = b_pri))
      \/ (ev_writable e = true /\ (n = b_out \/ n = b_wrband)).
Proof. exact poll_events_bits. Qed.
Print Assumptions C23_poll.

Theorem C23_port :
  forall e n,
    bit (port_interest e) n <->
      (ev_readable e = true /\ (n = b_in \/ n = b_pri \/ n = b_hup \/ n = b_err))
      \/ (ev_writable e = true /\ (n = b_out \/ n = b_hup \/ n = b_err)).
Proof. exact port_interest_bits. Qed.
Print Assumptions C23_port.

Theorem C23_iocp :
  forall e err n, built PIocp e ->
    (bit (event_to_afd_mask e err) n <->
      (ev_readable e = true /\
         (n = a_receive \/ n = a_accept \/ n = a_disconnect \/ n = a_expedited))
      \/ (ev_writable e = true /\ n = a_send)
      \/ ((err = true \/ ev_readable e = true \/ ev_writable e = true) /\
          (n = a_abort \/ n = a_connect_fail))
      \/ (is_interrupt iocp_extra e = true /\ n = a_abort)
      \/ (is_priority iocp_extra e = true /\ n = a_expedited)).
Proof.
  exact (fun e err n H => iff_trans (afd_mask_bits e err n)
    (or_iff_compat_l _ (or_iff_compat_l _ (or_iff_compat_l _ (built_bits PIocp e H n))))).
Qed.
Print Assumptions C23_iocp.

Theorem C23_kqueue :
  forall wanted m,
    (bit (kqueue_change_flags wanted m) k_add <-> wanted = true) /\
    (bit (kqueue_change_flags wanted m) k_delete <-> wanted = false) /\
    (bit (kqueue_change_flags wanted m) k_oneshot <-> wanted = true /\ mode_oneshot m) /\
    (bit (kqueue_change_flags wanted m) k_clear <-> wanted = true /\ mode_edge m).
Proof. exact kqueue_flags_bits. Qed.
Print Assumptions C23_kqueue.

Example C23_nonvacuous :
  built PEpoll (with_priority epoll_extra (ev_none epoll_extra 1)) /\
  epoll_interest (with_priority epoll_extra (ev_none epoll_extra 1)) EdgeOneshot = 3221225474 /\
  poll_events (ev_all poll_extra 1) = 519 /\
  built PIocp (ev_writable_only iocp_extra 9) /\
  event_to_afd_mask (ev_writable_only iocp_extra 9) true = 276.
Proof.
  repeat split; try reflexivity.
  - apply (built_priority PEpoll), (built_new PEpoll).
  - apply (built_new PIocp).
Qed.

(** ** C24: holds for epoll and IOCP, fails for poll and event ports *)
Theorem C24_epoll_priority_partial :
  forall e m, is_priority epoll_extra e = true -> bit (epoll_interest e m) b_pri.
Proof.
  exact (fun e m H => proj2 (epoll_interest_bits e m b_pri)
    (or_intror (or_intror (or_intror (or_intror
      (eq_trans (eq_sym (contains_pow2 (ev_extra e) 1)) H)))))).
Qed.
Print Assumptions C24_epoll_priority_partial.

Theorem C24_iocp_priority_partial :
  forall e err, is_priority iocp_extra e = true -> bit (event_to_afd_mask e err) a_expedited.
Proof.
  exact (fun e err H => proj2 (afd_mask_bits e err a_expedited)
    (or_intror (or_intror (or_intror
      (eq_trans (eq_sym (intersects_pow2 (ev_extra e) 1)) H))))).
Qed.
Print Assumptions C24_iocp_priority_partial.

Theorem C24_poll_priority_refuted :
  exists e, built PPoll e /\ is_priority poll_extra e = true /\ ~ bit (poll_events e) b_pri.
Proof.
  exact (ex_intro _ (with_priority poll_extra (ev_none poll_extra 1))
    (conj (built_priority PPoll _ true (built_new PPoll 1 false false))
      (conj eq_refl (fun H => Bool.diff_false_true H)))).
Qed.
Print Assumptions C24_poll_priority_refuted.

Theorem C24_port_priority_refuted :
  exists e, built PPort e /\ is_priority port_extra e = true /\ ~ bit (port_interest e) b_pri.
Proof.
  exact (ex_intro _ (with_priority port_extra (ev_none port_extra 1))
    (conj (built_priority PPort _ true (built_new PPort 1 false false))
      (conj eq_refl (fun H => Bool.diff_false_true H)))).
Qed.
Print Assumptions C24_port_priority_refuted.

Example C24_nonvacuous :
  is_priority epoll_extra (with_priority epoll_extra (ev_none epoll_extra 1)) = true /\
  is_priority iocp_extra (with_priority iocp_extra (ev_none iocp_extra 1)) = true.
Proof. split; reflexivity. Qed.

(** ** C25: an event received from wait() and passed back keeps its kernel flags *)
Theorem C25_epoll_refuted :
  exists w data flags,
    let received := epoll_to_event w data flags in
    let echoed := Ev (ev_key received) false false (ev_extra received) in
    is_priority epoll_extra echoed = false /\ bit (epoll_interest echoed Level) b_in.
Proof. exact (ex_intro _ 64 (ex_intro _ 7 (ex_intro _ 1 (conj eq_refl eq_refl)))). Qed.
Print Assumptions C25_epoll_refuted.

Theorem C25_iocp_refuted :
  exists flags,
    let echoed := Ev 7 false false flags in
    is_priority iocp_extra echoed = false /\ fst (afd_mask_to_event flags) = true /\
    bit (event_to_afd_mask echoed true) a_receive.
Proof. exact (ex_intro _ 1 (conj eq_refl (conj eq_refl eq_refl))). Qed.
Print Assumptions C25_iocp_refuted.

(** It holds for interests not derived from received events. *)
Theorem C25_epoll_partial :
  forall e m, built PEpoll e ->
    (bit (epoll_interest e m) b_in -> ev_readable e = true) /\
    (bit (epoll_interest e m) b_out -> ev_writable e = true).
Proof.
  intros e m H; split; intros Hb; apply (C23_epoll e m _ H) in Hb;
    unfold b_in, b_out, b_pri, b_hup, b_err, b_oneshot, b_et in Hb;
    intuition (try discriminate; assumption).
Qed.
Print Assumptions C25_epoll_partial.

Theorem C25_iocp_partial :
  forall e err, built PIocp e ->
    (bit (event_to_afd_mask e err) a_receive -> ev_readable e = true) /\
    (bit (event_to_afd_mask e err) a_send -> ev_writable e = true).
Proof.
  intros e err H; split; intros Hb; apply (C23_iocp e err _ H) in Hb;
    unfold a_receive, a_send, a_accept, a_disconnect, a_expedited, a_abort, a_connect_fail in Hb;
    intuition (try discriminate; assumption).
Qed.
Print Assumptions C25_iocp_partial.

(** On poll and event ports it holds for every event value. *)
Theorem C25_poll_port_partial :
  forall e,
    (bit (poll_events e) b_in -> ev_readable e = true) /\
    (bit (poll_events e) b_out -> ev_writable e = true) /\
    (bit (port_interest e) b_in -> ev_readable e = true) /\
    (bit (port_interest e) b_out -> ev_writable e = true).
Proof.
  intros e; repeat split; intros Hb;
    first [apply poll_events_bits in Hb | apply port_interest_bits in Hb];
    unfold b_in, b_out, b_pri, b_hup, b_err, b_wrband in Hb;
    intuition (try discriminate; assumption).
Qed.
Print Assumptions C25_poll_port_partial.

Example C25_nonvacuous :
  built PEpoll (ev_readable_only epoll_extra 3) /\
  bit (epoll_interest (ev_readable_only epoll_extra 3) Level) b_in /\
  built PIocp (ev_readable_only iocp_extra 3) /\
  bit (event_to_afd_mask (ev_readable_only iocp_extra 3) false) a_receive.
Proof. repeat split; apply (built_new PEpoll) || apply (built_new PIocp). Qed.

(** ** C92: connection failures look the same everywhere *)
(** Refuted: the documentation (src/lib.rs:337-340) ties is_connect_failed to "EPOLLERR or EPOLLHUP"; on epoll an error
    without a hang-up, and a hang-up without an error, count as no failure, on poll(2) as one. *)
Theorem C92_connect_failed_refuted :
  exists key flags flags',
    bit flags b_err /\ is_connect_failed epoll_extra (epoll_to_event 64 key flags) = Some false /\
    is_connect_failed port_extra (port_to_event 64 key flags) = Some false /\
    is_connect_failed poll_extra (poll_to_event key flags) = Some true /\
    bit flags' b_hup /\ is_connect_failed epoll_extra (epoll_to_event 64 key flags') = Some false /\
    is_connect_failed port_extra (port_to_event 64 key flags') = Some false /\
    is_connect_failed poll_extra (poll_to_event key flags') = Some true.
Proof. exists 7%N, 8%N, 16%N. repeat split. Qed.
Print Assumptions C92_connect_failed_refuted.
(** What holds: for the same flags is_err has the same answer everywhere, true exactly for an error; is_connect_failed has
    the same answer if both or neither of error and hang-up are reported. *)
Theorem C92_same_answer_partial :
  forall w p key flags, p = PPoll \/ p = PHermit ->
    let ep := epoll_to_event w key flags in let po := poll_to_event key flags in let pt := port_to_event w key flags in
    is_err epoll_extra ep = is_err (extra_of p) po /\ is_err port_extra pt = is_err (extra_of p) po /\
    (is_err (extra_of p) po = Some true <-> bit flags b_err) /\ is_err (extra_of p) po <> None /\
    ((bit flags b_err <-> bit flags b_hup) ->
       is_connect_failed epoll_extra ep = is_connect_failed (extra_of p) po /\
       is_connect_failed port_extra pt = is_connect_failed (extra_of p) po /\
       (is_connect_failed (extra_of p) po = Some true <-> bit flags b_err)).
Proof.
  intros w p key flags Hp ep po pt.
  pose proof (C22_epoll w key flags) as (_ & _ & _ & _ & E1 & E2). pose proof (C22_poll p key flags Hp) as (_ & _ & _ & _ & _ & P1 & P2).
  pose proof (C22_port w key flags) as (_ & _ & _ & _ & T1 & T2). fold ep in E1, E2. fold po in P1, P2. fold pt in T1, T2.
  assert (S : forall a b : option bool, a <> None -> b <> None -> (a = Some true <-> b = Some true) -> a = b).
  { intros [[]|] [[]|] A B [X Y]; try reflexivity; try congruence; [discriminate (X eq_refl)|discriminate (Y eq_refl)]. }
  assert (N : is_err (extra_of p) po <> None /\ is_connect_failed (extra_of p) po <> None) by (destruct Hp as [-> | ->]; split; discriminate).
  destruct N as [N1 N2]. split; [apply S; [discriminate|exact N1|tauto]|]. split; [apply S; [discriminate|exact N1|tauto]|]. split; [exact P1|]. split; [exact N1|].
  intros B. split; [apply S; [discriminate|exact N2|tauto]|]. split; [apply S; [discriminate|exact N2|tauto]|tauto].
Qed.
Print Assumptions C92_same_answer_partial.
(** Completion ports: exactly if AFD reported that the connection failed; kqueue: never an answer (C21). *)
Theorem C92_iocp_partial :
  forall key r w flags,
    let e := Ev key r w flags in
    (is_err iocp_extra e = Some true <-> bit flags a_connect_fail) /\ is_err iocp_extra e <> None /\
    is_connect_failed iocp_extra e = is_err iocp_extra e.
Proof.
  intros key r w flags e. split; [|split; [discriminate|reflexivity]].
  unfold is_err, e, bit, a_connect_fail. cbn [iocp_extra x_is_err ev_extra]. bits. apply Some_iff.
Qed.
Print Assumptions C92_iocp_partial.
Example C92_case :
  is_err epoll_extra (epoll_to_event 64 7 24) = Some true /\ is_connect_failed epoll_extra (epoll_to_event 64 7 24) = Some true /\
  is_connect_failed poll_extra (poll_to_event 7 24) = Some true /\ is_err iocp_extra (Ev 7 false true AFD_CONNECT_FAIL) = Some true.
Proof. repeat split. Qed.
