(** C113 on poll: however much room the container has, one wait() can report more. *)
From stdpp Require Import prelude list gmap.
From Verif Require Import Types EventModel LibModel PollModel PollSpec PollProps.
Local Open Scope nat_scope.

(** [n] descriptors, from 10 on, are registered. *)
Lemma many n : exists s, reachable o34 s /\ forall fd, is_registered s fd <-> (10 <= fd < 10 + Z.of_nat n)%Z.
Proof.
  induction n as [|n (s & R & H)].
  - exists (poll_new o34). split; [constructor|]. intros fd. split; [|lia]. intros (r & d & pf & E & _). cbn in E. by rewrite lookup_empty in E.
  - set (cl := CAdd (10 + Z.of_nat n) (rd 1) Level).
    assert (E : (do_call o34 s cl).1 = Ok tt).
    { apply C27_call_results; [done|]. constructor; [| |by intros [|]].
      - cbn. intros X. rewrite !elem_of_cons, elem_of_nil in X. lia.
      - rewrite H. lia. }
    destruct (do_call o34 s cl) as [r s'] eqn:D. cbn in E. subst r.
    destruct (C27_successful_calls_update_one_registration _ _ _ _ R D) as [A B].
    exists s'. split; [replace s' with (do_call o34 s cl).2 by (by rewrite D); by constructor|].
    intros fd. destruct (decide (fd = 10 + Z.of_nat n)%Z) as [->|N].
    + split; [lia|]. intros _. eexists (Reg _ _ _). apply A. cbn. split_and!; [reflexivity|reflexivity|].
      instantiate (1 := false). done.
    + assert (S : is_registered s' fd <-> is_registered s fd).
      { split; intros [r X]; exists r; by apply (B fd N). }
      rewrite S, H. lia.
Qed.
Lemma nonzeros n : length (List.filter nonzero (replicate n POLLHUP)) = n.
Proof. induction n; cbn; [done|]. by f_equal. Qed.

Theorem C113_poll_refuted : forall room, exists o s rs num order evs s',
  wf_own o /\ reachable o s /\ posix_answer s (PollRet rs num) /\ posix_flags s (PollRet rs num) /\ hash_order s order /\
  poll_turn s (PollRet rs num) false order = (TDone evs, s') /\ room < length evs.
Proof.
  intros room. destruct (many (S room)) as (s & R & H).
  destruct (C26_table_is_notifier_then_registrations _ _ o34_wf R) as (nf & rest & EF & E0 & _ & _ & _ & NO).
  set (rs := 0%N :: replicate (length rest) POLLHUP).
  set (order := map fst (map_to_list (fd_data s))).
  assert (PA : posix_answer s (PollRet rs (length rest))).
  { split; [by rewrite EF; cbn; rewrite replicate_length|]. cbn. by rewrite nonzeros. }
  assert (PF : posix_flags s (PollRet rs (length rest))).
  { intros i pf f _ E. destruct i as [|i]; cbn in E; [injection E as <-; done|].
    apply lookup_replicate in E as [-> _]. rewrite N.land_lor_distr_r. replace (N.land POLLHUP unmaskable) with POLLHUP by (vm_compute; reflexivity).
    apply N.bits_inj. intros k. rewrite N.lor_spec, N.land_spec. by destruct (N.testbit POLLHUP k), (N.testbit (pfd_events pf) k). }
  assert (HO : hash_order s order).
  { split; [apply NoDup_fst_map_to_list|]. intros fd. unfold order. rewrite elem_of_list_fmap. split.
    - intros ([x d] & -> & X%elem_of_map_to_list). by exists d.
    - intros [d X]. exists (fd, d). split; [done|]. by apply elem_of_map_to_list. }
  assert (RT : forall fd, is_registered s fd -> returned s rs fd POLLHUP).
  { intros fd X. pose proof X as (r & d & pf & _ & E & Ef & _). exists (fd_index d), pf. split_and!; [done|done|]. rewrite EF in E.
    destruct (fd_index d) as [|i]; cbn in E |- *.
    - injection E as ->. exfalso. apply (NO fd X). rewrite <- Ef, E0. apply o34_wf.
    - apply lookup_replicate. split; [done|]. by apply lookup_lt_Some in E. }
  assert (RT0 : exists fd r, registered s fd r /\ returned s rs fd POLLHUP).
  { destruct (proj2 (H 10%Z)) as [r X]; [lia|]. exists 10%Z, r. split; [done|]. apply RT. by exists r. }
  destruct (poll_turn s (PollRet rs (length rest)) false order) as [t s'] eqn:T.
  pose proof (C26_wait_never_panics _ _ _ false _ R PA HO) as NP. rewrite T in NP. cbn in NP.
  destruct t as [|evs|e|]; [| | |done].
  - exfalso. destruct (C29_wait_repeats_only_for_internal_wakeups _ _ _ _ _ _ _ o34_wf R PA HO T) as (_ & (f & E & X) & _). cbn in E. by injection E as <-.
  - exists o34, s, rs, (length rest), order, evs, s'. split_and!; try done; [apply o34_wf|].
    destruct (C29_wait_delivers_exactly_what_poll_returned _ _ _ _ _ _ _ _ o34_wf R PA HO T) as [_ D].
    assert (L : length (map (fun i => (10 + Z.of_nat i)%Z) (seq 0 (S room))) <= length (map fst evs)).
    { apply submseteq_length, NoDup_submseteq; [apply NoDup_fmap_2; [intros ? ? ?; lia|apply NoDup_seq]|].
      intros fd X. apply elem_of_list_fmap in X as (i & -> & X%elem_of_seq). destruct (proj2 (H (10 + Z.of_nat i)%Z)) as [r Y]; [lia|].
      apply elem_of_list_fmap. exists ((10 + Z.of_nat i)%Z, poll_to_event (reg_key r) POLLHUP). split; [done|]. apply D.
      exists r, POLLHUP. split_and!; try done. apply RT. by exists r. }
    rewrite !map_length, seq_length in L. lia.
  - exfalso. unfold poll_turn in T. repeat (case_match; try done).
Qed.
Print Assumptions C113_poll_refuted.

(** There too a wait reports each registered descriptor at most once. *)
Theorem C113_poll_partial o s rs num flag order evs s' :
  wf_own o -> reachable o s -> posix_answer s (PollRet rs num) -> hash_order s order ->
  poll_turn s (PollRet rs num) flag order = (TDone evs, s') -> length evs <= size (fd_data s).
Proof.
  intros Ho R PA HO T. destruct (C29_wait_delivers_exactly_what_poll_returned _ _ _ _ _ _ _ _ Ho R PA HO T) as [N D].
  rewrite <- (map_length fst evs), <- (size_dom (D := gset Z)). rewrite <- (size_list_to_set (C := gset Z)) by done.
  apply subseteq_size. intros fd. rewrite elem_of_list_to_set, elem_of_list_fmap. intros ([x e] & -> & X).
  apply D in X as (r & f & (d & pf & E & _) & _). apply elem_of_dom. by exists d.
Qed.
Print Assumptions C113_poll_partial.
