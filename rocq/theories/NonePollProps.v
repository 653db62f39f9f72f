(** C114 on poll: a source with no interest reports only errors, hang-ups and bad descriptors. *)
From stdpp Require Import prelude list gmap.
From Verif Require Import Types EventModel LibModel PollModel PollSpec PollProps NoneSpec.
Local Open Scope nat_scope.

(** Histories from [s0] on in which nobody calls add, modify or delete for [fd]. *)
Inductive undisturbed (o : own_fds) (fd : Z) (s0 : fds) : fds -> Prop :=
| un_refl : undisturbed o fd s0 s0
| un_call s c : undisturbed o fd s0 s -> call_fd c <> fd -> undisturbed o fd s0 (do_call o s c).2
| un_turn s ans flag order : undisturbed o fd s0 s -> posix_answer s ans -> hash_order s order ->
    undisturbed o fd s0 (poll_turn s ans flag order).2.

Lemma undisturbed_none o fd s0 s : wf_own o -> reachable o s0 -> (exists r, registered s0 fd r /\ reg_interest r = 0%N) ->
  undisturbed o fd s0 s -> reachable o s /\ exists r, registered s fd r /\ reg_interest r = 0%N.
Proof.
  intros Ho R H. induction 1 as [|s c _ [R1 (r & X & I)] N|s ans flag order _ [R1 (r & X & I)] PA HO]; [done| |].
  - split; [by constructor|]. exists r. split; [|done]. by apply (C27_other_registrations_never_touched o s c fd R1 N).
  - split; [by constructor|]. destruct ans as [e|rs num].
    + rewrite C29_poll_error_returned. cbn. by exists r.
    + destruct (poll_turn s (PollRet rs num) flag order) as [t s'] eqn:T. cbn.
      assert (K : forall r', (registered s' fd r' <-> _)) by (intros r'; apply (C29_wait_disarms_only_reported_oneshots _ _ _ _ _ _ _ _ Ho R1 PA HO T)).
      assert (Q : exists f, returned s rs fd f).
      { destruct X as (d & pf & _ & E & Ef & _). destruct PA as [L _]. apply lookup_lt_Some in E as Hlt. rewrite <- L in Hlt.
        destruct (lookup_lt_is_Some_2 _ _ Hlt) as [f Hf]. exists f, (fd_index d), pf. done. }
      destruct Q as [f Q]. destruct (decide (f = 0%N)) as [->|Nf].
      * exists r. split; [|done]. apply K. exists r. split; [done|]. right. split; [by right|done].
      * destruct (reg_oneshot r) eqn:Eo.
        -- exists (Reg (reg_key r) 0 true). split; [|done]. apply K. exists r. split; [done|]. left. split; [done|]. split; [by exists f|done].
        -- exists r. split; [|done]. apply K. exists r. split; [done|]. right. split; [by left|done].
Qed.

Theorem C114_poll_partial o s0 cl e m s1 s rs num flag order evs s' fd :
  wf_own o -> reachable o s0 -> cl = CAdd fd e m \/ cl = CModify fd e m -> no_interest e -> do_call o s0 cl = (Ok tt, s1) ->
  undisturbed o fd s1 s -> posix_answer s (PollRet rs num) -> posix_flags s (PollRet rs num) -> hash_order s order ->
  poll_turn s (PollRet rs num) flag order = (TDone evs, s') ->
  forall x, (fd, x) ∈ evs -> exists f, returned s rs fd f /\ f <> 0%N /\ N.land f unmaskable = f.
Proof.
  intros Ho R C (N1 & N2 & N3) D U PA PF HO T x X.
  assert (R1 : reachable o s1) by (replace s1 with (do_call o s0 cl).2 by (by rewrite D); by constructor).
  assert (P0 : exists r, registered s1 fd r /\ reg_interest r = 0%N).
  { destruct (C27_successful_calls_update_one_registration _ _ _ _ R D) as [A _].
    assert (call_fd cl = fd) as Ef by (by destruct C as [->| ->]). rewrite Ef in A.
    assert (exists r, wanted cl r) as [r W].
    { destruct m; [exists (Reg (ev_key e) (poll_events e) true)|exists (Reg (ev_key e) (poll_events e) false)..];
        destruct C as [->| ->]; cbn; done. }
    exists r. split; [by apply A|]. assert (reg_interest r = poll_events e) as -> by (by destruct C as [->| ->]; destruct W as (_ & W & _)).
    unfold poll_events. rewrite N1, N2. reflexivity. }
  destruct (undisturbed_none _ _ _ _ Ho R1 P0 U) as [Rs (r & Hr & I)].
  destruct (C29_wait_delivers_exactly_what_poll_returned _ _ _ _ _ _ _ _ Ho Rs PA HO T) as [_ DD].
  apply DD in X as (r' & f & Hr' & Hf & Nf & _). exists f. split_and!; [done|done|].
  destruct Hf as (i & pf & Ei & Efd & Er). pose proof (PF i pf f Ei Er) as L.
  destruct Hr as (d & pf' & _ & Ed & Ef' & ->). cbn in I.
  destruct (C26_table_is_notifier_then_registrations _ _ Ho Rs) as (nf & rest & EF & E0 & _ & ND & _ & NO).
  assert (Nfd : fd <> own_poll o).
  { intros ->. apply (NO (own_poll o)); [|done]. destruct Hr' as (d' & pf'' & ?). eexists _, d', pf''. naive_solver. }
  rewrite EF in Ei, Ed. assert (pf = pf') as ->.
  { destruct i as [|i]; cbn in Ei; [injection Ei as ->; congruence|]. destruct (fd_index d) as [|j]; cbn in Ed; [injection Ed as ->; congruence|].
    assert (i = j) as ->; [|congruence]. eapply (NoDup_lookup (map pfd_fd rest) i j fd ND); rewrite list_lookup_fmap.
    - rewrite <- Efd. exact (f_equal (fmap pfd_fd) Ei).
    - rewrite <- Ef'. exact (f_equal (fmap pfd_fd) Ed). }
  rewrite I in L. done.
Qed.
Print Assumptions C114_poll_partial.

(** The interest of 10 is switched off; it hangs up, and wait() reports it as readable and writable. *)
Definition off : event N := Ev 1 false false 0%N.
Theorem C114_poll_refuted : exists o s0 s1 rs num order evs s',
  wf_own o /\ reachable o s0 /\ is_registered s0 10 /\ no_interest off /\ do_call o s0 (CModify 10 off Level) = (Ok tt, s1) /\
  posix_answer s1 (PollRet rs num) /\ posix_flags s1 (PollRet rs num) /\ hash_order s1 order /\
  poll_turn s1 (PollRet rs num) false order = (TDone evs, s') /\ (10%Z, Ev 1 true true POLLHUP) ∈ evs.
Proof.
  set (s0 := (do_call o34 (poll_new o34) (CAdd 10 (rd 1) Level)).2).
  exists o34, s0, (do_call o34 s0 (CModify 10 off Level)).2, [0; POLLHUP]%N, 1, [10%Z]. eexists _, _.
  split; [apply o34_wf|]. split; [repeat constructor|]. split.
  { eexists _, _, _. split_and!; vm_compute; reflexivity. }
  split; [done|]. split; [vm_compute; reflexivity|]. split; [done|]. split.
  { intros [|[|i]] pf f; vm_compute; [|intros [= <-] [= <-]; reflexivity|by intros ? [=]].
    intros [= <-] [= <-]. reflexivity. }
  split.
  { split; [apply NoDup_singleton|]. intros fd.
    assert (E : fd_data (do_call o34 s0 (CModify 10 off Level)).2 = <[10%Z := FdData 1 1 false]> ∅) by (apply map_to_list_inj; vm_compute; reflexivity).
    rewrite E, elem_of_list_singleton, lookup_insert_is_Some, lookup_empty. split; [intros ->; by left|]. intros [->|[_ [? [=]]]]. done. }
  split; [vm_compute; reflexivity|]. by left.
Qed.
Print Assumptions C114_poll_refuted.

(** The history above: what 10 reports is a hang-up. *)
Example C114_poll_case : exists o s0 s1 rs num order evs s',
  wf_own o /\ reachable o s0 /\ no_interest off /\ do_call o s0 (CModify 10 off Level) = (Ok tt, s1) /\ undisturbed o 10 s1 s1 /\
  posix_answer s1 (PollRet rs num) /\ posix_flags s1 (PollRet rs num) /\ hash_order s1 order /\
  poll_turn s1 (PollRet rs num) false order = (TDone evs, s') /\ exists x, (10%Z, x) ∈ evs.
Proof.
  destruct C114_poll_refuted as (o & s0 & s1 & rs & num & order & evs & s' & ? & ? & _ & ? & ? & ? & ? & ? & ? & ?).
  exists o, s0, s1, rs, num, order, evs, s'. split_and!; try done; [constructor|by eexists].
Qed.
