(** C71 for the filters of the extension trait: a signal, the end of a process or the expiry of a timer is not forgotten. *)
From stdpp Require Import prelude list gmap.
From Verif Require Import Bits Types EventModel EventSpec EventProofs KqueueModel KqueueSpec KqueueProofs
  KqueueProofs2 KqueueProofs3 KqueueProofs4 KqueueProofs5 KqueueProofs6 KqueueProofs7 KqueueProofs8 KqueueProofs9 KqueueProps.
Local Open Scope nat_scope.

Lemma undisturbed_reach c excl f s s' : reachable c excl s -> undisturbed c excl f s s' -> reachable c excl s'.
Proof. intros Hr Hu. induction Hu as [s|s s1 l s2 Hu IH Hl Hs Hq]; [done|]. eapply reach_step; [by apply IH|exact Hl|exact Hs]. Qed.
Lemma undisturbed_pending c excl f s s' : reachable c excl s -> ~ own_filter c f -> undisturbed c excl f s s' ->
  pending (kern s) !! f = readiness f (log s) -> pending (kern s') !! f = readiness f (log s').
Proof.
  intros Hr Hf Hu H. induction Hu as [s|s s1 l s2 Hu IH Hl Hs Hq]; [done|]. specialize (IH Hr H).
  pose proof (undisturbed_reach _ _ _ _ _ Hr Hu) as Hr1. pose proof (inv_reach _ _ _ Hr1) as Hi.
  destruct (step_at _ _ _ _ _ _ Hi Hf Hl Hs) as [[[_ ->] H1]|[H1|[H1|[H1|H1]]]].
  - destruct H1 as [->|(o & -> & Q1 & Q2 & _)]; [done|]. unfold readiness. rewrite fold_left_app. cbn [fold_left]. rewrite IH. unfold readiness.
    destruct o; try done; cbn [became].
    + case_decide; [|done]. subst. by destruct (Q2 st wake).
    + cbn in Q1. by case_decide.
  - exfalso. destruct H1 as (i & cl & n & fts & a & _ & _ & Hg & _ & o & Ho & Hg'). destruct (Hq o Ho) as [Hq1 _]. congruence.
  - destruct H1 as (st & w & -> & -> & _). unfold readiness. rewrite fold_left_app. cbn [fold_left became]. rewrite decide_True by done.
    rewrite happen_pending. by rewrite decide_True.
  - exfalso. destruct H1 as (fd & Hfd & _ & Ho). destruct (Hq _ Ho) as [Hq1 _]. cbn [granted] in Hq1. by rewrite decide_True in Hq1.
  - exfalso. destruct H1 as (fs & b & Hin & _ & _ & Ho & Hb). destruct (Hq _ Ho) as [_ Hq2].
    rewrite <- Hb in Hin. apply elem_of_list_fmap in Hin as ([g e] & -> & Hin). by apply (Hq2 b e).
Qed.

(** Something happened to a filter of any kind; since then nothing was granted for it and it was not reported. *)
Theorem C71_occurrence_reported c excl s f st s1 s2 sl max k m fl :
  reachable c excl s -> legal c excl s (LHappen f st true) -> step c s (LHappen f st true) = Some s1 ->
  undisturbed c excl f s1 s2 -> wait s2 = WPoll sl max -> 0 < max ->
  armed (keeps c) f (log s2) = Some (k, m) -> readiness f (log s2) = Some fl ->
  (exists fs s', step c s2 (LReport fs) = Some s') /\
  forall fs s', step c s2 (LReport fs) = Some s' ->
    exists b, log s' = log s2 ++ [Reported b] /\
      (length b = max \/ (f, kqueue_to_event 64 k f fl) ∈ b).
Proof.
  intros Hr Hl Hs Hu Hw Hmax Ha Hrd. assert (Hf : ~ own_filter c f) by apply Hl.
  assert (Hn : news f s s1) by (injection Hs as <-; eexists; split; [done|right; by exists st]).
  pose proof (news_due _ _ _ _ _ _ (inv_reach _ _ _ Hr) Hf Hl Hs Hn) as Hd.
  assert (Hr1 : reachable c excl s1) by (by eapply reach_step).
  assert (Hp1 : pending (kern s1) !! f = readiness f (log s1)).
  { injection Hs as <-. cbn [kern log emit set_kern]. rewrite happen_pending, decide_True by done.
    unfold readiness. rewrite fold_left_app. cbn [fold_left became]. by rewrite decide_True. }
  pose proof (undisturbed_pending _ _ _ _ _ Hr1 Hf Hu Hp1) as Hp. rewrite Hrd in Hp.
  destruct (undisturbed_due _ _ _ _ _ Hr1 Hf Hu Hd) as [Hd2 Hr2].
  pose proof (iv_note _ _ (inv_reach _ _ _ Hr2) f Hf) as Hok. rewrite Ha in Hok. destruct Hok as (n & Hn2 & Hu2 & _).
  assert (Hpd : is_pending (kern s2) f = true) by (apply is_pending_iff; rewrite Hp; eauto).
  assert (Hrep : reportable (kern s2) f = true) by (apply reportable_spec; exists n; auto).
  split; [by eapply some_report_possible|].
  intros fs s' Hs'. cbn [step] in Hs'. rewrite Hw in Hs'.
  destruct (may_report (kern s2) max fs) eqn:Em; [|done]. simpl in Hs'.
  destruct (negb (sl && bool_decide (fs = []))); [|done]. injection Hs' as <-. eexists. split; [done|].
  apply may_report_spec in Em as (_ & _ & _ & Hall). rewrite map_length.
  destruct Hall as [->|Hall]; [by left|right]. apply elem_of_list_fmap. exists f. split; [|by apply Hall].
  unfold to_event, report_of. simpl. by rewrite Hn2, Hp, Hu2.
Qed.

(** A process that is watched ends while a thread works on a descriptor; then there is a wait. *)
Example C71_occurrence_case : exists s f st s1 s2 fl, ~ is_fd_filter f /\ reachable freebsd true s
  /\ legal freebsd true s (LHappen f st true) /\ step freebsd s (LHappen f st true) = Some s1
  /\ undisturbed freebsd true f s1 s2 /\ wait s2 = WPoll true 8
  /\ armed true f (log s2) = Some (7%N, Oneshot) /\ readiness f (log s2) = Some fl.
Proof.
  runs freebsd true 1 [LThread 0 (Call (CAddFilter (UProcess 77 1) 7 Oneshot)); go 0; go 0; LThread 0 (Kernel_ok []); go 0] s Hr Hl E.
  exists s, (FProc 77), (Some 0%N). gets E wait Out Hw. gets E threads [Idle] Ht.
  eexists. eexists. eexists. split; [by intros (fd & [?|?])|]. split; [done|]. split; [split; [by cbn|done]|]. split; [reflexivity|].
  split.
  { eapply ud_step.
    - eapply ud_step.
      + apply ud_nil.
      + instantiate (1 := LThread 0 (Call (CDelete 12))). split; [done|]. split; [done|]. intros _ i p Hp.
        cbn [threads emit set_kern] in Hp. rewrite Ht in Hp. apply list_lookup_singleton_Some in Hp as [_ <-]. done.
      + cbn [step threads emit set_kern]. rewrite Ht. reflexivity.
      + intros o Ho. cbn [log emit set_pc set_kern] in Ho. apply app_inv_head in Ho. injection Ho as <-. done.
    - instantiate (1 := LWait true 8). simpl. lia.
    - cbn [step wait emit set_kern set_pc]. rewrite Hw. reflexivity.
    - intros o Ho. cbn [log emit set_pc set_kern set_wait] in Ho. apply app_inv_head in Ho. injection Ho as <-. done. }
  cbn [wait log emit set_pc set_kern set_wait]. rewrite Hl. split; [done|]. split; by vm_compute.
Qed.

Print Assumptions C71_occurrence_reported.
