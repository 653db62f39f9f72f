(** Invariants over all steps: posted packets, failures, calls, notifications, deletion. *)
From stdpp Require Import prelude list gmap.
From Verif Require Import Bits Types EventModel Pool IocpModel IocpSpec IocpProofs IocpProofs2 IocpProofs3 IocpProofs4 IocpProofs5 IocpProofs6 IocpProofs7 IocpProofs8 IocpProofs9.
Local Open Scope nat_scope.

Lemma step_cases c s l s' :
  step c s l = Some s' ->
  (exists i q a, l = LThread i a /\ threads s !! i = Some q /\ thread_step c s i q a = Some s')
  \/ (exists a, l = LWaiter a /\ wait_step c s a = Some s')
  \/ (exists cap d old, waiter s = WOut /\ s' = emit (set_waiter s (WSwap (Loc cap d false []))) (WaitBegun d old))
  \/ (match l with LThread _ _ | LWait _ _ _ | LWaiter _ => False | _ => True end).
Proof.
  intros H. destruct l; try (by right; right; right); cbn in H.
  - left. destruct (threads s !! i) as [q|] eqn:E; [|done]. by exists i, q, a.
  - right. right. left. destruct (waiter s) eqn:E; try done. injection H as <-. by exists cap, d, old.
  - right. left. by exists a.
Qed.
Lemma aside_gone p d : plain p -> Forall aside d -> tally (gone p) d = 0.
Proof.
  intros Hp F. apply tally_none. intros o Ho. rewrite Forall_forall in F. specialize (F _ Ho). unfold gone.
  destruct o; try done; cbn; rewrite bool_decide_false; try done; intros <-; by destruct p.
Qed.

(** ** Posted packets *)

Definition balanced (s : state) : Prop := forall p, plain p -> tally (posts p) (log s) = tally (gone p) (log s) + outstanding s p.
Lemma balanced_reach c s : reachable c s -> balanced s.
Proof.
  induction 1 as [n|s l s' Hr IH L H]; [intros p _; done|]. intros p Hp. specialize (IH p Hp). pose proof (tinv_reach _ _ Hr) as T.
  destruct (step_cases _ _ _ _ H) as [(i & q & a & _ & Hq & X)|[(a & _ & X)|[(cap & d & old & E & ->)|X]]].
  - destruct (thread_log _ _ _ _ _ _ T Hq X) as (EW & d & D1 & D2 & _ & D4). rewrite D1, !tally_app, IH, (aside_gone p d) by done.
    unfold outstanding. rewrite EW.
    assert (P : forall y, occ p [y] = tally (posts p) [Posted y]) by (intros y; unfold tally, occ; cbn; done).
    destruct q; try (destruct D4 as [D4 D5]; rewrite D4, (tally_none (posts p) d); [lia|]; intros o Ho; destruct o; try done; exfalso; by eapply D5).
    destruct D4 as [(e & -> & D4 & _)|(-> & D4 & _)]; rewrite D4; [cbn; lia|]. rewrite occ_app, P. lia.
  - destruct (wait_keeps _ _ _ _ T X) as (d & _ & D1 & D2 & _ & D4). rewrite D1, !tally_app, IH, (own_posts p d), (D4 p Hp) by done. lia.
  - cbn. rewrite !tally_app, IH. unfold outstanding. rewrite E. cbn. lia.
  - destruct (env_log _ _ _ _ H X) as (EW & _ & _ & _ & _ & d & D1 & D2 & D3 & b & D4 & D5).
    assert (D6 : p ∉ b /\ Posted p ∉ d) by (apply D5; destruct p; try done; eauto). destruct D6 as [D6 D7].
    rewrite D1, !tally_app, IH, (aside_gone p d) by done. unfold outstanding. rewrite EW, D4, occ_app, (occ_not_in p b) by done.
    rewrite (tally_none (posts p) d); [lia|]. intros o Ho. destruct o; try done. cbn. rewrite bool_decide_false; [done|]. by intros <-.
Qed.
Lemma gone_split p h : tally (gone p) h = tally (taken p) h + tally (losses p) h.
Proof. symmetry. apply cnt_add. intros o. unfold gone. destruct o; cbn; try done; by case_bool_decide. Qed.

(** ** Failures *)

Lemma blamed_app h d : blamed h -> blamed d -> blamed (h ++ d).
Proof.
  intros B1 B2 [p Hp]. apply elem_of_app in Hp as [Hp|Hp].
  - destruct B1 as [q Hq]; [by exists p|]. exists q. apply elem_of_app. by left.
  - destruct B2 as [q Hq]; [by exists p|]. exists q. apply elem_of_app. by right.
Qed.
Lemma blamed_reach c s : reachable c s -> blamed (log s).
Proof.
  induction 1 as [n|s l s' Hr IH L H]; [by intros [r ?%not_elem_of_nil]|]. pose proof (tinv_reach _ _ Hr) as T.
  destruct (step_cases _ _ _ _ H) as [(i & q & a & _ & Hq & X)|[(a & _ & X)|[(cap & d & old & E & ->)|X]]].
  - destruct (thread_log _ _ _ _ _ _ T Hq X) as (EW & d & -> & D2 & D3 & D4). by apply blamed_app.
  - destruct (wait_keeps _ _ _ _ T X) as (d & _ & -> & D2 & D3 & D4). by apply blamed_app.
  - apply blamed_app; [done|]. by intros [r ?%elem_of_list_singleton].
  - destruct (env_log _ _ _ _ H X) as (EW & _ & _ & _ & _ & d & -> & D2 & D3 & _). apply blamed_app; [done|]. by intros [r ?%D3].
Qed.

(** ** The waiting thread dies only on a closed socket *)

Definition closed_seen (h : list obs) : Prop := exists n b e, Done n b e ∈ h /\ intersects e AFD_LOCAL_CLOSE = true.
Lemma last_done_in n h b e : last_done n h = Some (b, e) -> Done n b e ∈ h.
Proof.
  induction h as [|o h IH] using rev_ind; [done|]. rewrite last_done_app, elem_of_app. cbn [fold_left].
  destruct o; intros H; try (left; by apply IH). case_decide; [|left; by apply IH]. simplify_eq. right. constructor.
Qed.
Definition dead (w : wpc) : bool := match w with WDead _ _ _ => true | _ => false end.
Lemma dead_reach c s : reachable c s -> dead (waiter s) = true -> closed_seen (log s).
Proof.
  induction 1 as [n|s l s' Hr IH L H]; [done|]. pose proof (tinv_reach _ _ Hr) as T.
  destruct (step_cases _ _ _ _ H) as [(i & q & a & _ & Hq & X)|[(a & _ & X)|[(cap & d & old & E & ->)|X]]].
  - destruct (thread_log _ _ _ _ _ _ T Hq X) as (EW & d & -> & _). rewrite EW. intros D. destruct (IH D) as (n & b & e & ? & ?).
    exists n, b, e. split; [apply elem_of_app; by left|done].
  - intros D. destruct (wait_keeps _ _ _ _ T X) as (d & _ & DL & _).
    assert (KK : closed_seen (log s) -> closed_seen (log s')).
    { intros (n & b & e & ? & ?). exists n, b, e. rewrite DL. split; [apply elem_of_app; by left|done]. }
    apply KK. clear KK DL. pose proof (t_wait _ T) as TW. unfold wait_step in X.
    destruct (waiter s) as [|l0|l0|l0 q|l0 z|l0 z b|l0 z b|l0 z p b|l0 z b ret p u|l0 e g|l0|d0 own b] eqn:E, a;
      try done; try (by destruct b); cbn in TW; try (by injection X as <-).
    + destruct (pending s); by injection X as <-.
    + exfalso. assert (NP : (do_update s q o).1 <> Panic) by by apply update_nopanic.
      destruct (do_update s q o) as [[] s1]; [| |done]; by injection X as <-.
    + case_decide; [done|]. by injection X as <-.
    + destruct b; [case_match|]; by injection X as <-.
    + apply Forall_cons in TW as [Wp Wb]. destruct p as [j|j|j|]; unfold feed_step in X.
      * destruct (socks (pmem s) !! j) as [k|] eqn:Ek; [|done]. cbn [mbind option_bind] in X.
        destruct (feed_sock k) as [k'|k'|k' r] eqn:F; [|by injection X as <-..].
        unfold feed_sock in F. destruct (sk_deleting k); [done|]. destruct (reported k) as [[[r w] f]|] eqn:R; [by destruct (_ || _)|].
        assert (A := ainv_reach _ _ _ _ Hr Ek). rewrite E in A. cbn [opened] in A.
        destruct (a_done _ _ _ _ _ _ A) as (B1 & _ & B3); [rewrite occ_one, decide_True by done; lia|].
        exists j, (sk_iosb k), (flags_of (sk_count k) (sk_events k)). split; [by apply last_done_in|]. unfold reported in R. unfold flags_of.
        destruct (sk_iosb k); try done; case_decide; try done; destruct (intersects _ AFD_LOCAL_CLOSE); try done; by destruct (afd_mask_to_event _).
      * destruct (wtbs (pmem s) !! j) as [k|] eqn:Ek; [|done]. cbn in X. by injection X as <-.
      * destruct (customs (pmem s) !! j) as [e|] eqn:Ek; [|done]. cbn in X. by injection X as <-.
      * by injection X as <-.
    + exfalso. destruct TW as (TW1 & TW2 & TW3). destruct (ustep _ _ _ _ _) as [s1 x] eqn:Eu.
      destruct (ustep_log _ _ _ _ _ _ _ TW1 TW2 Eu) as (Q & d1 & D1 & D2 & D3 & D4).
      destruct x as [u'|[[]|e|]]; [| | |done]; by injection X as <-.
  - done.
  - destruct (env_log _ _ _ _ H X) as (EW & _ & _ & _ & _ & d & -> & _). rewrite EW. intros D. destruct (IH D) as (n & b & e & ? & ?).
    exists n, b, e. split; [apply elem_of_app; by left|done].
Qed.

(** ** Calls in progress *)

Definition cinv (s : state) : Prop := forall i, calls (log s) !! i = threads s !! i ≫= call_of.
Lemma own_calls d : Forall own d -> Forall (fun o => call_obs o = false) d.
Proof. intros H. eapply Forall_impl; [exact H|]. by intros o [? _]. Qed.
Lemma env_calls c s l s' :
  step c s l = Some s' -> (match l with LThread _ _ | LWait _ _ _ | LWaiter _ => False | _ => True end) ->
  exists d, log s' = log s ++ d /\ Forall own d.
Proof.
  intros H L. destruct l; try done; cbn -[do_post] in H.
  - injection H as <-. exists []. rewrite app_nil_r. done.
  - case_in H; [|done]. cbn in H. case_in H; [|done]. cbn in H. injection H as <-. eexists. split; [done|]. by repeat constructor.
  - case_in H; [|done]. cbn in H. injection H as <-. eexists. split; [done|]. by repeat constructor.
  - case_in H; [|done]. cbn -[do_post] in H. destruct c0 as [m|m].
    + case_in H; [|done]. cbn in H. injection H as <-. exists []. rewrite app_nil_r. done.
    + injection H as <-. destruct o; cbn; eexists; (split; [done|]); by repeat constructor.
Qed.
Lemma cinv_reach c s : reachable c s -> cinv s.
Proof.
  induction 1 as [n|s l s' Hr IH L H].
  { intros i. cbn. rewrite lookup_empty. destruct (replicate n Out !! i) eqn:E; [|done]. by apply lookup_replicate in E as [-> _]. }
  pose proof (tinv_reach _ _ Hr) as T. intros j. specialize (IH j) as IHj.
  destruct (step_cases _ _ _ _ H) as [(i & q & a & _ & Hq & X)|[(a & _ & X)|[(cap & d & old & E & ->)|X]]].
  - destruct (thread_calls _ _ _ _ _ _ T Hq X) as (q' & Et & d & -> & D). rewrite Et.
    assert (Li : i < length (threads s)) by by eapply lookup_lt_Some.
    assert (TJ : <[i:=q']> (threads s) !! j = if decide (j = i) then Some q' else threads s !! j).
    { case_decide; [subst; by apply list_lookup_insert|by apply list_lookup_insert_ne]. }
    rewrite TJ. destruct D as [(cl & -> & -> & ->)|[(cl & r & -> & -> & ->)|[D1 D2]]].
    + rewrite calls_snoc. cbn [calls_step]. case_decide; [subst|].
      * rewrite lookup_insert. cbn. by rewrite call_entry.
      * by rewrite lookup_insert_ne.
    + rewrite calls_snoc. cbn [calls_step]. case_decide; [subst; by rewrite lookup_delete|by rewrite lookup_delete_ne].
    + rewrite calls_quiet by done. rewrite IHj. case_decide; [subst|done]. rewrite Hq. done.
  - destruct (wait_keeps _ _ _ _ T X) as (d & -> & -> & D2 & _). by rewrite calls_quiet by by apply own_calls.
  - cbn [log emit emits set_waiter threads]. by rewrite calls_quiet by by repeat constructor.
  - destruct (env_calls _ _ _ _ H X) as (d & -> & D). rewrite calls_quiet by by apply own_calls.
    by destruct (env_log _ _ _ _ H X) as (_ & -> & _).
Qed.
