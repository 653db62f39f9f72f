(** A call in a mode that is not supported fails on account of the mode, and no other call does. *)
From stdpp Require Import prelude list gmap.
From Verif Require Import Bits Types EventModel Pool IocpModel IocpSpec IocpProofs IocpProofs2 IocpProofs3 IocpProofs4 IocpProofs5 IocpProofs8 IocpProofs9 IocpProofs10 IocpProofs13 IocpProofs16 IocpProofs17.
Local Open Scope nat_scope.

Definition mode_blamed (r : res unit) : Prop := r = Err (ESimple KInvalidInput) \/ r = Err (ESimple KUnsupported).
Definition mode_fits (cl : call) : bool := match gives cl with Some (_, _, m) => supported m | None => true end.
Definition fits (q : pc) : Prop :=
  match q with
  | Out => True
  | Ret cl r => if mode_fits cl then ~ mode_blamed r else r = invalid_input
  | AMake cl | AInsert cl _ | MLook cl | MSet cl _ | Upd cl _ _ | DRemove cl | DBegin cl _ | NSwap cl | Post cl _ => mode_fits cl = true
  end.

Lemma update_mode m k p o : ~ mode_blamed (ef_res (update m k p o)).
Proof. unfold update, afd_poll, afd_cancel, mode_blamed. repeat case_match; cbn; intros [|]; congruence. Qed.
Lemma delete_mode m k p o : ~ mode_blamed (ef_res (begin_delete m k p o)).
Proof. unfold begin_delete, afd_cancel, mode_blamed. repeat case_match; cbn; intros [|]; congruence. Qed.
Lemma ustep_mode c s p u o s' r : ustep c s p u o = (s', inr r) -> ~ mode_blamed r.
Proof.
  unfold ustep. destruct u as [| | |[|n]|n q]; intros H.
  - discriminate H.
  - unfold do_update in H. injection H as <- <-. apply update_mode.
  - case_decide; [|discriminate H]. injection H as <- <-. unfold mode_blamed. intros [|]; congruence.
  - discriminate H.
  - destruct (pending s); discriminate H.
  - unfold do_update in H. pose proof (update_mode (pmem s) (sys s) q o) as N. destruct (ef_res _) as [[]|e|] eqn:E; [discriminate H| |]; injection H as <- <-; exact N.
Qed.

Lemma fits_entry cl : fits (entry cl).
Proof. destruct cl; cbn; unfold mode_fits; cbn; try done; by destruct (supported m) eqn:E; cbn; unfold mode_fits; cbn; rewrite E. Qed.

Lemma fits_thread c s i q a s' q' : threads s !! i = Some q -> thread_step c s i q a = Some s' -> threads s' !! i = Some q' -> fits q -> fits q'.
Proof.
  intros Hq H Hq' F. pose proof (lookup_lt_Some _ _ _ Hq) as L.
  assert (K : forall s2 q2, threads s2 = threads s -> s' = set_pc s2 i q2 -> q' = q2).
  { intros s2 q2 T ->. cbn in Hq'. rewrite T, list_lookup_insert in Hq' by done. by injection Hq'. }
  assert (K2 : forall s2 q2 o, threads s2 = threads s -> s' = emit (set_pc s2 i q2) o -> q' = q2).
  { intros s2 q2 o T ->. cbn in Hq'. rewrite T, list_lookup_insert in Hq' by done. by injection Hq'. }
  assert (B : forall e, ~ mode_blamed (Err (EOs e))) by (intros e [|]; congruence).
  assert (B2 : ~ mode_blamed (Err (ESimple KAlreadyExists))) by (intros [|]; congruence).
  assert (B3 : ~ mode_blamed (Err (ESimple KNotFound))) by (intros [|]; congruence).
  assert (B4 : ~ mode_blamed (Ok tt)) by (intros [|]; congruence).
  destruct q as [|cl|cl p|cl|cl p|cl p u|cl|cl p|cl|cl p|cl r], a as [cl'|o]; try done; unfold thread_step in H; cbn [fits] in F.
  - injection H as <-. erewrite (K2 s (entry cl')); [apply fits_entry|done|done].
  - destruct o as [e|].
    + injection H as <-. erewrite (K s); [|done|done]. cbn. by rewrite F.
    + destruct (new_packet _ _) as [[[m p] ob]|]; [|done]. cbn [mbind option_bind] in H. injection H as <-. erewrite (K (emit (set_mem s m) ob)); [|done|done]. done.
  - destruct (insert_packet _ _ _) as [s1|] eqn:E; injection H as <-.
    + assert (X : threads s1 = threads s) by (destruct cl, p; cbn in E; try done; (case_match; [done|]); by injection E as <-).
      rewrite (K s1 _ X eq_refl). done.
    + erewrite (K (set_mem s (drop_ref (pmem s) p))); [|done|done]. cbn. by rewrite F.
  - destruct (lookup_packet _ _) as [p|] eqn:E; injection H as <-.
    + erewrite (K (set_mem s (clone (pmem s) p))); [|done|done]. done.
    + erewrite (K s); [|done|done]. cbn. by rewrite F.
  - destruct (do_set _ _ _) as [[s1 b]|] eqn:E; [|done]. cbn [mbind option_bind] in H. injection H as <-.
    assert (X : threads s1 = threads s).
    { destruct cl, p; cbn in E; try done; destruct (_ !! n); try done; cbn in E; by injection E as <- _. }
    destruct b.
    + rewrite (K s1 _ X eq_refl). done.
    + erewrite (K (set_mem s1 (drop_ref (pmem s1) p))); [|done|done]. cbn. by rewrite F.
  - destruct (ustep _ _ _ _ _) as [s1 x] eqn:E. injection H as <-.
    assert (X : threads s1 = threads s) by (by destruct (ustep_frame _ _ _ _ _ _ _ E) as (? & ? & ? & ? & ? & ?)).
    destruct x as [u'|r]; (erewrite (K s1); [|done|done]); [done|]. cbn. rewrite F. by apply (ustep_mode _ _ _ _ _ _ _ E).
  - destruct (lookup_packet _ _) as [p|] eqn:E; injection H as <-.
    + erewrite (K (remove_packet s cl)); [|by destruct cl|done]. done.
    + erewrite (K s); [|done|done]. cbn. by rewrite F.
  - destruct (do_delete s p o) as [r s1] eqn:E. injection H as <-. unfold do_delete in E. injection E as <- <-.
    erewrite (K (emit (apply_eff s p (begin_delete (pmem s) (sys s) p o)) (Removed p))); [|done|done]. cbn. rewrite F. apply delete_mode.
  - destruct (notified s); injection H as <-.
    + erewrite (K s); [|done|done]. cbn. by rewrite F.
    + erewrite (K (set_flags s (polling s) true)); [|done|done]. done.
  - destruct (do_post _ _ _) as [r s1] eqn:E. injection H as <-. unfold do_post in E. destruct o as [e|]; injection E as <- <-.
    + erewrite (K (emit (leak (set_mem s (clone (pmem s) p)) [p]) (Fault p))); [|done|done]. cbn. by rewrite F.
    + erewrite (K (emit (set_sys (set_mem s (clone (pmem s) p)) (enqueue (sys s) p)) (Posted p))); [|done|done]. cbn. by rewrite F.
  - injection H as <-. erewrite (K2 s Out); [done|done|done].
Qed.

Record mode_inv (s : state) : Prop := {
  mi_pc : forall i q, threads s !! i = Some q -> fits q;
  mi_log : forall i cl r, Returned i cl r ∈ log s -> if mode_fits cl then ~ mode_blamed r else r = invalid_input
}.
Lemma mode_inv_reach c s : reachable c s -> mode_inv s.
Proof.
  induction 1 as [n|s l s' Hr IH L H].
  { split; [|intros i cl r X; by apply not_elem_of_nil in X]. intros i q Hi. cbn in Hi. by apply lookup_replicate in Hi as [-> _]. }
  pose proof (tinv_reach _ _ Hr) as T. destruct IH as [A B].
  assert (Q : forall d, threads s' = threads s -> log s' = log s ++ d -> (forall i cl r, Returned i cl r ∉ d) -> mode_inv s').
  { intros d Et Ed N. split; [by rewrite Et|]. rewrite Ed. intros i cl r. rewrite elem_of_app. intros [X|X]; [by apply (B i)|by destruct (N i cl r)]. }
  destruct (step_cases _ _ _ _ H) as [(i & q & a & _ & Hq & X)|[(a & _ & X)|[(cap & d & old & E & ->)|X]]].
  - destruct (thread_calls _ _ _ _ _ _ T Hq X) as (q' & Et & d & Ed & D). split.
    + intros j r Hj. destruct (decide (j = i)) as [->|N].
      * by apply (fits_thread _ _ _ _ _ _ _ Hq X Hj), (A i).
      * rewrite Et, list_lookup_insert_ne in Hj by done. by apply (A j).
    + rewrite Ed. intros j cl r. rewrite elem_of_app. intros [Y|Y]; [by apply (B j)|].
      destruct D as [(cl' & _ & _ & ->)|[(cl' & r' & -> & _ & ->)|[_ D]]].
      * by apply elem_of_list_singleton in Y.
      * apply elem_of_list_singleton in Y. injection Y as <- <- <-. by apply (A _ _ Hq).
      * by apply quiet_returned in Y.
  - destruct (wait_keeps _ _ _ _ T X) as (d & Et & Ed & F & _). apply own_calls in F. apply (Q d); try done. intros. by apply quiet_returned.
  - apply (Q [WaitBegun d old]); [done|done|]. intros i cl r. by rewrite elem_of_list_singleton.
  - destruct (env_calls _ _ _ _ H X) as (d & Ed & F). apply own_calls in F. destruct (env_log _ _ _ _ H X) as (_ & Et & _). apply (Q d); try done. intros. by apply quiet_returned.
Qed.
