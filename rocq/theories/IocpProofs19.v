(** One-shot waitables, and what is left of a waitable after its removal. *)
From stdpp Require Import prelude list gmap.
From Verif Require Import Bits Types EventModel Pool IocpModel IocpSpec IocpProofs IocpProofs2 IocpProofs3 IocpProofs4 IocpProofs5 IocpProofs6 IocpProofs7
  IocpProofs8 IocpProofs9 IocpProofs10 IocpProofs11 IocpProofs12 IocpProofs13 IocpProofs14 IocpProofs15 IocpOnceSpec.
Local Open Scope nat_scope.

Lemma dull_unarmed d p e m : Forall dull d -> Armed p e m ∉ d.
Proof. intros F H. rewrite Forall_forall in F. by apply F in H. Qed.
(** A packet that exists is armed only by a modify that has found it. *)
Lemma thread_arms c s i q a s' d p e m : tinv s -> thread_step c s i q a = Some s' -> log s' = log s ++ d -> exists_in (pmem s) p ->
  Armed p e m ∈ d -> exists cl, q = MSet cl p.
Proof.
  intros T H L X A.
  assert (N : log s' = log s -> exists cl, q = MSet cl p).
  { intros E. rewrite E in L. rewrite <- (app_nil_r (log s)) in L at 1. apply app_inv_head in L as <-. by apply not_elem_of_nil in A. }
  assert (N1 : forall d', Forall dull d' -> log s' = log s ++ d' -> exists cl, q = MSet cl p).
  { intros d' F E. rewrite E in L. apply app_inv_head in L as <-. by apply (dull_unarmed _ _ _ _ F) in A. }
  destruct q, a; try done; unfold thread_step in H.
  - injection H as <-. (eapply N1; [|cbn; reflexivity]); by repeat constructor.
  - destruct o; [injection H as <-; by apply N|]. exfalso. destruct (t_dom _ T) as (T1 & T2 & _).
    destruct c0; cbn in H; try done; injection H as <-; cbn in L; apply app_inv_head in L as <-; apply elem_of_list_singleton in A; injection A as -> -> ->; cbn in X.
    + apply T1 in X. lia.
    + apply T2 in X. lia.
  - destruct (insert_packet _ _ _) as [s1|] eqn:E; [|injection H as <-; by apply N]. injection H as <-.
    destruct c0, p0; cbn in E; try done; (case_in E; [done|]); injection E as <-; (eapply N1; [|cbn; reflexivity]); by repeat constructor.
  - destruct (lookup_packet _ _); injection H as <-; by apply N.
  - destruct (do_set _ _ _) as [[s1 b]|] eqn:E; [|done]. cbn [mbind option_bind] in H. injection H as <-.
    assert (L1 : log s1 = log s ++ d) by by destruct b. clear L.
    destruct c0, p0 as [j|j|j|]; cbn in E; try done; (case_in E; [|done]); cbn in E; injection E as <- _; cbn in L1; apply app_inv_head in L1 as <-; apply elem_of_list_singleton in A; injection A as -> -> ->; eauto.
  - destruct (ustep _ _ _ _ _) as [s1 x] eqn:E. apply (ustep_given 0) in E as [_ (d1 & D & F)]. injection H as <-. by eapply N1.
  - destruct (lookup_packet _ _); injection H as <-; [|by apply N]. destruct c0; by apply N.
  - destruct (delete_given 0 s p0 o) as [_ (d1 & D & F)]. destruct (do_delete s p0 o). injection H as <-. by eapply N1.
  - destruct (notified s); injection H as <-; by apply N.
  - unfold do_post in H; destruct o; injection H as <-; ((eapply N1; [|cbn; reflexivity]); by repeat constructor).
  - injection H as <-. (eapply N1; [|cbn; reflexivity]); by repeat constructor.
Qed.

(** Removed, and no modify has it in hand. *)
Definition frozen (p : pid) (s : state) : Prop := Removed p ∈ log s /\ forall i cl, threads s !! i <> Some (MSet cl p).
Lemma own_unarmed d p e m : Forall own d -> Armed p e m ∉ d.
Proof. intros F H. rewrite Forall_forall in F. by apply F in H as [_ ?]. Qed.
Lemma thread_sets c s i q a s' p cl : tinv s -> thread_step c s i q a = Some s' -> threads s !! i = Some q -> threads s' !! i = Some (MSet cl p) -> p ∈ table_refs s.
Proof.
  intros T H Hq X. pose proof (lookup_lt_Some _ _ _ Hq) as Ln.
  assert (N : forall s1 q1, s' = set_pc s1 i q1 -> threads s1 = threads s -> q1 = MSet cl p).
  { intros s1 q1 -> E. cbn in X. rewrite E, list_lookup_insert in X by done. congruence. }
  destruct q, a; try done; unfold thread_step in H.
  - injection H as <-. cbn in X. rewrite list_lookup_insert in X by done. destruct c0; try done; cbn in X; by destruct (supported _).
  - destruct o; [injection H as <-; by specialize (N _ _ eq_refl eq_refl)|]. destruct c0; cbn in H; try done; injection H as <-; by specialize (N _ _ eq_refl eq_refl).
  - destruct (insert_packet _ _ _) as [s1|] eqn:E; injection H as <-; [|by specialize (N _ _ eq_refl eq_refl)].
    assert (E1 : threads s1 = threads s) by (destruct c0, p0; cbn in E; try done; (case_in E; [done|]); by injection E as <-). by specialize (N _ _ eq_refl E1).
  - destruct (lookup_packet _ _) as [p1|] eqn:E; injection H as <-; [|by specialize (N _ _ eq_refl eq_refl)].
    specialize (N _ _ eq_refl eq_refl) as [= -> ->]. by eapply lookup_table.
  - destruct (do_set _ _ _) as [[s1 b]|] eqn:E; [|done]. cbn [mbind option_bind] in H. injection H as <-.
    assert (E1 : threads s1 = threads s) by (destruct c0, p0; cbn in E; try done; (case_in E; [|done]); cbn in E; by injection E as <- _).
    destruct b; by specialize (N _ _ eq_refl E1).
  - destruct (ustep _ _ _ _ _) as [s1 x] eqn:E. injection H as <-. cbn in X.
    assert (Y : threads s1 = threads s).
    { destruct u as [| | |j|j q]; cbn -[do_update] in E.
      + repeat case_match; by injection E as <- _.
      + destruct (do_update s p0 o) eqn:U. assert (threads s0 = threads s) by by injection U as _ <-. by injection E as <- _.
      + repeat case_match; by injection E as <- _.
      + destruct j; [by injection E as <- _|]. destruct (pending s); by injection E as <- _.
      + destruct (do_update s q o) as [r s2] eqn:U. assert (threads s2 = threads s) by by injection U as _ <-. destruct r; by injection E as <- _. }
    specialize (N _ _ eq_refl Y). by destruct x.
  - destruct (lookup_packet _ _); injection H as <-; [|by specialize (N _ _ eq_refl eq_refl)]. destruct c0; by specialize (N _ _ eq_refl eq_refl).
  - destruct (do_delete s p0 o) eqn:E. injection H as <-. assert (E1 : threads s0 = threads s) by by injection E as _ <-. by specialize (N _ _ eq_refl E1).
  - destruct (notified s); injection H as <-; by specialize (N _ _ eq_refl eq_refl).
  - unfold do_post in H; destruct o; injection H as <-; by specialize (N _ _ eq_refl eq_refl).
  - injection H as <-. cbn in X. by rewrite list_lookup_insert in X by done.
Qed.
Lemma frozen_step c s l s' p : reachable c s -> legal s l -> step c s l = Some s' -> frozen p s ->
  frozen p s' /\ exists d, log s' = log s ++ d /\ forall e m, Armed p e m ∉ d.
Proof.
  intros R Lg H [F1 F2]. pose proof (tinv_reach _ _ R) as T. destruct (k_gone _ (kinv_reach _ _ R) _ F1) as [Z EX].
  assert (Q : forall d, log s' = log s ++ d -> threads s' = threads s -> Forall own d -> frozen p s' /\ exists d, log s' = log s ++ d /\ forall e m, Armed p e m ∉ d).
  { intros d E1 E2 E3. split; [split; [rewrite E1; apply elem_of_app; by left|by rewrite E2]|]. exists d. split; [done|]. intros e m. by apply own_unarmed. }
  destruct (step_cases _ _ _ _ H) as [(i & q & a & _ & Hq & X)|[(a & _ & X)|[(cap & d & old & E & ->)|X]]].
  - destruct (step_log _ _ _ _ T H) as [d D]. split; [split|].
    + rewrite D. apply elem_of_app. by left.
    + intros j cl Hj. destruct (thread_calls _ _ _ _ _ _ T Hq X) as (q' & E & _). destruct (decide (i = j)) as [<-|Nj].
      * pose proof (thread_sets _ _ _ _ _ _ _ _ T X Hq Hj) as In. unfold tok in Z. apply occ_in in In. lia.
      * rewrite E, list_lookup_insert_ne in Hj by done. by apply F2 in Hj.
    + exists d. split; [done|]. intros e m A. destruct (thread_arms _ _ _ _ _ _ _ _ _ _ T X D EX A) as [cl ->]. by apply F2 in Hq.
  - destruct (wait_keeps _ _ _ _ T X) as (d & E1 & E2 & E3 & _). by eapply Q.
  - eapply Q; [cbn; reflexivity|done|by repeat constructor].
  - destruct (env_calls _ _ _ _ H X) as (d & D & O). eapply Q; [done| |done]. destruct l; try done; cbn -[do_post] in H.
    + by injection H as <-.
    + case_in H; [|done]. cbn in H. case_in H; [|done]. cbn in H. by injection H as <-.
    + case_in H; [|done]. cbn in H. by injection H as <-.
    + case_in H; [|done]. cbn -[do_post] in H. destruct c0 as [m|m].
      * case_in H; [|done]. cbn in H. by injection H as <-.
      * injection H as <-. unfold do_post. by destruct o.
Qed.
Lemma frozen_later c s s' p : reachable c s -> frozen p s -> later c s s' -> frozen p s' /\ exists d, log s' = log s ++ d /\ forall e m, Armed p e m ∉ d.
Proof.
  intros R F. induction 1 as [|s1 l s2 L (IH1 & d & IH2 & IH3) Lg H]; [split; [done|]; exists []; rewrite app_nil_r; split; [done|]; intros e m; apply not_elem_of_nil|].
  destruct (frozen_step _ _ _ _ _ (later_reachable _ _ _ R L) Lg H IH1) as (F2 & d2 & D2 & A2). split; [done|].
  exists (d ++ d2). split; [by rewrite D2, IH2, app_assoc|]. intros e m [A|A]%elem_of_app; [by eapply IH3|by eapply A2].
Qed.
(** No modify is in progress. *)
Lemma frozen_of_calls c s n : reachable c s -> Removed (PWait n) ∈ log s -> (forall i x e m, calls (log s) !! i <> Some (CModifyW x e m)) -> frozen (PWait n) s.
Proof.
  intros R H C. split; [done|]. intros i cl X. pose proof (t_pc _ (tinv_reach _ _ R) _ _ X) as [P1 P2]. destruct cl; try done.
  apply (C i h e m). by rewrite (cinv_reach _ _ R), X.
Qed.
Lemma told_once n h d i err : wtold n (h ++ d) -> interest_of (PWait n) h = Some (i, err, Oneshot) -> (forall e m, Armed (PWait n) e m ∉ d) ->
  tally (useful n) d <= (if ev_readable i || ev_writable i then 1 else 0).
Proof.
  revert h i err. induction d as [|o d IH]; intros h i err W E A; [cbn; lia|]. assert (W' : wtold n ((h ++ [o]) ++ d)) by by rewrite <- app_assoc.
  assert (A' : forall e m, Armed (PWait n) e m ∉ d) by (intros e m X; apply (A e m); by right).
  assert (K : interest_of (PWait n) (h ++ [o]) = Some (i, err, Oneshot) -> useful n o = false -> tally (useful n) (o :: d) <= (if ev_readable i || ev_writable i then 1 else 0)).
  { intros E1 U. unfold tally. cbn. rewrite U. by eapply IH. }
  assert (S : interest_of (PWait n) (h ++ [o]) = interest_step (PWait n) (Some (i, err, Oneshot)) o) by (rewrite interest_app, E; done).
  destruct o; try (by apply K); cbn in S.
  - apply K; [|done]. rewrite decide_False in S; [done|]. intros <-. apply (A e m). by left.
  - destruct r as [e|]; [|by apply K]. case_decide as D; [|apply K; [done|]; cbn; rewrite bool_decide_false by congruence; done]. subst p.
    destruct (W h (Some e) d eq_refl) as (e' & [= <-] & G). rewrite given_interest, E in G. injection G as <-.
    specialize (IH _ _ _ W' S A'). cbn in IH. unfold tally in *. cbn. rewrite bool_decide_true by done. cbn. destruct (ev_readable i || ev_writable i); cbn; lia.
Qed.
Lemma told_empty n h d (i : event N) err : interest_of (PWait n) h = Some (Ev (ev_key i) false false 0%N, err, Oneshot) -> (forall e m, Armed (PWait n) e m ∉ d) ->
  exists err', interest_of (PWait n) (h ++ d) = Some (Ev (ev_key i) false false 0%N, err', Oneshot).
Proof.
  revert h err. induction d as [|o d IH]; intros h err E A; [exists err; by rewrite app_nil_r|].
  assert (A' : forall e m, Armed (PWait n) e m ∉ d) by (intros e m X; apply (A e m); by right).
  assert (S : interest_of (PWait n) (h ++ [o]) = interest_step (PWait n) (Some (Ev (ev_key i) false false 0%N, err, Oneshot)) o) by (rewrite interest_app, E; done).
  replace (h ++ o :: d) with ((h ++ [o]) ++ d) by by rewrite <- app_assoc.
  destruct o; try (by eapply IH); cbn in S.
  - rewrite decide_False in S; [by eapply IH|]. intros <-. apply (A e m). by left.
  - destruct r as [e|]; [|by eapply IH]. case_decide; by eapply IH.
Qed.
(** Without an arming the interest stays as it is, or a one-shot interest becomes empty. *)
Lemma told_kept n h d i err m : interest_of (PWait n) h = Some (i, err, m) -> (forall e m, Armed (PWait n) e m ∉ d) ->
  exists i' err', interest_of (PWait n) (h ++ d) = Some (i', err', m) /\ (i' = i \/ (m = Oneshot /\ i' = Ev (ev_key i) false false 0%N)).
Proof.
  revert h i err. induction d as [|o d IH]; intros h i err E A; [exists i, err; rewrite app_nil_r; auto|].
  assert (A' : forall e m, Armed (PWait n) e m ∉ d) by (intros e m0 X; apply (A e m0); by right).
  assert (S : interest_of (PWait n) (h ++ [o]) = interest_step (PWait n) (Some (i, err, m)) o) by (rewrite interest_app, E; done).
  replace (h ++ o :: d) with ((h ++ [o]) ++ d) by by rewrite <- app_assoc.
  destruct o; try (by eapply IH); cbn in S.
  - rewrite decide_False in S; [by eapply IH|]. intros <-. apply (A e m0). by left.
  - destruct r as [e|]; [|by eapply IH]. case_decide; [|by eapply IH]. destruct m; try (by eapply IH).
    destruct (IH _ _ _ S A') as (i' & err' & E' & X). exists i', err'. split; [done|]. right. split; [done|]. by destruct X as [-> |[_ ->]].
Qed.
