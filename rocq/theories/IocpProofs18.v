(** Requests ask for what an interest said, and a report of just that never mentions the local close. *)
From stdpp Require Import prelude list gmap.
From Verif Require Import Bits Types EventModel Pool IocpModel IocpSpec IocpProofs IocpProofs2 IocpProofs3 IocpProofs4 IocpProofs5 IocpProofs8 IocpProofs10.
Local Open Scope nat_scope.

(** At some time the interest of packet [n] asked for [m]. *)
Definition once_asked (n : nat) (h : list obs) (m : N) : Prop := exists h1 h2, h = h1 ++ h2 /\ asked n h1 = Some m.
Lemma once_app n h d m : once_asked n h m -> once_asked n (h ++ d) m.
Proof. intros (h1 & h2 & -> & A). exists h1, (h2 ++ d). by rewrite app_assoc. Qed.
Definition mask_inv (n : nat) (v : view) (h : list obs) : Prop := forall x, x ∈ v_ops v -> once_asked n h (op_mask x).
Lemma remove_in {A} (x : A) i l : x ∈ remove_nth i l -> x ∈ l.
Proof.
  revert i. induction l as [|y l IH]; intros [|i]; cbn; try done.
  - intros H. by constructor.
  - intros [->|H]%elem_of_cons; [by constructor|]. constructor. by apply (IH i).
Qed.
Lemma cancel_in n x F : x ∈ map (cancel_op n) F -> exists y, y ∈ F /\ op_mask x = op_mask y.
Proof. intros (y & -> & Hy)%elem_of_list_fmap. exists y. split; [done|]. unfold cancel_op. by repeat case_match. Qed.
Lemma mask_cancel n k F o k' F' d x : cancel_view n k F o = (k', F', d) -> x ∈ F' -> exists y, y ∈ F /\ op_mask x = op_mask y.
Proof.
  unfold cancel_view. intros E H. 
  repeat case_match; injection E as <- <- <-; try (by apply (cancel_in n)); by exists x.
Qed.
Lemma mask_step n v d v' h : vstep n v d v' -> vinv n v h -> mask_inv n v h -> mask_inv n v' (h ++ d).
Proof.
  intros S [_ V] I x Hx.
  destruct S; cbn [v_ops v_k v_c v_o] in *; try (apply once_app, I; exact Hx).
  - unfold update_view in H. destruct (sk_deleting k); [injection H as <- <- <-; by apply once_app, I|].
    destruct (sk_status k) as [|f|].
    + unfold poll_view in H. destruct (sk_in_use k); [injection H as <- <- <-; by apply once_app, I|].
      destruct out as [e|].
      * destruct (bad_handle e); injection H as <- <- <-; by apply once_app, I.
      * injection H as <- <- <-. apply elem_of_app in Hx as [Hx|Hx]; [by apply once_app, I|].
        apply elem_of_list_singleton in Hx as ->. apply once_app. exists h, []. split; [by rewrite app_nil_r|].
        unfold asked. by rewrite (a_int _ _ _ _ _ _ V).
    + case_bool_decide; [|injection H as <- <- <-; by apply once_app, I].
      destruct (mask_cancel _ _ _ _ _ _ _ _ H Hx) as (y & Hy & ->). by apply once_app, I.
    + injection H as <- <- <-; by apply once_app, I.
  - unfold delete_view in H. destruct (sk_deleting k); [injection H as <- <- <-; by apply once_app, I|].
    destruct (sk_status k) as [|f|]; [injection H as <- <- <-; by apply once_app, I| |injection H as <- <- <-; by apply once_app, I].
    destruct (mask_cancel _ _ _ _ _ _ _ _ H Hx) as (y & Hy & ->). by apply once_app, I.
  - apply once_app, I. by eapply remove_in.
Qed.
Lemma mask_reach c s n : reachable c s -> mask_inv n (view_of n s) (log s).
Proof.
  induction 1 as [i|s l s' Hr IH L H]; [intros x Hx; cbn in Hx; by apply not_elem_of_nil in Hx|].
  destruct (refines_step n c s l s' (tinv_reach _ _ Hr) L H) as (d & -> & V).
  assert (IV := vinv_reach _ _ n Hr). revert IH IV. generalize (log s).
  induction V as [|v d v1 d' v2 V IHV X]; intros h I IV; [by rewrite app_nil_r|].
  rewrite app_assoc. eapply mask_step; [exact X| |by apply IHV]. by eapply vinv_steps.
Qed.
Lemma op_asked c s x : reachable c s -> x ∈ ops (sys s) -> once_asked (op_pk x) (log s) (op_mask x).
Proof. intros R H. apply (mask_reach c s (op_pk x) R). cbn. by apply mine_in. Qed.

(** Only the system ends a request. *)
Definition undone (o : obs) : Prop := match o with Done _ _ _ => False | _ => True end.
Definition plain (s s' : state) : Prop := exists d, log s' = log s ++ d /\ Forall undone d.
Lemma plain_none s s' d : log s' = log s ++ d -> Forall undone d -> plain s s'.
Proof. intros E F. by exists d. Qed.
Lemma plain_refl s s' : leaks s' = leaks s' -> log s' = log s -> plain s s'.
Proof. intros _ E. exists []. by rewrite app_nil_r. Qed.
Lemma plain_trans a b c : plain a b -> plain b c -> plain a c.
Proof. intros (d & A & F) (d' & B & F'). exists (d ++ d'). rewrite B, A, app_assoc. split; [done|]. by apply Forall_app. Qed.
Lemma plain_after s s1 s' d : plain s s1 -> log s' = log s1 ++ d -> Forall undone d -> plain s s'.
Proof. intros H E F. eapply plain_trans; [exact H|]. by eapply plain_none. Qed.
Lemma plain_like s s1 s' : plain s s1 -> leaks s' = leaks s' -> log s' = log s1 -> plain s s'.
Proof. intros H _ E. apply (plain_after _ _ _ [] H); [|done]. by rewrite app_nil_r. Qed.
Lemma plain_from s s0 s' : plain s0 s' -> leaks s0 = leaks s0 -> log s0 = log s -> plain s s'.
Proof. intros H _ E. eapply plain_trans; [|exact H]. by apply plain_refl. Qed.
Lemma plain_update s p o : plain s (do_update s p o).2.
Proof. eexists. split; [done|]. case_match; by repeat constructor. Qed.
Lemma plain_delete s p o : plain s (do_delete s p o).2.
Proof. eexists. split; [cbn; by rewrite <- app_assoc|]. case_match; by repeat constructor. Qed.
Lemma plain_post s p o : plain s (do_post s p o).2.
Proof. destruct o; eexists; (split; [done|by repeat constructor]). Qed.
Lemma undone_lost b : Forall undone (map Lost b).
Proof. induction b; by constructor. Qed.
Lemma undone_lost_ret b r evs : Forall undone (map Lost b ++ [WaitRet r evs]).
Proof. apply Forall_app. split; [apply undone_lost|by repeat constructor]. Qed.
Ltac plain1 := eapply (plain_none _ _ [_]); [reflexivity|repeat constructor].
Ltac plain2 E d := eapply (plain_after _ _ _ d E); [reflexivity|repeat constructor].
Ltac plain3 E := eapply (plain_after _ _ _ _ E); [cbn [log emit emits abandon]; reflexivity|first [apply undone_lost|apply undone_lost_ret|repeat constructor]].
Lemma plain_ustep c s p u o s' x : ustep c s p u o = (s', x) -> plain s s'.
Proof.
  intros H. destruct u as [| | |n|n q]; cbn -[do_update] in H.
  - injection H as <- _. by apply plain_refl.
  - pose proof (plain_update s p o) as E. destruct (do_update s p o). by injection H as <- _.
  - case_decide; injection H as <- _; by apply plain_refl.
  - destruct n; [injection H as <- _; by apply plain_refl|]. destruct (pending s); injection H as <- _; by apply plain_refl.
  - pose proof (plain_update s q o) as E. destruct (do_update s q o) as [r s1]. destruct r; injection H as <- _; [done| |];
      plain2 E [Lost p].
Qed.
Lemma plain_step c s l s' : step c s l = Some s' -> (match l with LDone _ _ _ _ => False | _ => True end) -> plain s s'.
Proof.
  intros H NL. destruct (step_cases _ _ _ _ H) as [(i & q & a & _ & Hq & X)|[(a & _ & X)|[(cap & d & old & E & ->)|X]]].
  - destruct q, a; try done; unfold thread_step in X.
    + injection X as <-. by plain1.
    + destruct o; [injection X as <-; by apply plain_refl|]. destruct c0; cbn in X; try done; injection X as <-; by plain1.
    + destruct (insert_packet _ _ _) as [s1|] eqn:E; [|injection X as <-; by apply plain_refl]. injection X as <-.
      destruct c0, p; cbn in E; try done; (case_in E; [done|]); injection E as <-; by plain1.
    + destruct (lookup_packet _ _); injection X as <-; by apply plain_refl.
    + destruct (do_set _ _ _) as [[s1 b]|] eqn:E; [|done]. cbn [mbind option_bind] in X. injection X as <-.
      assert (Y : plain s s1).
      { destruct c0, p; cbn in E; try done; (case_in E; [|done]); cbn in E; injection E as <- _; by plain1. }
      destruct b; by eapply (plain_like _ _ _ Y).
    + destruct (ustep _ _ _ _ _) as [s1 x] eqn:E. apply plain_ustep in E. injection X as <-. by eapply (plain_like _ _ _ E).
    + destruct (lookup_packet _ _); injection X as <-; [|by apply plain_refl]. destruct c0; by apply plain_refl.
    + pose proof (plain_delete s p o) as E. destruct (do_delete s p o). injection X as <-. by eapply (plain_like _ _ _ E).
    + destruct (notified s); injection X as <-; by apply plain_refl.
    + pose proof (plain_post (set_mem s (clone (pmem s) p)) p o) as E. destruct (do_post _ _ _). injection X as <-.
      eapply (plain_from s); [by eapply (plain_like _ _ _ E)|done|done].
    + injection X as <-. by plain1.
  - unfold wait_step in X.
    destruct (waiter s) as [|l0|l0|l0 q|l0 z|l0 z b|l0 z b|l0 z p b|l0 z b ret p u|l0 e g|l0|d own b] eqn:E, a;
      try done; try (by destruct b); try (injection X as <-; by apply plain_refl).
    + destruct (pending s) as [|q r] eqn:Ep; injection X as <-; [by plain1|by apply plain_refl].
    + pose proof (plain_update s q o) as E1. destruct (do_update s q o). injection X as <-. by eapply (plain_like _ _ _ E1).
    + case_decide; [done|]. injection X as <-. by apply plain_refl.
    + destruct b; [case_match|]; injection X as <-; by apply plain_refl.
    + destruct p as [j|j|j|]; unfold feed_step in X.
      * destruct (socks (pmem s) !! j) as [k|] eqn:Ek; [|done]. cbn [mbind option_bind] in X.
        destruct (feed_sock k) as [k'|k'|k' r] eqn:F; [|injection X as <-; by plain1|injection X as <-; by plain1].
        destruct (sources s !! sk_socket k) as [n'|] eqn:Es; [|injection X as <-; by plain1].
        case_decide; [injection X as <-; by plain1|]. set (s2 := set_maps _ _ _) in *. pose proof (plain_delete s2 (PSock n') o) as E1.
        destruct (do_delete s2 _ o) as [r s3]. cbn [snd] in *. injection X as <-.
        assert (E2 : plain s s3). { eapply plain_trans; [|exact E1]. by plain1. }
        destruct r as [[]|err|]; [by eapply (plain_like _ _ _ E2)| |by eapply (plain_like _ _ _ E2)]. plain3 E2.
      * destruct (wtbs (pmem s) !! j) as [k|] eqn:Ek; [|done]. cbn [mbind option_bind] in X. destruct (feed_wtb k) as [k' r]. injection X as <-. by plain1.
      * destruct (customs (pmem s) !! j) as [k|] eqn:Ek; [|done]. cbn [mbind option_bind] in X. injection X as <-. by plain1.
      * injection X as <-. by plain1.
    + destruct (ustep _ _ _ _ _) as [s1 x] eqn:Eu. apply plain_ustep in Eu. injection X as <-.
      destruct x as [u'|[[]|e|]]; try (by eapply (plain_like _ _ _ Eu)). plain3 Eu.
    + injection X as <-. by plain1.
    + injection X as <-. by plain1.
  - by plain1.
  - destruct l; try done; cbn -[do_post] in H.
    + injection H as <-. by apply plain_refl.
    + case_in H; [|done]. cbn in H. injection H as <-. by plain1.
    + case_in H; [|done]. cbn -[do_post] in H. destruct c0 as [m|m].
      * case_in H; [|done]. cbn in H. injection H as <-. by apply plain_refl.
      * injection H as <-. eapply (plain_from s); [apply plain_post|done|done].
Qed.
Lemma asked_reachable c s : reachable_asked c s -> reachable c s.
Proof. induction 1 as [n|s l s' R IH L A H]; [constructor|by eapply reach_step]. Qed.
Lemma done_asked c s n b e : reachable_asked c s -> Done n b e ∈ log s -> exists m, once_asked n (log s) m /\ N.land e m = e.
Proof.
  intros R. revert n b e. induction R as [i|s l s' R IH L A H]; intros n b e Hin; [cbn in Hin; by apply not_elem_of_nil in Hin|].
  assert (Rr := asked_reachable _ _ R).
  assert (X : plain s s' \/ exists i b n e, l = LDone i b n e).
  { destruct l; try (left; by eapply plain_step). right. by repeat eexists. }
  destruct X as [(d & E & F)|(i & b' & j & e' & ->)].
  - rewrite E in Hin |- *. apply elem_of_app in Hin as [Hin|Hin].
    + destruct (IH _ _ _ Hin) as (m & M & ?). exists m. split; [by apply once_app|done].
    + rewrite Forall_forall in F. by apply F in Hin.
  - cbn in H, A. destruct (ops (sys s) !! i) as [o|] eqn:Eo; [|done]. cbn in H. case_in H; [|done]. cbn in H. injection H as <-. cbn [log emit set_sys set_mem] in Hin |- *.
    apply elem_of_app in Hin as [Hin|Hin].
    + destruct (IH _ _ _ Hin) as (m & M & ?). exists m. split; [by apply once_app|done].
    + apply elem_of_list_singleton in Hin. injection Hin as -> -> ->. exists (op_mask o). split.
      * apply once_app. change (once_asked (op_pk o) (log s) (op_mask o)). eapply op_asked; [exact Rr|]. eapply elem_of_list_lookup_2. exact Eo.
      * specialize (A _ eq_refl). unfold flags_of. by destruct j as [|[|j]].
Qed.

(** ** An interest that does not mention the local close *)
Lemma interest_clean n h e err m : (forall e m, Armed (PSock n) e m ∈ h -> intersects (ev_extra e) AFD_LOCAL_CLOSE = false) ->
  interest_of (PSock n) h = Some (e, err, m) -> intersects (ev_extra e) AFD_LOCAL_CLOSE = false.
Proof.
  revert e err m. induction h as [|o h IH] using rev_ind; intros e err m A I; [done|]. rewrite interest_app in I. cbn [fold_left] in I.
  assert (A' : forall e m, Armed (PSock n) e m ∈ h -> intersects (ev_extra e) AFD_LOCAL_CLOSE = false).
  { intros e' m' H'. apply (A e' m'). apply elem_of_app. by left. }
  destruct o; cbn [interest_step] in I; try (by eapply IH).
  - case_decide as D; [|by eapply IH]. subst p. injection I as -> _ ->. apply (A e m). apply elem_of_app. right. by left.
  - destruct r as [r|]; [|by eapply IH]. case_decide as D; [|by eapply IH].
    destruct (interest_of (PSock n) h) as [[[e' err'] []]|] eqn:Ei; try done; injection I as <- <- <-; cbn [ev_extra]; try done; by eapply IH.
Qed.
Lemma mask_clean e err : intersects (ev_extra e) AFD_LOCAL_CLOSE = false -> intersects (event_to_afd_mask e err) AFD_LOCAL_CLOSE = false.
Proof.
  unfold intersects, event_to_afd_mask. rewrite !negb_false_iff, !N.eqb_eq. intros H. rewrite N.land_lor_distr_l, H, N.lor_0_r.
  destruct (ev_readable e), (ev_writable e), err; reflexivity.
Qed.
Lemma alive_asked c s : reachable_asked c s ->
  (forall n e m, Armed (PSock n) e m ∈ log s -> intersects (ev_extra e) AFD_LOCAL_CLOSE = false) -> dead (waiter s) = false.
Proof.
  intros R A. destruct (dead (waiter s)) eqn:D; [|done]. exfalso.
  destruct (dead_reach c s (asked_reachable _ _ R) D) as (n & b & e & Hin & X).
  destruct (done_asked _ _ _ _ _ R Hin) as (m & (h1 & h2 & E & M) & Lm). unfold asked in M.
  destruct (interest_of (PSock n) h1) as [[[i err] md]|] eqn:Ei; [|done]. injection M as <-.
  assert (C : intersects (event_to_afd_mask i err) AFD_LOCAL_CLOSE = false).
  { apply mask_clean. eapply interest_clean; [|exact Ei]. intros e' m' H'. apply (A n e' m'). rewrite E. apply elem_of_app. by left. }
  unfold intersects in *. rewrite negb_false_iff, N.eqb_eq in C. rewrite <- Lm, <- N.land_assoc, C, N.land_0_r in X. done.
Qed.
