(** Updates install the interest; every completion is processed; one-shot; what is leaked. *)
From stdpp Require Import prelude list gmap.
From Verif Require Import Bits Types EventModel Pool IocpModel IocpSpec IocpProofs IocpProofs2 IocpProofs3 IocpProofs4 IocpProofs5 IocpProofs6 IocpProofs7 IocpProofs8 IocpProofs9 IocpProofs10 IocpProofs11 IocpProofs12 IocpProofs13.
Local Open Scope nat_scope.

(* ------------------------------------------------------------------ *)
(** ** Updates *)

Lemma update_status s n k : socks (pmem s) !! n = Some k -> sk_deleting k = false ->
  exists k', socks (pmem (do_update s (PSock n) None).2) !! n = Some k' /\ (sk_status k' = Polling (mask_of k') \/ sk_status k' = Cancelled).
Proof.
  intros Hk D. cbn. rewrite Hk, D. destruct (sk_status k) as [|f|] eqn:S.
  - unfold afd_poll. destruct (sk_in_use k); cbn; rewrite lookup_insert; eexists; (split; [done|]); by left.
  - case_bool_decide as B.
    + unfold afd_cancel. repeat case_match; cbn; rewrite lookup_insert; eexists; (split; [done|]); by right.
    + cbn. exists k. split; [done|]. left. assert (mask_of k = f) as -> by (destruct (decide (mask_of k = f)); tauto). done.
  - cbn. exists k. auto.
Qed.
Lemma update_fine s n k : socks (pmem s) !! n = Some k -> (do_update s (PSock n) None).1 = Ok tt.
Proof. intros Hk. cbn. rewrite Hk. unfold afd_poll, afd_cancel. repeat case_match; done. Qed.
Lemma updates_frame c s l s' n k : socks (pmem s) !! n = Some k -> step c s l = Some s' -> updates s l (PSock n) ->
  pmem s' = pmem (do_update s (PSock n) None).2 /\ sys s' = sys (do_update s (PSock n) None).2
  /\ (forall p, occ p (batch (waiter s')) + occ p (opened (waiter s')) = occ p (batch (waiter s)) + occ p (opened (waiter s)))
  /\ log s' = log s.
Proof.
  intros Hk H U. pose proof (update_fine s n k Hk) as F.
  assert (W : waiter (do_update s (PSock n) None).2 = waiter s) by done.
  assert (L : log (do_update s (PSock n) None).2 = log s).
  { cbn. rewrite Hk. unfold afd_poll, afd_cancel. repeat case_match; first [done|cbn; by rewrite app_nil_r]. }
  destruct l as [i a| | |a| | |]; try done.
  - destruct a as [|o]; [done|]. destruct o; [done|]. cbn [step] in H.
    destruct U as [[cl U]|(cl & q & m & U)]; rewrite U in H; cbn [mbind option_bind thread_step ustep] in H;
      destruct (do_update s (PSock n) None) as [r s1]; cbn [fst snd] in *; subst r; injection H as <-; cbn; by rewrite W.
  - destruct a as [o| | | |]; try done. destruct o; [done|]. cbn [step] in H. unfold wait_step in H.
    destruct U as [[lc U]|[(lc & z & b & r & U)|(lc & z & b & r & q & m & U)]]; rewrite U in H; cbn [ustep] in H;
      destruct (do_update s (PSock n) None) as [r0 s1]; cbn [fst snd] in *; subst r0; injection H as <-; cbn; by rewrite U.
Qed.
Lemma alive_packet c s n : reachable c s -> Removed (PSock n) ∉ log s -> forall k, socks (pmem s) !! n = Some k -> sk_deleting k = false.
Proof.
  intros R NR k Hk. pose proof (a_del _ _ _ _ _ _ (ainv_reach _ _ _ _ R Hk)) as D. destruct (sk_deleting k); [|done]. destruct NR. by apply D.
Qed.
(** After an update the system polls for what is asked, or a cancellation or a completion is under way. *)
Lemma updated_arranged c s l s' n k : reachable c s -> legal s l -> socks (pmem s) !! n = Some k -> Removed (PSock n) ∉ log s ->
  spared (PSock n) (log s) -> step c s l = Some s' -> updates s l (PSock n) -> arranged s' n.
Proof.
  intros R Lg Hk NR Sp H U. assert (R' : reachable c s') by by econstructor.
  destruct (updates_frame _ _ _ _ _ _ Hk H U) as (E1 & E2 & E3 & E4).
  destruct (update_status s n k Hk (alive_packet _ _ _ R NR _ Hk)) as (k' & Hk' & St). rewrite <- E1 in Hk'.
  pose proof (ainv_reach _ _ _ _ R' Hk') as A. rewrite <- E4 in Sp.
  destruct (decide (0 < outstanding s' (PSock n))) as [|Z]; [by right; right|]. unfold outstanding in Z.
  destruct (mine n (ops (sys s'))) as [|o F] eqn:EF.
  - destruct (a_idle _ _ _ _ _ _ A Sp) as [I _]; [cbn; lia|]. destruct St; congruence.
  - assert (Ho : o ∈ mine n (ops (sys s'))) by (rewrite EF; by left). destruct (mine_in _ _ _ Ho) as [H1 H2].
    destruct (a_ops _ _ _ _ _ _ A o) as (_ & _ & _ & _ & _ & S); [by left|].
    destruct (op_cancel o) eqn:Ec; [right; left; by exists o|]. left. exists o. split_and!; try done.
    unfold asked. rewrite (a_int _ _ _ _ _ _ A). destruct St as [St|St]; [|congruence]. rewrite St in S. injection S as S. by rewrite <- S.
Qed.
(** The same for a request that is in flight, whatever was refused before. *)
Lemma updated_in_flight c s l s' n o : reachable c s -> legal s l -> o ∈ ops (sys s) -> op_pk o = n -> Removed (PSock n) ∉ log s ->
  step c s l = Some s' -> updates s l (PSock n) -> arranged s' n.
Proof.
  intros R Lg Ho En NR H U. assert (R' : reachable c s') by by econstructor.
  assert (Hm : o ∈ mine n (ops (sys s))).
  { unfold mine. rewrite elem_of_list_In, List.filter_In, <- elem_of_list_In. split; [done|]. by apply bool_decide_eq_true. }
  destruct (socks (pmem s) !! n) as [k|] eqn:Hk.
  2: { destruct (vinv_reach c s n R) as [_ A]. cbn in A. rewrite Hk in A. destruct A as [A _]. rewrite A in Hm. by apply not_elem_of_nil in Hm. }
  pose proof (ainv_reach _ _ _ _ R Hk) as A. destruct (a_ops _ _ _ _ _ _ A _ Hm) as (_ & IU & IP & _ & _ & S).
  pose proof (alive_packet _ _ _ R NR _ Hk) as D.
  destruct (updates_frame _ _ _ _ _ _ Hk H U) as (E1 & E2 & E3 & E4).
  assert (FL : in_flight (sys s) n = true) by (rewrite mine_flight; destruct (mine n (ops (sys s))); [by apply not_elem_of_nil in Hm|done]).
  cbn in E2. rewrite Hk, D in E2.
  destruct (op_cancel o) eqn:Ec; rewrite S in E2.
  - right. left. exists o. cbn in E2. rewrite E2. done.
  - case_bool_decide as B; cbn in E2.
    + unfold afd_cancel in E2. rewrite IP, FL in E2. cbn in E2. right. left. exists (cancel_op n o). rewrite E2. cbn. split.
      * apply elem_of_list_fmap. by exists o.
      * unfold cancel_op. by rewrite decide_True.
    + left. exists o. rewrite E2. split_and!; try done. unfold asked. rewrite E4, (a_int _ _ _ _ _ _ A).
      assert (mask_of k = op_mask o) as <- by (destruct (decide (mask_of k = op_mask o)); tauto). done.
Qed.

(* ------------------------------------------------------------------ *)
(** ** Completions *)

Definition done_inv (n : nat) (v : view) (h : list obs) : Prop :=
  tally (taken (PSock n)) h + v_c v + v_o v <= tally (dones n) h
  /\ tally (dones n) h <= tally (taken (PSock n)) h + tally (losses (PSock n)) h + v_c v + v_o v.
Lemma quiet_tally n d : Forall (fun o => ~ about n o) d ->
  tally (taken (PSock n)) d = 0 /\ tally (dones n) d = 0 /\ tally (losses (PSock n)) d = 0.
Proof.
  intros F. rewrite Forall_forall in F.
  split_and!; apply tally_none; intros o Ho; specialize (F _ Ho); destruct o; try done; cbn in F |- *; apply bool_decide_false; congruence.
Qed.
Lemma done_step n v d v' h : vstep n v d v' -> done_inv n v h -> done_inv n v' (h ++ d).
Proof.
  intros S [A B]. unfold done_inv. rewrite !tally_app.
  assert (Z : forall k F out k' F' d', update_view n k F out = (k', F', d') \/ delete_view n k F out = (k', F', d') ->
    tally (taken (PSock n)) d' = 0 /\ tally (dones n) d' = 0 /\ tally (losses (PSock n)) d' = 0).
  { intros k F out k' F' d' [E|E]; unfold update_view, delete_view, poll_view, cancel_view in E;
      repeat case_match; by injection E as <- <- <-. }
  destruct S; cbn [v_c v_o v_k v_ops] in *.
  - destruct (quiet_tally _ _ H) as (-> & -> & ->). lia.
  - unfold tally. cbn. rewrite bool_decide_true by done. cbn. unfold tally in *. lia.
  - unfold tally in *. cbn. lia.
  - unfold tally in *. cbn. lia.
  - destruct (Z k F out k' F' d) as (-> & -> & ->); [by left|]. lia.
  - rewrite !tally_app. destruct (Z k F out k' F' d) as (-> & -> & ->); [by right|]. unfold tally in *. cbn. lia.
  - unfold tally in *. cbn. rewrite bool_decide_true by done. cbn. lia.
  - unfold tally in *. cbn. lia.
  - unfold tally in *. cbn. rewrite bool_decide_true by done. cbn. lia.
  - unfold tally in *. cbn. rewrite bool_decide_true by done. cbn. lia.
Qed.
Lemma done_reach c s n : reachable c s -> done_inv n (view_of n s) (log s).
Proof.
  induction 1 as [i|s l s' Hr IH L H]; [by split|].
  destruct (refines_step n c s l s' (tinv_reach _ _ Hr) L H) as (d & -> & V). revert IH. generalize (log s). 
  induction V as [|v d v1 d' v2 V IHV X]; intros h I; [by rewrite app_nil_r|].
  rewrite app_assoc. eapply done_step; [exact X|]. by apply IHV.
Qed.
Lemma done_once c s n : reachable c s ->
  tally (taken (PSock n)) (log s) + outstanding s (PSock n) <= tally (dones n) (log s)
  /\ tally (dones n) (log s) <= tally (taken (PSock n)) (log s) + tally (losses (PSock n)) (log s) + outstanding s (PSock n).
Proof. intros R. destruct (done_reach c s n R) as [A B]. cbn in A, B. unfold outstanding. lia. Qed.

(* ------------------------------------------------------------------ *)
(** ** One-shot *)

Lemma interest_unarmed p h d x : interest_of p h = Some x -> x.2 = Oneshot -> ev_readable x.1.1 = false -> ev_writable x.1.1 = false -> ev_extra x.1.1 = 0%N ->
  (forall e m, Armed p e m ∉ d) ->
  exists i err, interest_of p (h ++ d) = Some (i, err, Oneshot) /\ ev_readable i = false /\ ev_writable i = false /\ ev_extra i = 0%N.
Proof.
  intros H M1 M2 M3 M4 N. rewrite interest_app, H. clear H. revert x M1 M2 M3 M4. induction d as [|o d IH]; intros [[i err] m]; cbn.
  - intros -> ? ? ?. by exists i, err.
  - intros -> ? ? ?. assert (Nd : forall e m, Armed p e m ∉ d) by (intros e m He; apply (N e m); by right).
    destruct o; try (by apply (IH Nd (i, err, Oneshot))); cbn.
    + case_decide; [|by apply (IH Nd (i, err, Oneshot))]. subst. destruct (N e m). by left.
    + destruct r; [|by apply (IH Nd (i, err, Oneshot))]. case_decide; [|by apply (IH Nd (i, err, Oneshot))].
      by apply (IH Nd (Ev (ev_key i) false false 0%N, false, Oneshot)).
Qed.
Lemma oneshot_rearmed c s n h1 h2 h3 e1 e2 i err : reachable c s ->
  log s = h1 ++ Fed (PSock n) (Some e1) :: h2 ++ Fed (PSock n) (Some e2) :: h3 ->
  interest_of (PSock n) h1 = Some (i, err, Oneshot) -> ~ (forall e m, Armed (PSock n) e m ∉ h2).
Proof.
  intros R E I N. destruct (vinv_reach c s n R) as [J _].
  assert (X : interest_of (PSock n) (h1 ++ [Fed (PSock n) (Some e1)]) = Some (Ev (ev_key i) false false 0%N, false, Oneshot)).
  { rewrite interest_app, I. cbn. by rewrite decide_True. }
  destruct (interest_unarmed _ _ h2 _ X) as (i2 & err2 & X2 & F1 & F2 & F3); try done.
  destruct (J ((h1 ++ [Fed (PSock n) (Some e1)]) ++ h2) e2 h3) as (i' & err' & m' & b & fl & J1 & _ & _ & _ & J2 & J3 & _ & J4).
  { rewrite E, <- !app_assoc. done. }
  rewrite X2 in J1. injection J1 as <- <- <-. apply orb_true_iff in J4 as [J4|J4]; [apply orb_true_iff in J4 as [J4|J4]|].
  - apply J2 in J4 as [J4 _]. congruence.
  - apply J3 in J4 as [J4 _]. congruence.
  - rewrite F3 in J4. unfold intersects in J4. rewrite N.land_0_r in J4. done.
Qed.

(* ------------------------------------------------------------------ *)
(** ** References that are lost *)

Definition excused (h : list obs) (p : pid) : Prop := Fault p ∈ h \/ (Removed p ∈ h /\ exists n, p = PWait n).
Definition linv (s : state) : Prop := forall p, p ∈ leaks s -> excused (log s) p.
Lemma excused_app h d p : excused h p -> excused (h ++ d) p.
Proof. intros [H|[H X]]; [left|right; split; [|done]]; apply elem_of_app; by left. Qed.
Definition lost_refs (s s' : state) : Prop :=
  exists x d, leaks s' = leaks s ++ x /\ log s' = log s ++ d /\ forall p, p ∈ x -> excused d p.
Lemma lost_none s s' d : leaks s' = leaks s -> log s' = log s ++ d -> lost_refs s s'.
Proof. intros E1 E2. exists [], d. rewrite app_nil_r. split_and!; try done. intros p Hp. by apply not_elem_of_nil in Hp. Qed.
Lemma lost_refl s s' : leaks s' = leaks s -> log s' = log s -> lost_refs s s'.
Proof. intros E1 E2. apply (lost_none _ _ []); [done|]. by rewrite app_nil_r. Qed.
Lemma lost_trans a b c : lost_refs a b -> lost_refs b c -> lost_refs a c.
Proof.
  intros (x & d & A1 & A2 & A3) (y & d' & B1 & B2 & B3). exists (x ++ y), (d ++ d'). rewrite B1, A1, B2, A2, !app_assoc. split_and!; try done.
  intros p [Hp|Hp]%elem_of_app; [by apply excused_app, A3|]. destruct (B3 _ Hp) as [F|[F X]]; [left|right; split; [|done]]; apply elem_of_app; by right.
Qed.
Lemma lost_after s s1 s' d : lost_refs s s1 -> leaks s' = leaks s1 -> log s' = log s1 ++ d -> lost_refs s s'.
Proof. intros H E1 E2. eapply lost_trans; [exact H|]. by eapply lost_none. Qed.
Lemma lost_like s s1 s' : lost_refs s s1 -> leaks s' = leaks s1 -> log s' = log s1 -> lost_refs s s'.
Proof. intros H E1 E2. apply (lost_after _ _ _ [] H E1). by rewrite app_nil_r. Qed.
Lemma lost_from s s0 s' : lost_refs s0 s' -> leaks s0 = leaks s -> log s0 = log s -> lost_refs s s'.
Proof. intros H E1 E2. eapply lost_trans; [|exact H]. by apply lost_refl. Qed.
Lemma lost_update s p o : lost_refs s (do_update s p o).2.
Proof.
  eexists _, _. split; [done|]. split; [done|]. cbn. unfold update. intros q Hq. left.
  destruct p as [n|n|n|]; try (by apply not_elem_of_nil in Hq).
  - destruct (socks _ !! n); [|by apply not_elem_of_nil in Hq]. unfold afd_poll, afd_cancel in *.
    repeat case_match; try (by apply not_elem_of_nil in Hq); try done; apply elem_of_list_singleton in Hq; subst q; by left.
  - destruct (wtbs _ !! n); [|by apply not_elem_of_nil in Hq].
    repeat case_match; try (by apply not_elem_of_nil in Hq); try done; apply elem_of_list_singleton in Hq; subst q; by left.
Qed.
Lemma lost_delete s p o : lost_refs s (do_delete s p o).2.
Proof.
  eexists _, _. split; [done|]. split; [cbn; by rewrite <- app_assoc|]. cbn. unfold begin_delete. intros q Hq.
  destruct p as [n|n|n|]; try (by apply not_elem_of_nil in Hq).
  - exfalso. destruct (socks _ !! n); [|by apply not_elem_of_nil in Hq]. unfold afd_cancel in *.
    repeat case_match; by apply not_elem_of_nil in Hq.
  - right. destruct (wtbs _ !! n); [|by apply not_elem_of_nil in Hq]. repeat case_match; try (by apply not_elem_of_nil in Hq);
      apply elem_of_list_singleton in Hq; subst q; (split; [|by exists n]); apply elem_of_app; right; by left.
Qed.
Lemma lost_post s p o : lost_refs s (do_post s p o).2.
Proof.
  destruct o; cbn.
  - exists [p], [Fault p]. split_and!; try done. intros q ->%elem_of_list_singleton. left. by left.
  - by apply (lost_none _ _ [Posted p]).
Qed.
Lemma lost_ustep c s p u o s' x : ustep c s p u o = (s', x) -> lost_refs s s'.
Proof.
  intros H. destruct u as [| | |n|n q]; cbn -[do_update] in H.
  - injection H as <- _. by apply lost_refl.
  - pose proof (lost_update s p o) as E. destruct (do_update s p o). by injection H as <- _.
  - case_decide; injection H as <- _; by apply lost_refl.
  - destruct n; [injection H as <- _; by apply lost_refl|]. destruct (pending s); injection H as <- _; by apply lost_refl.
  - pose proof (lost_update s q o) as E. destruct (do_update s q o) as [r s1]. destruct r; injection H as <- _; [done| |];
      by eapply (lost_after _ _ _ [Lost p] E).
Qed.
Lemma lost_step c s l s' : step c s l = Some s' -> lost_refs s s'.
Proof.
  intros H. destruct (step_cases _ _ _ _ H) as [(i & q & a & _ & Hq & X)|[(a & _ & X)|[(cap & d & old & E & ->)|X]]].
  - destruct q, a; try done; unfold thread_step in X.
    + injection X as <-. by eapply (lost_none _ _ [_]).
    + destruct o; [injection X as <-; by apply lost_refl|]. destruct c0; cbn in X; try done; injection X as <-; by eapply (lost_none _ _ [_]).
    + destruct (insert_packet _ _ _) as [s1|] eqn:E; [|injection X as <-; by apply lost_refl]. injection X as <-.
      destruct c0, p; cbn in E; try done; (case_in E; [done|]); injection E as <-; by eapply (lost_none _ _ [_]).
    + destruct (lookup_packet _ _); injection X as <-; by apply lost_refl.
    + destruct (do_set _ _ _) as [[s1 b]|] eqn:E; [|done]. cbn [mbind option_bind] in X. injection X as <-.
      assert (Y : lost_refs s s1).
      { destruct c0, p; cbn in E; try done; (case_in E; [|done]); cbn in E; injection E as <- _; by eapply (lost_none _ _ [_]). }
      destruct b; by eapply (lost_like _ _ _ Y).
    + destruct (ustep _ _ _ _ _) as [s1 x] eqn:E. apply lost_ustep in E. injection X as <-. by eapply (lost_like _ _ _ E).
    + destruct (lookup_packet _ _); injection X as <-; [|by apply lost_refl]. destruct c0; by apply lost_refl.
    + pose proof (lost_delete s p o) as E. destruct (do_delete s p o). injection X as <-. by eapply (lost_like _ _ _ E).
    + destruct (notified s); injection X as <-; by apply lost_refl.
    + pose proof (lost_post (set_mem s (clone (pmem s) p)) p o) as E. destruct (do_post _ _ _). injection X as <-.
      eapply (lost_from s); [by eapply (lost_like _ _ _ E)|done|done].
    + injection X as <-. by eapply (lost_none _ _ [_]).
  - unfold wait_step in X.
    destruct (waiter s) as [|l0|l0|l0 q|l0 z|l0 z b|l0 z b|l0 z p b|l0 z b ret p u|l0 e g|l0|d own b] eqn:E, a;
      try done; try (by destruct b); try (injection X as <-; by apply lost_refl).
    + destruct (pending s) as [|q r] eqn:Ep; injection X as <-; [by eapply (lost_none _ _ [_])|by apply lost_refl].
    + pose proof (lost_update s q o) as E1. destruct (do_update s q o). injection X as <-. by eapply (lost_like _ _ _ E1).
    + case_decide; [done|]. injection X as <-. by apply lost_refl.
    + destruct b; [case_match|]; injection X as <-; by apply lost_refl.
    + destruct p as [j|j|j|]; unfold feed_step in X.
      * destruct (socks (pmem s) !! j) as [k|] eqn:Ek; [|done]. cbn [mbind option_bind] in X.
        destruct (feed_sock k) as [k'|k'|k' r] eqn:F; [|injection X as <-; by eapply (lost_none _ _ [_])|injection X as <-; by eapply (lost_none _ _ [_])].
        destruct (sources s !! sk_socket k) as [n'|] eqn:Es; [|injection X as <-; by eapply (lost_none _ _ [_])].
        case_decide; [injection X as <-; by eapply (lost_none _ _ [_])|]. set (s2 := set_maps _ _ _) in *. pose proof (lost_delete s2 (PSock n') o) as E1.
        destruct (do_delete s2 _ o) as [r s3]. cbn [snd] in *. injection X as <-.
        assert (E2 : lost_refs s s3). { eapply lost_trans; [|exact E1]. by eapply (lost_none _ _ [_]). }
        destruct r as [[]|err|]; [by eapply (lost_like _ _ _ E2)| |by eapply (lost_like _ _ _ E2)]. by eapply (lost_after _ _ _ _ E2).
      * destruct (wtbs (pmem s) !! j) as [k|] eqn:Ek; [|done]. cbn [mbind option_bind] in X. destruct (feed_wtb k) as [k' r]. injection X as <-. by eapply (lost_none _ _ [_]).
      * destruct (customs (pmem s) !! j) as [k|] eqn:Ek; [|done]. cbn [mbind option_bind] in X. injection X as <-. by eapply (lost_none _ _ [_]).
      * injection X as <-. by eapply (lost_none _ _ [_]).
    + destruct (ustep _ _ _ _ _) as [s1 x] eqn:Eu. apply lost_ustep in Eu. injection X as <-.
      destruct x as [u'|[[]|e|]]; try (by eapply (lost_like _ _ _ Eu)). by eapply (lost_after _ _ _ _ Eu).
    + injection X as <-. by eapply (lost_none _ _ [_]).
    + injection X as <-. by eapply (lost_none _ _ [_]).
  - by eapply (lost_none _ _ [_]).
  - destruct l; try done; cbn -[do_post] in H.
    + injection H as <-. by apply lost_refl.
    + case_in H; [|done]. cbn in H. case_in H; [|done]. cbn in H. injection H as <-. by eapply (lost_none _ _ [_]).
    + case_in H; [|done]. cbn in H. injection H as <-. by eapply (lost_none _ _ [_]).
    + case_in H; [|done]. cbn -[do_post] in H. destruct c0 as [m|m].
      * case_in H; [|done]. cbn in H. injection H as <-. by apply lost_refl.
      * injection H as <-. eapply (lost_from s); [apply lost_post|done|done].
Qed.
Lemma linv_reach c s : reachable c s -> linv s.
Proof.
  induction 1 as [n|s l s' Hr IH L H]; [by intros p ?%not_elem_of_nil|]. destruct (lost_step _ _ _ _ H) as (x & d & E1 & E2 & E3).
  intros p. rewrite E1, E2. intros [Hp|Hp]%elem_of_app; [by apply excused_app, IH|].
  destruct (E3 _ Hp) as [F|[F X]]; [left|right; split; [|done]]; apply elem_of_app; by right.
Qed.
