(** Registered sockets: no interest is forgotten (C53). *)
From stdpp Require Import prelude list gmap.
From Verif Require Import Bits Types EventModel Pool IocpModel IocpSpec IocpProofs IocpProofs2 IocpProofs3 IocpProofs4 IocpProofs5.
Local Open Scope nat_scope.

(* ------------------------------------------------------------------ *)
(** ** A packet is in the table, on its way into it or on its way out *)

Definition held (q : pc) : list pid := match q with AInsert _ p | DBegin _ p => [p] | _ => [] end.
Definition tok (s : state) (p : pid) : nat := occ p (table_refs s) + occ p (concat (map held (threads s))).
Record kinv (s : state) : Prop := {
  k_one : forall p, tok s p <= 1;
  k_gone : forall p, Removed p ∈ log s -> tok s p = 0 /\ exists_in (pmem s) p
}.

Lemma occ_concat (f : pc -> list pid) p (l : list pc) i q q' :
  l !! i = Some q ->
  occ p (concat (map f (<[i:=q']> l))) + occ p (f q) = occ p (concat (map f l)) + occ p (f q').
Proof.
  revert i. induction l as [|x l IH]; intros i H; [done|]. destruct i as [|i]; simplify_eq/=.
  - rewrite !occ_app. lia.
  - rewrite !occ_app. specialize (IH i H). lia.
Qed.
Lemma occ_concat_in (f : pc -> list pid) p (l : list pc) i q :
  l !! i = Some q -> occ p (f q) <= occ p (concat (map f l)).
Proof.
  revert i. induction l as [|x l IH]; intros i H; [done|]. destruct i as [|i]; simplify_eq/=; rewrite occ_app; [lia|].
  specialize (IH i H). lia.
Qed.
Lemma occ_concat_zero (f : pc -> list pid) p (l : list pc) :
  (forall i q, l !! i = Some q -> p ∉ f q) -> occ p (concat (map f l)) = 0.
Proof.
  induction l as [|x l IH]; intros H; [done|]. cbn. rewrite occ_app, IH, occ_not_in; [done|apply (H 0 x eq_refl)|].
  intros i q Hi. by apply (H (S i)).
Qed.
Lemma table_in s p : p ∈ table_refs s <->
  match p with
  | PSock n => exists x, sources s !! x = Some n
  | PWait n => exists x, waitables s !! x = Some n
  | _ => False
  end.
Proof.
  unfold table_refs. rewrite elem_of_app. split.
  - intros [H|H]; apply elem_of_list_fmap in H as (n & -> & H); apply elem_of_list_fmap in H as ([x n'] & -> & H);
      apply elem_of_map_to_list in H; cbn; eauto.
  - destruct p as [n|n|n|]; try done; intros [x H]; [left|right]; apply elem_of_list_fmap; exists n; (split; [done|]);
      apply elem_of_list_fmap; exists (x, n); (split; [done|]); by apply elem_of_map_to_list.
Qed.

Lemma kinv_thread s i q s1 q' :
  kinv s -> threads s !! i = Some q -> threads s1 = threads s ->
  (forall p, exists_in (pmem s) p -> exists_in (pmem s1) p) ->
  (forall p, tok s p <= 1 -> occ p (table_refs s1) + occ p (held q') <= occ p (table_refs s) + occ p (held q)) ->
  (forall p, Removed p ∈ log s1 -> Removed p ∈ log s \/ (held q = [p] /\ held q' = [] /\ exists_in (pmem s1) p /\ table_refs s1 = table_refs s)) ->
  kinv (set_pc s1 i q').
Proof.
  intros [K1 K2] Hq ET EX H R. split; intros p; unfold tok.
  - pose proof (occ_concat held p _ _ _ q' Hq). specialize (H p (K1 p)). specialize (K1 p). unfold tok in *.
    change (table_refs (set_pc s1 i q')) with (table_refs s1). cbn. rewrite ET. pose proof (occ_concat_in held p _ _ _ Hq). lia.
  - intros Hp. apply R in Hp. specialize (H p (K1 p)). pose proof (occ_concat held p _ _ _ q' Hq).
    pose proof (occ_concat_in held p _ _ _ Hq). change (table_refs (set_pc s1 i q')) with (table_refs s1). cbn. rewrite ET.
    destruct Hp as [Hp|(E1 & E2 & Hp & ET')].
    + destruct (K2 _ Hp) as [Z Ex]. split; [|auto]. unfold tok in Z. lia.
    + split; [|done]. specialize (K1 p). unfold tok in K1.
      assert (occ p (held q) = 1) by (rewrite E1, occ_one; by rewrite decide_True).
      assert (occ p (held q') = 0) by by rewrite E2. rewrite ET' in *. lia.
Qed.
Lemma kinv_wait s s' :
  kinv s -> threads s' = threads s ->
  (forall p, exists_in (pmem s) p -> exists_in (pmem s') p) ->
  (forall p, occ p (table_refs s') <= occ p (table_refs s)) ->
  (forall p, Removed p ∈ log s' -> Removed p ∈ log s \/ (occ p (table_refs s') < occ p (table_refs s) /\ exists_in (pmem s) p)) ->
  kinv s'.
Proof.
  intros [K1 K2] ET EX H R. split; intros p; unfold tok.
  - specialize (H p). specialize (K1 p). unfold tok in *. rewrite ET. lia.
  - intros Hp%R. specialize (H p). specialize (K1 p). unfold tok in *. rewrite ET.
    destruct Hp as [Hp|[Hp Ex]]; [destruct (K2 _ Hp) as [Z Ex]|]; (split; [|auto]); unfold tok in *; lia.
Qed.
Lemma occ_fresh s p : tinv s -> source (pmem s) p -> ~ exists_in (pmem s) p -> False.
Proof. intros T H N. by apply N, source_exists. Qed.
Lemma tok_fresh s p : tinv s -> ~ exists_in (pmem s) p -> tok s p = 0.
Proof.
  intros T N. unfold tok. rewrite occ_not_in.
  - apply occ_concat_zero. intros i q Hq Hp. apply N, source_exists. pose proof (t_pc _ T _ _ Hq) as P.
    destruct q; cbn in Hp, P; try (by apply not_elem_of_nil in Hp); apply elem_of_list_singleton in Hp as ->;
      eapply names_source; apply P.
  - intros Hp%table_in. apply N. destruct p; try done; destruct Hp as [x Hx].
    + destruct (t_src _ T _ _ Hx) as (k & Hk & _). by exists k.
    + destruct (t_wts _ T _ _ Hx) as (k & Hk & _). by exists k.
Qed.
Lemma kinv_env s s' :
  kinv s -> threads s' = threads s -> (forall p, exists_in (pmem s) p -> exists_in (pmem s') p) ->
  sources s' = sources s -> waitables s' = waitables s -> (forall p, Removed p ∈ log s' -> Removed p ∈ log s) -> kinv s'.
Proof.
  intros K ET EX ES EW R. apply (kinv_wait s); try done.
  - intros p. by rewrite (table_same s).
  - intros p Hp. left. by apply R.
Qed.

(** Removals in the log. *)
Lemma removed_update s q o p : Removed p ∈ log (do_update s q o).2 -> Removed p ∈ log s.
Proof. cbn. destruct (ef_fault _); rewrite elem_of_app; [|set_solver]. rewrite elem_of_list_singleton. by intros [?|?]. Qed.
Lemma removed_ustep c s q u o s' x p : ustep c s q u o = (s', x) -> Removed p ∈ log s' -> Removed p ∈ log s.
Proof.
  intros H. unfold ustep in H. destruct u as [| | |[|n]|n r]; try (repeat case_match; simplify_eq; done).
  - pose proof (removed_update s q o p). destruct (do_update s q o). by simplify_eq.
  - pose proof (removed_update s r o p) as X. destruct (do_update s r o) as [y s1]. cbn [snd] in X.
    destruct y; simplify_eq; try done; cbn; rewrite elem_of_app, elem_of_list_singleton; intros [?|?]; auto; done.
Qed.
Lemma removed_delete s q o p : Removed p ∈ log (do_delete s q o).2 -> Removed p ∈ log s \/ p = q.
Proof.
  cbn. destruct (ef_fault _); rewrite !elem_of_app, ?elem_of_list_singleton; [|set_solver]. intros [[?|?]|?]; auto; [done|].
  right. congruence.
Qed.
Lemma removed_abandon s b p : Removed p ∈ log (abandon s b) -> Removed p ∈ log s.
Proof.
  cbn. rewrite elem_of_app. intros [?|H]; [done|]. apply elem_of_list_fmap in H as (y & E & _). done.
Qed.
Lemma ex_same m m' : same_dom m m' -> forall p, exists_in m p -> exists_in m' p.
Proof. intros (_ & S & W & C) p. destruct p; cbn; [apply S|apply W|by rewrite C|done]. Qed.

Lemma kinv_step_thread c s i q a s' :
  tinv s -> kinv s -> threads s !! i = Some q -> thread_step c s i q a = Some s' -> kinv s'.
Proof.
  intros T K Hq H. pose proof (t_pc _ T _ _ Hq) as P. destruct q, a; try done; unfold thread_step in H; cbn in P.
  - simplify_eq. apply (kinv_env (set_pc s i (entry c0))); try done.
    + apply (kinv_thread s _ _ _ _ K Hq); try done; [|auto]. intros p _. assert (held (entry c0) = []) as ->; [|done].
      destruct c0; cbn; try done; by destruct m.
    + intros p. cbn. rewrite elem_of_app, elem_of_list_singleton. intros [?|?]; done.
  - destruct o; simplify_eq; [apply (kinv_thread s _ _ _ _ K Hq); try done; auto|].
    destruct (new_packet _ _) as [[[m p] ob]|] eqn:E; simplify_eq/=.
    destruct (grow_fresh _ _ _ _ _ (t_dom _ T) E) as (G & D & N).
    assert (NF : ~ exists_in (pmem s) p /\ forall r, ob <> Removed r).
    { pose proof (t_dom _ T) as (DS & DW & _). destruct c0; cbn in E; simplify_eq; cbn; split; try done; intros Hx;
        [apply DS in Hx|apply DW in Hx]; lia. }
    destruct NF as [NF NR]. pose proof (tok_fresh _ _ T NF) as Z. destruct K as [K1 K2].
    assert (LR : forall r, Removed r ∈ log s ++ [ob] -> Removed r ∈ log s).
    { intros r. rewrite elem_of_app, elem_of_list_singleton. intros [?|?]; [done|]. by destruct (NR r). }
    split; intros r; unfold tok; pose proof (occ_concat held r _ _ _ (AInsert c0 p) Hq) as X; cbn [held] in X;
      change (table_refs (set_pc (emit (set_mem s m) ob) i (AInsert c0 p))) with (table_refs s);
      cbn [threads set_pc emit emits set_mem log pmem]; rewrite occ_nil, occ_one in X; unfold tok in *.
    + specialize (K1 r). destruct (decide (r = p)) as [->|]; lia.
    + intros Hr%LR. destruct (K2 _ Hr) as [Z' Ex]. split; [|by eapply grow_exists].
      destruct (decide (r = p)) as [->|]; [done|lia].
  - destruct (insert_packet _ _ _) as [s1|] eqn:E; simplify_eq.
    + assert (X : threads s1 = threads s /\ same_dom (pmem s) (pmem s1) /\ (forall r, Removed r ∈ log s1 -> Removed r ∈ log s)
        /\ forall r, occ r (table_refs s1) = occ r (table_refs s) + occ r [p]).
      { destruct c0, p; cbn in E; try done; (case_in E; [done|]); simplify_eq; (split; [done|]); (split; [done|]); split.
        1,3: intros r; cbn; rewrite elem_of_app, elem_of_list_singleton; intros [?|?]; done.
        all: intros r; unfold table_refs; cbn [sources waitables emit emits set_maps set_mem]; rewrite !occ_app, occ_map_insert by done; lia. }
      destruct X as (X1 & X2 & X3 & X4). apply (kinv_thread s _ _ _ _ K Hq); try done.
      * by apply ex_same.
      * intros r _. rewrite X4. cbn [held]. rewrite occ_nil. lia.
      * intros r Hr. left. by apply X3.
    + apply (kinv_thread s _ _ _ _ K Hq); try done; [|auto]. intros r _. cbn [held]. rewrite occ_nil.
      change (table_refs (set_mem s (drop_ref (pmem s) p))) with (table_refs s). lia.
  - destruct (lookup_packet _ _) as [p|] eqn:E; simplify_eq; apply (kinv_thread s _ _ _ _ K Hq); try done; auto.
  - destruct (do_set _ _ _) as [[s1 b]|] eqn:E; simplify_eq/=. destruct (tinv_set _ _ _ _ _ T E) as [T' _].
    assert (X : threads s1 = threads s /\ table_refs s1 = table_refs s /\ (forall r, exists_in (pmem s) r -> exists_in (pmem s1) r)
      /\ (forall r, Removed r ∈ log s1 -> Removed r ∈ log s)).
    { destruct c0, p; cbn in E; try done; (case_in E; [|done]); simplify_eq/=; (split; [done|]); (split; [done|]); split.
      - apply ex_same, same_sock. by eexists.
      - intros r. rewrite elem_of_app, elem_of_list_singleton. intros [?|?]; done.
      - apply ex_same, same_wtb. by eexists.
      - intros r. rewrite elem_of_app, elem_of_list_singleton. intros [?|?]; done. }
    destruct X as (X1 & X2 & X3 & X4).
    destruct b; simplify_eq; (apply (kinv_thread s _ _ _ _ K Hq); try done; [|intros r Hr; left; by apply X4]); intros r _; cbn [held].
    + by rewrite X2.
    + change (table_refs (set_mem s1 (drop_ref (pmem s1) p))) with (table_refs s1). by rewrite X2.
  - destruct P as (P1 & P2 & P3). destruct (ustep _ _ _ _ _) as [s1 x] eqn:E. simplify_eq.
    destruct (ustep_frame _ _ _ _ _ _ _ E) as (X1 & X2 & X3 & X4 & _ & _ & G).
    apply (kinv_thread s _ _ _ _ K Hq); try done.
    + intros r. by apply grow_exists.
    + intros r _. rewrite (table_same s s1) by done. destruct x; cbn; lia.
    + intros r Hr. left. by eapply removed_ustep.
  - destruct (lookup_packet _ _) as [p|] eqn:E; simplify_eq; [|apply (kinv_thread s _ _ _ _ K Hq); try done; auto].
    assert (X : forall r, occ r (table_refs s) = occ r (table_refs (remove_packet s c0)) + occ r [p]).
    { destruct c0; cbn in E, P; try done; apply fmap_Some in E as (n & En & ->); intros r;
        unfold table_refs; cbn [sources waitables remove_packet set_maps]; rewrite !occ_app.
      - pose proof (occ_map_delete r PSock _ _ _ En). lia.
      - pose proof (occ_map_delete r PWait _ _ _ En). lia. }
    assert (Y : threads (remove_packet s c0) = threads s /\ log (remove_packet s c0) = log s /\ pmem (remove_packet s c0) = pmem s) by by destruct c0.
    destruct Y as (Y1 & Y2 & Y3). apply (kinv_thread s _ _ _ _ K Hq); try done.
    + by rewrite Y3.
    + intros r _. specialize (X r). cbn [held]. rewrite occ_nil. lia.
    + rewrite Y2. auto.
  - destruct P as [P1 P2]. assert (EX : forall r, exists_in (pmem s) r -> exists_in (pmem (do_delete s p o).2) r).
    { apply ex_same. cbn. apply same_drop, same_delete. }
    pose proof (removed_delete s p o) as X. assert (Y : threads (do_delete s p o).2 = threads s) by done.
    assert (Z : table_refs (do_delete s p o).2 = table_refs s) by done.
    destruct (do_delete s p o) as [r s1]. cbn [snd] in *. simplify_eq. apply (kinv_thread s _ _ _ _ K Hq); try done.
    + intros y _. rewrite Z. cbn [held]. rewrite occ_nil. lia.
    + intros y Hy. destruct (X y Hy) as [?| ->]; [by left|]. right. split; [done|]. split; [done|]. split; [|done].
      apply EX, source_exists. by eapply names_source.
  - destruct (notified s); simplify_eq; apply (kinv_thread s _ _ _ _ K Hq); try done; auto.
  - destruct (do_post _ _ _) as [r s1] eqn:E. simplify_eq.
    apply (kinv_thread s _ _ _ _ K Hq); unfold do_post in E; destruct o; simplify_eq; try done; intros y; cbn;
      rewrite elem_of_app, elem_of_list_singleton; intros [?|?]; try done; by left.
  - simplify_eq. apply (kinv_env (set_pc s i Out)); try done.
    + apply (kinv_thread s _ _ _ _ K Hq); try done; auto.
    + intros p. cbn. rewrite elem_of_app, elem_of_list_singleton. intros [?|?]; done.
Qed.

Lemma removed_emit s ob p : (forall r, ob <> Removed r) -> Removed p ∈ log (emit s ob) -> Removed p ∈ log s.
Proof. intros H. cbn. rewrite elem_of_app, elem_of_list_singleton. intros [?|?]; [done|]. by destruct (H p). Qed.
Lemma occ_delete_le p (f : nat -> pid) (m : gmap N nat) x :
  occ p (map f (map_to_list (delete x m)).*2) <= occ p (map f (map_to_list m).*2).
Proof.
  destruct (m !! x) as [n|] eqn:E; [|by rewrite delete_notin]. pose proof (occ_map_delete p f _ _ _ E). lia.
Qed.
Lemma kinv_step_wait c s a s' : tinv s -> kinv s -> wait_step c s a = Some s' -> kinv s'.
Proof.
  intros T K H. pose proof (tinv_wait _ _ _ _ T H) as T'. unfold wait_step in H. pose proof (t_wait _ T) as W.
  destruct (waiter s) as [|l|l|l q|l z|l z b|l z b|l z p b|l z b ret p u|l e g|l|d own b] eqn:E, a;
    try done; try (by destruct b); cbn in W.
  - simplify_eq. by apply (kinv_env s).
  - destruct (pending s) as [|q r] eqn:Ep; simplify_eq; [|by apply (kinv_env s)].
    apply (kinv_env s); try done. intros p. by apply (removed_emit (set_waiter s (WBlock l (elapsed (lc_deadline l) now)))).
  - pose proof (removed_update s q o) as R. assert (EX : forall r, exists_in (pmem s) r -> exists_in (pmem (do_update s q o).2) r).
    { apply ex_same. cbn. apply same_drop, same_update. }
    assert (Y : threads (do_update s q o).2 = threads s /\ sources (do_update s q o).2 = sources s /\ waitables (do_update s q o).2 = waitables s) by done.
    destruct (do_update s q o) as [r s1]. cbn [snd] in *. destruct Y as (Y1 & Y2 & Y3). simplify_eq. by apply (kinv_env s).
  - simplify_eq. by apply (kinv_env s).
  - simplify_eq. by apply (kinv_env s).
  - case_decide; simplify_eq. by apply (kinv_env s).
  - simplify_eq. by apply (kinv_env s).
  - destruct b as [|p b]; [case_match; simplify_eq; by apply (kinv_env s)|]. simplify_eq. apply (kinv_env s); try done.
    cbn. apply ex_same, same_unlock.
  - apply Forall_cons in W as [Wp Wb]. destruct p as [j|j|j|]; unfold feed_step in H.
    + destruct (socks (pmem s) !! j) as [k|] eqn:Ek; [|done]. cbn [mbind option_bind] in H.
      assert (SS : forall k', same_dom (pmem s) (set_sock (pmem s) j k')) by (intros k'; by apply same_sock).
      assert (F1 : forall k' (s1 := emit (set_mem s (set_sock (pmem s) j k')) (Fed (PSock j) None)),
         threads s1 = threads s /\ sources s1 = sources s /\ waitables s1 = waitables s /\ same_dom (pmem s) (pmem s1)
         /\ (forall r, Removed r ∈ log s1 -> Removed r ∈ log s)).
      { intros k' s1. split_and!; try done; [apply SS|]. intros r. by apply (removed_emit (set_mem s (set_sock (pmem s) j k'))). }
      destruct (feed_sock k) as [k'|k'|k' r] eqn:F.
      * destruct (F1 k') as (A1 & A2 & A3 & A4 & A5). clear F1.
        set (s1 := emit (set_mem s (set_sock (pmem s) j k')) (Fed (PSock j) None)) in *.
        destruct (sources s !! sk_socket k) as [n'|] eqn:Es.
        2:{ simplify_eq. apply (kinv_env s); try done. by apply ex_same. }
        set (s2 := set_maps s1 (delete (sk_socket k) (sources s)) (waitables s)) in *.
        assert (TB : forall r, occ r (table_refs s) = occ r (table_refs s2) + occ r [PSock n']).
        { intros r. unfold table_refs, s2. cbn [sources waitables set_maps]. rewrite !occ_app.
          pose proof (occ_map_delete r PSock _ _ _ Es). lia. }
        case_decide.
        -- simplify_eq. apply (kinv_wait s); try done; [by apply ex_same| |].
           ++ intros r. change (table_refs (set_waiter s2 ?w)) with (table_refs s2). specialize (TB r). lia.
           ++ intros r Hr. left. by apply A5.
        -- assert (Q : forall s5, threads s5 = threads (do_delete s2 (PSock n') o).2 -> table_refs s5 = table_refs s2 ->
               (forall r, exists_in (pmem (do_delete s2 (PSock n') o).2) r -> exists_in (pmem s5) r) ->
               (forall r, Removed r ∈ log s5 -> Removed r ∈ log (do_delete s2 (PSock n') o).2) -> kinv s5).
           { intros s5 Q1 Q2 Q3 Q4. apply (kinv_wait s); try done.
             - intros r Hr. apply Q3. exact (ex_same _ _ (same_drop _ _ _ (same_delete (pmem s2) (sys s2) (PSock n') o)) _ (ex_same _ _ A4 _ Hr)).
             - intros r. rewrite Q2. specialize (TB r). lia.
             - intros r Hr. apply Q4 in Hr. destruct (removed_delete _ _ _ _ Hr) as [Hr'| ->]; [left; by apply A5|right].
               rewrite Q2. specialize (TB (PSock n')). rewrite occ_one, decide_True in TB by done. split; [lia|].
               destruct (t_src _ T _ _ Es) as (k1 & Hk1 & _). by exists k1. }
           destruct (do_delete s2 (PSock n') o) as [r s3] eqn:Ed. cbn [snd] in Q.
           assert (s3 = (do_delete s2 (PSock n') o).2) as -> by by rewrite Ed. clear Ed.
           destruct r; simplify_eq; apply Q; try done.
           ++ intros r. cbn -[do_delete]. apply ex_same. eapply same_trans; [|apply same_discards]. done.
           ++ intros r Hr. by apply (removed_abandon (set_mem (do_delete s2 (PSock n') o).2 _)) in Hr.
      * simplify_eq. destruct (F1 k') as (A1 & A2 & A3 & A4 & A5). apply (kinv_env s); try done; by apply ex_same.
      * simplify_eq. apply (kinv_env s); try done; [apply ex_same, SS|]. intros x Hx. apply removed_emit in Hx; [exact Hx|done].
    + destruct (wtbs (pmem s) !! j) as [k|] eqn:Ek; [|done]. cbn in H. simplify_eq.
      apply (kinv_env s); try done; [apply ex_same, same_wtb; by rewrite Ek|]. intros x Hx. apply removed_emit in Hx; [exact Hx|done].
    + destruct (customs (pmem s) !! j) as [e|] eqn:Ek; [|done]. cbn in H. simplify_eq.
      apply (kinv_env s); try done. intros x Hx. apply removed_emit in Hx; [exact Hx|done].
    + simplify_eq. apply (kinv_env s); try done. intros x Hx. apply removed_emit in Hx; [exact Hx|done].
  - destruct (ustep _ _ _ _ _) as [s1 x] eqn:Eu. destruct (ustep_frame _ _ _ _ _ _ _ Eu) as (X1 & X2 & X3 & X4 & _ & _ & G).
    assert (R := fun r => removed_ustep _ _ _ _ _ _ _ r Eu).
    assert (EX : forall r, exists_in (pmem s) r -> exists_in (pmem s1) r) by (intros r; by apply grow_exists).
    destruct x as [u'|[]]; simplify_eq; apply (kinv_env s); try done.
    + intros r Hr. cbn. eapply ex_same; [apply same_discards|]. by apply EX.
    + intros r Hr. by apply R, (removed_abandon s1 b).
  - simplify_eq. apply (kinv_env s); try done. intros x Hx. apply removed_emit in Hx; [exact Hx|done].
  - simplify_eq. apply (kinv_env s); try done. intros x Hx. apply removed_emit in Hx; [exact Hx|done].
Qed.

Lemma kinv_step c s l s' : tinv s -> legal s l -> kinv s -> step c s l = Some s' -> kinv s'.
Proof.
  intros T L K H. destruct l; cbn -[do_post] in H.
  - destruct (threads s !! i) eqn:E; [|done]. cbn in H. by eapply kinv_step_thread.
  - simplify_eq. apply (kinv_env s); try done. intros [n|n|n|]; cbn; try done.
    destruct (decide (n = next (pmem s))) as [->|]; [by rewrite lookup_insert|by rewrite lookup_insert_ne].
  - destruct (waiter s) eqn:E; simplify_eq. apply (kinv_env s); try done. intros x Hx. apply removed_emit in Hx; [exact Hx|done].
  - by eapply kinv_step_wait.
  - destruct (ops (sys s) !! i) as [o|] eqn:E; [|done]. cbn in H.
    destruct (socks (pmem s) !! op_pk o) as [x|] eqn:Ex; [|done]. cbn in H. simplify_eq.
    apply (kinv_env s); try done; [apply ex_same, same_sock; by rewrite Ex|]. intros y. apply removed_emit. done.
  - destruct (waits (sys s) !! h) as [n|] eqn:E; [|done]. cbn in H. simplify_eq.
    apply (kinv_env s); try done. intros x Hx. apply removed_emit in Hx; [exact Hx|done].
  - destruct (cbs (sys s) !! j) as [x|] eqn:E; [|done]. cbn -[do_post] in H. destruct x as [n|n].
    + destruct (wtbs (pmem s) !! n) as [w|] eqn:Ew; [|done]. cbn in H. simplify_eq.
      apply (kinv_env s); try done. apply ex_same, same_wtb. by rewrite Ew.
    + simplify_eq. destruct o; (apply (kinv_env s); try done); intros x Hx; (apply removed_emit in Hx; [exact Hx|done]).
Qed.
Lemma kinv_reach c s : reachable c s -> kinv s.
Proof.
  induction 1 as [n|s l s' Hr IH L H]; [|eapply kinv_step; eauto using tinv_reach].
  split; [|by intros p ?%not_elem_of_nil]. intros p. unfold tok, table_refs. cbn -[occ]. rewrite !map_to_list_empty. cbn -[occ].
  rewrite occ_nil, occ_concat_zero; [lia|]. intros i q Hq. apply lookup_replicate in Hq as [-> _]. apply not_elem_of_nil.
Qed.
(** A packet in the table was not deleted. *)
Lemma registered_live c s x n : reachable c s -> sources s !! x = Some n -> Removed (PSock n) ∉ log s.
Proof.
  intros Hr Hx Hn. destruct (k_gone _ (kinv_reach _ _ Hr) _ Hn) as [Z _]. unfold tok in Z.
  assert (PSock n ∈ table_refs s) as Hin%occ_in; [|lia]. apply table_in. eauto.
Qed.
