(** What a call does to the interest; lost packets; values of posted packets. *)
From stdpp Require Import prelude list gmap.
From Verif Require Import Bits Types EventModel Pool IocpModel IocpSpec IocpProofs IocpProofs2 IocpProofs3 IocpProofs4 IocpProofs5 IocpProofs6 IocpProofs7 IocpProofs8 IocpProofs9 IocpProofs10 IocpProofs11 IocpProofs12.
Local Open Scope nat_scope.

(* ------------------------------------------------------------------ *)
(** ** Calls that succeed have set the interest *)

Definition tables_entered (s : state) : Prop :=
  (forall x n, sources s !! x = Some n -> Entered (PSock n) x ∈ log s) /\ (forall x n, waitables s !! x = Some n -> Entered (PWait n) x ∈ log s).
Definition arms_ok (h : list obs) (i : nat) (q : pc) : Prop :=
  match q with
  | AInsert c p => armed_by i c p h
  | MSet c p => entered_for c p h /\ exists h1 h2, h = h1 ++ Called i c :: h2 /\ forall c', Called i c' ∉ h2
  | Upd c p _ => armed_by i c p h /\ entered_for c p h
  | Ret c (Ok _) => gives c <> None -> exists p, armed_by i c p h /\ entered_for c p h
  | AMake c | MLook c => exists h1 h2, h = h1 ++ Called i c :: h2 /\ forall c', Called i c' ∉ h2
  | _ => True
  end.
Definition returned_ok (h : list obs) : Prop :=
  forall h1 i c h2, h = h1 ++ Returned i c (Ok tt) :: h2 -> gives c <> None -> exists p, armed_by i c p h1 /\ entered_for c p h1.
Record sets (s : state) : Prop := {
  se_tables : tables_entered s;
  se_pc : forall i q, threads s !! i = Some q -> arms_ok (log s) i q;
  se_ret : returned_ok (log s)
}.
Lemma armed_by_app i c p h d : armed_by i c p h -> (forall c', Called i c' ∉ d) -> armed_by i c p (h ++ d).
Proof.
  intros (x & e & m & h1 & h2 & h3 & G & K & -> & N) D. exists x, e, m, h1, h2, (h3 ++ d). split_and!; try done.
  - by rewrite <- !app_assoc; cbn; rewrite <- !app_assoc.
  - intros c'. specialize (N c'). specialize (D c'). rewrite !elem_of_app in *. tauto.
Qed.
Lemma entered_for_app c p h d : entered_for c p h -> entered_for c p (h ++ d).
Proof. intros (x & e & m & G & K & H). exists x, e, m. split_and!; try done. apply elem_of_app. by left. Qed.
Lemma arms_ok_app h i q d : arms_ok h i q -> (forall c', Called i c' ∉ d) -> arms_ok (h ++ d) i q.
Proof.
  assert (A : forall c, (exists h1 h2, h = h1 ++ Called i c :: h2 /\ forall c', Called i c' ∉ h2) -> (forall c', Called i c' ∉ d) ->
    exists h1 h2, h ++ d = h1 ++ Called i c :: h2 /\ forall c', Called i c' ∉ h2).
  { intros c (h1 & h2 & -> & N) D. exists h1, (h2 ++ d). split; [by rewrite <- app_assoc|]. intros c'. specialize (N c'). specialize (D c'). rewrite !elem_of_app in *. tauto. }
  destruct q; try done; cbn; intros H D.
  - by apply A.
  - by apply armed_by_app.
  - by apply A.
  - destruct H. split; [by apply entered_for_app|by apply A].
  - destruct H. split; [by apply armed_by_app|by apply entered_for_app].
  - destruct r; try done. intros G. destruct (H G) as (p & H1 & H2). exists p. split; [by apply armed_by_app|by apply entered_for_app].
Qed.
Lemma returned_ok_app h d : returned_ok h -> Forall (fun o => call_obs o = false) d -> returned_ok (h ++ d).
Proof.
  intros W D h1 i c h2 E. assert (N : Returned i c (Ok tt) ∉ d) by (intros H; rewrite Forall_forall in D; by apply D in H).
  destruct (app_eq_inv _ _ _ _ E) as [(k & -> & Ek)|(k & -> & Ek)].
  - destruct k as [|x k]; cbn in Ek; [|simplify_eq; by eapply W]. destruct N. rewrite <- Ek. constructor.
  - destruct N. rewrite Ek. set_solver.
Qed.
Lemma returned_ok_snoc h o : returned_ok h ->
  (forall i c, o = Returned i c (Ok tt) -> gives c <> None -> exists p, armed_by i c p h /\ entered_for c p h) -> returned_ok (h ++ [o]).
Proof.
  intros W D h1 i c h2 E. destruct h2 as [|y h2 _] using rev_ind.
  - apply app_inj_tail in E as [-> ->]. by apply D.
  - rewrite app_comm_cons, app_assoc in E. apply app_inj_tail in E as [-> _]. by eapply W.
Qed.
Lemma tables_mono s s' d : tables_entered s -> log s' = log s ++ d ->
  (forall x n, sources s' !! x = Some n -> sources s !! x = Some n \/ Entered (PSock n) x ∈ d) ->
  (forall x n, waitables s' !! x = Some n -> waitables s !! x = Some n \/ Entered (PWait n) x ∈ d) -> tables_entered s'.
Proof.
  intros [A B] E C D. split; intros x n H; rewrite E; apply elem_of_app; [destruct (C _ _ H) as [?|?]|destruct (D _ _ H) as [?|?]]; auto.
Qed.
(** All but the steps of threads. *)
Lemma sets_other s s' d : sets s -> threads s' = threads s -> log s' = log s ++ d -> Forall (fun o => call_obs o = false) d ->
  (forall x n, sources s' !! x = Some n -> sources s !! x = Some n) -> (forall x n, waitables s' !! x = Some n -> waitables s !! x = Some n) -> sets s'.
Proof.
  intros [A B C] Et Ed F S W. split.
  - eapply tables_mono; eauto.
  - rewrite Et, Ed. intros i q Hq. apply arms_ok_app; [by apply B|]. intros c' H. rewrite Forall_forall in F. by apply F in H.
  - rewrite Ed. by apply returned_ok_app.
Qed.
Lemma wait_waitables c s a s' : wait_step c s a = Some s' -> waitables s' = waitables s.
Proof.
  intros H. unfold wait_step in H.
  destruct (waiter s) as [|l|l|l q|l z|l z b|l z b|l z p b|l z b ret p u|l e g|l|d own b] eqn:E, a;
    try done; try (by destruct b); try (injection H as <-; done).
  - destruct (pending s) as [|q r] eqn:Ep; by injection H as <-.
  - case_decide; [done|]. by injection H as <-.
  - destruct b; [case_match|]; by injection H as <-.
  - destruct p as [j|j|j|]; unfold feed_step in H.
    + destruct (socks (pmem s) !! j) as [k|] eqn:Ek; [|done]. cbn [mbind option_bind] in H.
      destruct (feed_sock k) as [k'|k'|k' r] eqn:F; [|by injection H as <-|by injection H as <-].
      destruct (sources s !! sk_socket k) as [n'|] eqn:Es; [|by injection H as <-].
      case_decide; [by injection H as <-|]. set (s2 := set_maps _ _ _) in *.
      assert (X : waitables (do_delete s2 (PSock n') o).2 = waitables s) by done.
      destruct (do_delete s2 _ o) as [r s3]. cbn [snd] in *. injection H as <-. by destruct r as [[]|err|].
    + destruct (wtbs (pmem s) !! j) as [k|] eqn:Ek; [|done]. cbn [mbind option_bind] in H. destruct (feed_wtb k) as [k' r]. by injection H as <-.
    + destruct (customs (pmem s) !! j) as [k|] eqn:Ek; [|done]. cbn [mbind option_bind] in H. by injection H as <-.
    + by injection H as <-.
  - destruct (ustep _ _ _ _ _) as [s1 x] eqn:Eu. destruct (ustep_frame _ _ _ _ _ _ _ Eu) as (X1 & X2 & X3 & X4 & _). injection H as <-. by destruct x as [u'|[[]|e|]].
Qed.
Lemma env_waitables c s l s' :
  step c s l = Some s' -> (match l with LThread _ _ | LWait _ _ _ | LWaiter _ => False | _ => True end) -> waitables s' = waitables s.
Proof.
  intros H X. destruct l; try done; cbn -[do_post] in H.
  - by injection H as <-.
  - case_in H; [|done]. cbn in H. case_in H; [|done]. cbn in H. by injection H as <-.
  - case_in H; [|done]. cbn in H. by injection H as <-.
  - case_in H; [|done]. cbn -[do_post] in H. destruct c0 as [m|m].
    + case_in H; [|done]. cbn in H. by injection H as <-.
    + injection H as <-. unfold do_post; by destruct o.
Qed.
Lemma sets_thread s s1 i q q' d : sets s -> threads s !! i = Some q -> threads s1 = threads s -> log s1 = log s ++ d -> Forall (fun o => call_obs o = false) d ->
  (forall x n, sources s1 !! x = Some n -> sources s !! x = Some n \/ Entered (PSock n) x ∈ d) ->
  (forall x n, waitables s1 !! x = Some n -> waitables s !! x = Some n \/ Entered (PWait n) x ∈ d) ->
  arms_ok (log s ++ d) i q' -> sets (set_pc s1 i q').
Proof.
  intros [A B C] Hq Et Ed F S W Q. assert (NC : forall i c', Called i c' ∉ d) by (intros j c' H; rewrite Forall_forall in F; by apply F in H). split.
  - by eapply tables_mono.
  - cbn. rewrite Et, Ed. intros j r Hr. apply list_lookup_insert_Some in Hr as [(<- & <- & _)|[_ Hr]]; [done|]. apply arms_ok_app; [by apply B|auto].
  - cbn. rewrite Ed. by apply returned_ok_app.
Qed.
Lemma ustep_res_log c s p u o s' x : source (pmem s) p -> upc_ok (pmem s) u -> ustep c s p u o = (s', x) ->
  exists d, log s' = log s ++ d /\ Forall (fun o => call_obs o = false) d.
Proof.
  intros S U E. destruct (ustep_log _ _ _ _ _ _ _ S U E) as (_ & d & D1 & D2 & _). exists d. split; [done|]. eapply Forall_impl; [exact D2|]. by intros [].
Qed.
Lemma sets_reach c s : reachable c s -> sets s.
Proof.
  induction 1 as [n|s l s' Hr IH L H].
  { split; [done| |].
    - intros i q Hq. cbn in Hq. by apply lookup_replicate in Hq as [-> _].
    - intros h1 i c0 h2 E. by destruct h1. }
  pose proof (tinv_reach _ _ Hr) as T. destruct (step_cases _ _ _ _ H) as [(i & q & a & _ & Hq & X)|[(a & _ & X)|[(cap & d & old & E & ->)|X]]].
  - pose proof (se_pc _ IH _ _ Hq) as A. pose proof (t_pc _ T _ _ Hq) as P.
    assert (N : forall s1 q', threads s1 = threads s -> log s1 = log s -> (forall x n, sources s1 !! x = Some n -> sources s !! x = Some n) ->
      (forall x n, waitables s1 !! x = Some n -> waitables s !! x = Some n) -> arms_ok (log s) i q' -> sets (set_pc s1 i q')).
    { intros s1 q' E1 E2 E3 E4 E5. eapply (sets_thread _ _ _ _ _ []); eauto; [by rewrite app_nil_r|by rewrite app_nil_r]. }
    destruct q, a; try done; unfold thread_step in X; cbn in A, P.
    + injection X as <-. destruct IH as [I1 I2 I3]. split.
      * eapply tables_mono; eauto; done.
      * cbn. intros j r Hj. apply list_lookup_insert_Some in Hj as [(<- & <- & _)|[Nj Hj]].
        -- assert (Y : exists h1 h2, log s ++ [Called i c0] = h1 ++ Called i c0 :: h2 /\ forall c', Called i c' ∉ h2).
           { exists (log s), []. split; [done|]. intros c'. apply not_elem_of_nil. }
           destruct c0; cbn; try done; by destruct m.
        -- apply arms_ok_app; [by apply I2|]. by intros c' ?%elem_of_list_singleton; simplify_eq.
      * cbn. apply returned_ok_snoc; [done|]. by intros.
    + destruct o; [injection X as <-; by apply N|]. destruct (new_packet _ _) as [[[m p] ob]|] eqn:E; [|done]. cbn [mbind option_bind] in X. injection X as <-.
      destruct A as (h1 & h2 & A1 & A2).
      destruct c0; cbn in E; try done; injection E as <- <- <-; (eapply (sets_thread _ _ _ _ _ [_]); [done|exact Hq|done|done|by repeat constructor|by auto|by auto|]); cbn;
        eexists _, _, _, h1, h2, []; rewrite A1, <- app_assoc, app_nil_r; split_and!; done.
    + destruct (insert_packet _ _ _) as [s1|] eqn:E; injection X as <-; [|by apply N].
      assert (Y : exists x e m, gives c0 = Some (x, e, m) /\ kind c0 p /\ log s1 = log s ++ [Entered p x] /\ threads s1 = threads s
         /\ (forall y n, sources s1 !! y = Some n -> sources s !! y = Some n \/ Entered (PSock n) y ∈ [Entered p x])
         /\ (forall y n, waitables s1 !! y = Some n -> waitables s !! y = Some n \/ Entered (PWait n) y ∈ [Entered p x])).
      { destruct c0, p; cbn in E; try done; (case_in E; [done|]); injection E as <-; eexists _, _, _; (split; [done|]); split_and!; try done; auto;
          intros y n'; cbn; intros [[-> ->]|[_ ?]]%lookup_insert_Some; auto; right; by left. }
      destruct Y as (x & e & m & G & K & E1 & E2 & E3 & E4). eapply (sets_thread _ _ _ _ _ [Entered p x]); [done|exact Hq|done|done|by repeat constructor|done|done|]. split.
      * apply armed_by_app; [done|]. by intros c' ?%elem_of_list_singleton.
      * exists x, e, m. split_and!; try done. apply elem_of_app. right. by left.
    + destruct (lookup_packet _ _) as [p|] eqn:E; injection X as <-; [|by apply N]. apply N; try done. cbn. split; [|done].
      destruct (se_tables _ IH) as [S1 S2]. destruct c0; cbn in P, E; try done; apply fmap_Some in E as (n & E & ->); eexists _, _, _; (split; [done|]); split; auto; done.
    + destruct (do_set _ _ _) as [[s1 b]|] eqn:E; [|done]. cbn [mbind option_bind] in X. injection X as <-. destruct A as [A (h1 & h2 & A1 & A2)].
      assert (Y : exists x e m, gives c0 = Some (x, e, m) /\ kind c0 p /\ log s1 = log s ++ [Armed p e m] /\ threads s1 = threads s /\ sources s1 = sources s /\ waitables s1 = waitables s).
      { destruct c0, p; cbn in E; try done; (case_in E; [|done]); cbn in E; injection E as <- _; by eexists _, _, _. }
      destruct Y as (x & e & m & G & K & E1 & E2 & E3 & E4).
      assert (AB : armed_by i c0 p (log s ++ [Armed p e m])).
      { exists x, e, m, h1, h2, []. rewrite A1, <- app_assoc, app_nil_r. split_and!; done. }
      pose proof (entered_for_app _ _ _ [Armed p e m] A) as EN.
      assert (FD : Forall (fun o => call_obs o = false) [Armed p e m]) by (constructor; [done|constructor]).
      destruct b; (eapply (sets_thread _ _ _ _ _ [Armed p e m]); [done|exact Hq|done|done|done|by cbn; rewrite E3; auto|by cbn; rewrite E4; auto|]); [done|].
      intros _. by exists p.
    + destruct P as (P1 & P2 & P3). destruct (ustep _ _ _ _ _) as [s1 x] eqn:E. injection X as <-.
      destruct (ustep_frame _ _ _ _ _ _ _ E) as (X1 & X2 & X3 & X4 & _).
      destruct (ustep_res_log _ _ _ _ _ _ _ (names_source _ _ _ P2) P3 E) as (d & D1 & D2). destruct A as [A1 A2].
      assert (AB : armed_by i c0 p (log s ++ d)).
      { apply armed_by_app; [done|]. intros c' Hc. rewrite Forall_forall in D2. by apply D2 in Hc. }
      pose proof (entered_for_app _ _ _ d A2) as EN.
      eapply (sets_thread _ _ _ _ _ d); [done|exact Hq|done|done|done|rewrite X3; auto|rewrite X4; auto|]. destruct x as [u'|[[]|e|]]; try done. intros _. by exists p.
    + destruct (lookup_packet _ _) as [p|] eqn:E; injection X as <-.
      * apply N; try (by destruct c0); destruct c0; try done; by intros y n; cbn; intros [_ ?]%lookup_delete_Some.
      * apply N; try done. destruct c0; try done; intros G; by destruct G.

    + destruct P as [P1 P2]. destruct (delete_log s p o (names_source _ _ _ P2)) as (_ & _ & d & D1 & D2 & _).
      assert (Y : sources (do_delete s p o).2 = sources s /\ waitables (do_delete s p o).2 = waitables s /\ threads (do_delete s p o).2 = threads s) by done.
      destruct (do_delete s p o) as [r s1]. injection X as <-. cbn [snd] in *. destruct Y as (Y1 & Y2 & Y3).
      eapply (sets_thread _ _ _ _ _ (d ++ [Removed p])); [done|exact Hq|done|done| |rewrite Y1; auto|rewrite Y2; auto|].
      * apply Forall_app. split; [|by repeat constructor]. eapply Forall_impl; [exact D2|]. by intros [].
      * destruct r; try done. intros G. destruct c0; try done; by destruct G.
    + subst c0. destruct (notified s); injection X as <-; apply N; try done. intros G. by destruct G.
    + unfold do_post in X; destruct o; injection X as <-; (eapply (sets_thread _ _ _ _ _ [_]); [done|exact Hq|done|done|by repeat constructor|by auto|by auto|]); cbn; [done|].
      intros G. destruct p; try done; [destruct P as [-> _]|subst c0]; by destruct G.
    + injection X as <-. destruct IH as [I1 I2 I3]. split.
      * eapply tables_mono; eauto; done.
      * cbn. intros j r' Hj. apply list_lookup_insert_Some in Hj as [(<- & <- & _)|[Nj Hj]]; [done|].
        apply arms_ok_app; [by apply I2|]. by intros c' ?%elem_of_list_singleton; simplify_eq.
      * cbn. apply returned_ok_snoc; [done|]. intros j c' [= -> -> ->]. exact A.
  - destruct (wait_keeps _ _ _ _ T X) as (d & Et & Ed & D2 & _). eapply sets_other; eauto.
    + by apply own_calls.
    + destruct (wait_sources _ _ _ _ T X) as [->|(y & n & _ & -> & _)]; [done|]. by intros x n'; cbn; intros [_ ?]%lookup_delete_Some.
    + by rewrite (wait_waitables _ _ _ _ X).
  - eapply (sets_other _ _ [_]); eauto.
  - destruct (env_calls _ _ _ _ H X) as (d & Ed & D). destruct (env_log _ _ _ _ H X) as (W & Et & _). eapply sets_other; eauto.
    + by apply own_calls.
    + by rewrite (env_sources _ _ _ _ H X).
    + by rewrite (env_waitables _ _ _ _ H X).
Qed.

(* ------------------------------------------------------------------ *)
(** ** Packets made by the program keep their event *)

Definition keeps_customs (s s' : state) : Prop := forall n e, customs (pmem s) !! n = Some e -> customs (pmem s') !! n = Some e.
Lemma customs_keep s m : customs m = customs (pmem s) -> keeps_customs s (set_mem s m).
Proof. intros E n e. cbn. by rewrite E. Qed.
Lemma customs_update s p o : customs (pmem (do_update s p o).2) = customs (pmem s).
Proof.
  cbn. unfold update. destruct p as [n|n|n|]; try done.
  - destruct (socks _ !! n); [|done]. unfold afd_poll, afd_cancel. repeat case_match; done.
  - destruct (wtbs _ !! n); [|done]. repeat case_match; done.
Qed.
Lemma customs_delete s p o : customs (pmem (do_delete s p o).2) = customs (pmem s).
Proof.
  cbn. unfold begin_delete. destruct p as [n|n|n|]; try done.
  - destruct (socks _ !! n); [|done]. unfold afd_cancel. repeat case_match; done.
  - destruct (wtbs _ !! n); [|done]. repeat case_match; done.
Qed.
Lemma customs_ustep c s p u o s' x : ustep c s p u o = (s', x) -> customs (pmem s') = customs (pmem s).
Proof.
  intros H. destruct u as [| | |n|n q]; cbn -[do_update] in H.
  - by injection H as <- _.
  - pose proof (customs_update s p o) as E. destruct (do_update s p o). by injection H as <- _.
  - case_decide; by injection H as <- _.
  - destruct n; [by injection H as <- _|]. destruct (pending s); by injection H as <- _.
  - pose proof (customs_update s q o) as E. destruct (do_update s q o) as [r s1]. destruct r; injection H as <- _; done.
Qed.
Lemma thread_customs c s i q a s' : thread_step c s i q a = Some s' -> customs (pmem s') = customs (pmem s).
Proof.
  intros H. destruct q, a; try done; unfold thread_step in H.
  - by injection H as <-.
  - destruct o; [by injection H as <-|]. destruct c0; cbn in H; try done; by injection H as <-.
  - destruct (insert_packet _ _ _) as [s1|] eqn:E; [|by injection H as <-]. injection H as <-.
    destruct c0, p; cbn in E; try done; (case_in E; [done|]); by injection E as <-.
  - destruct (lookup_packet _ _); by injection H as <-.
  - destruct (do_set _ _ _) as [[s1 b]|] eqn:E; [|done]. cbn [mbind option_bind] in H. injection H as <-.
    assert (X : customs (pmem s1) = customs (pmem s)).
    { destruct c0, p; cbn in E; try done; (case_in E; [|done]); cbn in E; by injection E as <- _. }
    by destruct b.
  - destruct (ustep _ _ _ _ _) as [s1 x] eqn:E. apply customs_ustep in E. by injection H as <-.
  - destruct (lookup_packet _ _); injection H as <-; [|done]. by destruct c0.
  - pose proof (customs_delete s p o) as E. destruct (do_delete s p o). by injection H as <-.
  - destruct (notified s); by injection H as <-.
  - unfold do_post in H; destruct o; by injection H as <-.
  - by injection H as <-.
Qed.
Lemma wait_customs c s a s' : wait_step c s a = Some s' -> customs (pmem s') = customs (pmem s).
Proof.
  intros H. unfold wait_step in H.
  destruct (waiter s) as [|l|l|l q|l z|l z b|l z b|l z p b|l z b ret p u|l e g|l|d own b] eqn:E, a;
    try done; try (by destruct b); try (injection H as <-; done).
  - destruct (pending s) as [|q r] eqn:Ep; by injection H as <-.
  - pose proof (customs_update s q o) as E1. destruct (do_update s q o). by injection H as <-.
  - case_decide; [done|]. by injection H as <-.
  - destruct b; [case_match|]; injection H as <-; [done|done|]. apply customs_unlock.
  - destruct p as [j|j|j|]; unfold feed_step in H.
    + destruct (socks (pmem s) !! j) as [k|] eqn:Ek; [|done]. cbn [mbind option_bind] in H.
      destruct (feed_sock k) as [k'|k'|k' r] eqn:F; [|by injection H as <-|by injection H as <-].
      destruct (sources s !! sk_socket k) as [n'|] eqn:Es; [|by injection H as <-].
      case_decide; [by injection H as <-|]. set (s2 := set_maps _ _ _) in *. pose proof (customs_delete s2 (PSock n') o) as E1.
      destruct (do_delete s2 _ o) as [r s3]. cbn [snd] in *. injection H as <-. destruct r as [[]|err|]; try done.
      cbn. rewrite customs_discards. done.
    + destruct (wtbs (pmem s) !! j) as [k|] eqn:Ek; [|done]. cbn [mbind option_bind] in H. destruct (feed_wtb k) as [k' r]. by injection H as <-.
    + destruct (customs (pmem s) !! j) as [k|] eqn:Ek; [|done]. cbn [mbind option_bind] in H. by injection H as <-.
    + by injection H as <-.
  - destruct (ustep _ _ _ _ _) as [s1 x] eqn:Eu. apply customs_ustep in Eu. injection H as <-. destruct x as [u'|[[]|e|]]; try done.
    cbn. by rewrite customs_discards.
Qed.
Lemma step_customs c s l s' : tinv s -> step c s l = Some s' -> keeps_customs s s'.
Proof.
  intros T H n e He. destruct (step_cases _ _ _ _ H) as [(i & q & a & _ & Hq & X)|[(a & _ & X)|[(cap & d & old & E & ->)|X]]].
  - by rewrite (thread_customs _ _ _ _ _ _ X).
  - by rewrite (wait_customs _ _ _ _ X).
  - done.
  - destruct l; try done; cbn -[do_post] in H.
    + injection H as <-. cbn. rewrite lookup_insert_ne; [done|]. destruct (t_dom _ T) as (_ & _ & D). pose proof (D n ltac:(by eexists)). lia.
    + case_in H; [|done]. cbn in H. case_in H; [|done]. cbn in H. by injection H as <-.
    + case_in H; [|done]. cbn in H. by injection H as <-.
    + case_in H; [|done]. cbn -[do_post] in H. destruct c0 as [m|m].
      * case_in H; [|done]. cbn in H. by injection H as <-.
      * injection H as <-. unfold do_post; by destruct o.
Qed.
Lemma later_customs c s s' : reachable c s -> later c s s' -> keeps_customs s s'.
Proof.
  intros R. induction 1 as [|s1 l s2 L IH Lg H]; [by intros n e|]. intros n e He. apply IH in He. eapply step_customs; [|exact H|done].
  eapply tinv_reach. by eapply later_reachable.
Qed.
Definition values (s : state) : Prop :=
  forall n r, Fed (PCustom n) r ∈ log s -> exists e, r = Some e /\ customs (pmem s) !! n = Some e.
Lemma values_reach c s : reachable c s -> values s.
Proof.
  induction 1 as [n|s l s' Hr IH L H]; [by intros ? ? ?%not_elem_of_nil|]. intros n r Hin. pose proof (tinv_reach _ _ Hr) as T.
  pose proof (step_customs _ _ _ _ T H) as K.
  assert (N : forall d, log s' = log s ++ d -> Fed (PCustom n) r ∉ d -> exists e, r = Some e /\ customs (pmem s') !! n = Some e).
  { intros d Ed Nd. rewrite Ed in Hin. apply elem_of_app in Hin as [Hin|Hin]; [|done]. destruct (IH _ _ Hin) as (e & -> & He). exists e. auto. }
  destruct (step_cases _ _ _ _ H) as [(i & q & a & _ & Hq & X)|[(a & _ & X)|[(cap & d & old & E & ->)|X]]].
  - destruct (thread_log _ _ _ _ _ _ T Hq X) as (_ & d & Ed & As & _). apply (N d Ed). intros Hy. rewrite Forall_forall in As. by apply As in Hy.
  - destruct (wait_keeps _ _ _ _ T X) as (d & _ & Ed & _). pose proof Hin as Hd. rewrite Ed in Hd.
    apply elem_of_app in Hd as [Hd|Hd]; [destruct (IH _ _ Hd) as (e & -> & He); exists e; auto|].
    pose proof (wait_fed _ _ _ _ _ _ _ T X Ed Hd) as Op. unfold wait_step in X.
    destruct (waiter s) as [|?|?|?|?|?|?|l0 z p b|?|?|?|?] eqn:E; try done. cbn in Op. injection Op as ->. destruct a; try done. cbn in X.
    destruct (customs (pmem s) !! n) as [e|] eqn:Ee; [|done]. cbn in X. injection X as <-. cbn in Ed. apply app_inv_head in Ed as <-.
    apply elem_of_list_singleton in Hd. injection Hd as ->. by exists e.
  - apply (N [WaitBegun d old]); [done|]. by intros ?%elem_of_list_singleton.
  - destruct (env_log _ _ _ _ H X) as (_ & _ & _ & _ & _ & d & Ed & As & _). apply (N d Ed). intros Hy. rewrite Forall_forall in As. by apply As in Hy.
Qed.

(* ------------------------------------------------------------------ *)
(** ** Posted packets are lost only by a wait that fails *)

Definition failing (w : wpc) : bool := match w with WFail _ _ _ => true | _ => false end.
Definition lossy (s : state) : Prop :=
  forall p, plain p -> Lost p ∈ log s -> (exists e evs, WaitRet (Err e) evs ∈ log s) \/ failing (waiter s) = true.
Lemma wait_lossy c s a s' d p : tinv s -> plain p -> wait_step c s a = Some s' -> log s' = log s ++ d -> Lost p ∈ d -> failing (waiter s') = true.
Proof.
  intros T Pl H Ed Hin. pose proof (t_wait _ T) as TW. unfold wait_step in H.
  assert (N : log s' = log s -> failing (waiter s') = true).
  { intros E. rewrite E in Ed. rewrite <- (app_nil_r (log s)) in Ed at 1. apply app_inv_head in Ed as <-. by apply not_elem_of_nil in Hin. }
  assert (N1 : forall o, log s' = log s ++ [o] -> match o with Lost _ => False | _ => True end -> failing (waiter s') = true).
  { intros o E F. rewrite E in Ed. apply app_inv_head in Ed as <-. apply elem_of_list_singleton in Hin. by subst o. }
  assert (M : forall d, Forall mishap d -> Lost p ∉ d).
  { intros d0 F Hy. rewrite Forall_forall in F. apply F in Hy. by destruct p. }
  destruct (waiter s) as [|l|l|l q|l z|l z b|l z b|l z p1 b|l z b ret p1 u|l e g|l|d0 own b] eqn:E, a;
    try done; try (by destruct b); cbn in TW; try (injection H as <-; by apply N).
  - destruct (pending s) as [|q l0] eqn:Ep; injection H as <-; [by eapply N1|by apply N].
  - assert (X : log (do_update s q o).2 = log s ++ (if ef_fault (update (pmem s) (sys s) q o) then [Fault q] else [])) by done.
    destruct (do_update s q o) as [r0 s1]. injection H as <-. cbn in X. destruct (ef_fault _); [by eapply N1|]. rewrite app_nil_r in X. by apply N.
  - case_decide; [done|]. injection H as <-. by apply N.
  - destruct b; [case_match|]; injection H as <-; by apply N.
  - destruct (feed_log _ _ _ _ _ _ _ T E H) as (_ & _ & _ & _ & _ & r1 & d1 & L & D). rewrite L in Ed. apply app_inv_head in Ed as <-.
    apply elem_of_cons in Hin as [Hin|Hin]; [done|].
    destruct D as [(_ & D1 & _)|(d2 & -> & D1 & _ & _ & _ & _ & e & ->)]; [|done]. by destruct (D1 p).
  - destruct TW as (TW1 & TW2 & TW3). destruct (ustep _ _ _ _ _) as [s1 x] eqn:Eu.
    destruct (ustep_log _ _ _ _ _ _ _ TW1 TW2 Eu) as (Q & d1 & D1 & D2 & D3 & D4).
    destruct x as [u'|[[]|e|]]; [| | |done]; injection H as <-; cbn in Ed; rewrite D1 in Ed; rewrite <- ?app_assoc in Ed; apply app_inv_head in Ed; subst d; try done;
      exfalso; by eapply M.
  - injection H as <-. by eapply N1.
  - injection H as <-. by eapply N1.
Qed.
Lemma lossy_reach c s : reachable c s -> lossy s.
Proof.
  induction 1 as [n|s l s' Hr IH L H]; [by intros ? ? ?%not_elem_of_nil|]. intros p Pl Hin. pose proof (tinv_reach _ _ Hr) as T.
  assert (N : forall d, log s' = log s ++ d -> (Lost p ∈ d -> failing (waiter s') = true) -> (failing (waiter s) = true -> failing (waiter s') = true \/ (exists e evs, WaitRet (Err e) evs ∈ log s')) ->
    (exists e evs, WaitRet (Err e) evs ∈ log s') \/ failing (waiter s') = true).
  { intros d Ed Nd F. pose proof Hin as Hi. rewrite Ed in Hi. apply elem_of_app in Hi as [Hi|Hi]; [|by right; apply Nd]. destruct (IH _ Pl Hi) as [(e & evs & He)|He].
    - left. exists e, evs. rewrite Ed. apply elem_of_app. by left.
    - destruct (F He); auto. }
  destruct (step_cases _ _ _ _ H) as [(i & q & a & _ & Hq & X)|[(a & _ & X)|[(cap & d & old & E & ->)|X]]].
  - destruct (thread_log _ _ _ _ _ _ T Hq X) as (W & d & Ed & As & _). apply (N d Ed); [|rewrite W; auto].
    intros Hy. rewrite Forall_forall in As. apply As in Hy. by destruct p.
  - destruct (wait_keeps _ _ _ _ T X) as (d & _ & Ed & _). apply (N d Ed).
    + by eapply wait_lossy.
    + intros F. right. unfold wait_step in X. destruct (waiter s) as [|?|?|?|?|?|?|?|?|l0 e g|?|?] eqn:E; try done.
      destruct a; try done. injection X as <-. exists e, (lc_events l0). cbn. apply elem_of_app. right. by left.
  - apply (N [WaitBegun d old]); [done| |]. { by intros ?%elem_of_list_singleton. } by rewrite E.
  - destruct (env_log _ _ _ _ H X) as (W & _ & _ & _ & _ & d & Ed & As & _). apply (N d Ed); [|rewrite W; auto].
    intros Hy. rewrite Forall_forall in As. apply As in Hy. by destruct p.
Qed.
(** Between two waits, with none that failed, what was posted was taken or is still in the port. *)
Lemma posted_exact c s p : reachable c s -> plain p -> no_wait_failed (log s) -> current (log s) = None ->
  tally (posts p) (log s) = tally (taken p) (log s) + occ p (queue (sys s)).
Proof.
  intros R Pl NF C. pose proof (balanced_reach _ _ R p Pl) as B. rewrite gone_split in B.
  assert (W : waiter s = WOut).
  { destruct (w_cur _ (winv_reach _ _ R)) as [?|(w & Hw & _)]; [done|]. congruence. }
  unfold outstanding in B. rewrite W in B. cbn [batch opened] in B.
  assert (Z : tally (losses p) (log s) = 0).
  { apply tally_none. intros o Ho. destruct o; try done. cbn. apply bool_decide_false. intros <-.
    destruct (lossy_reach _ _ R p Pl Ho) as [(e & evs & He)|He]; [by eapply NF|]. by rewrite W in He. }
  unfold occ in *. cbn in B. lia.
Qed.
