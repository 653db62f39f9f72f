(** A call that fails with a system error: the system refused something during the call. *)
From stdpp Require Import prelude list gmap.
From Verif Require Import Bits Types EventModel Pool IocpModel IocpSpec IocpProofs IocpProofs2 IocpProofs3 IocpProofs4 IocpProofs5 IocpProofs8 IocpProofs9 IocpProofs10 IocpProofs13 IocpProofs16.
Local Open Scope nat_scope.

Lemma calls_split h i cl : calls h !! i = Some cl -> exists h1 h2, h = h1 ++ Called i cl :: h2 /\ forall c', Called i c' ∉ h2.
Proof.
  induction h as [|o h IH] using rev_ind; [done|]. rewrite calls_snoc. intros H.
  assert (K : calls h !! i = Some cl -> (forall c', o <> Called i c') -> exists h1 h2, h ++ [o] = h1 ++ Called i cl :: h2 /\ forall c', Called i c' ∉ h2).
  { intros X N. destruct (IH X) as (h1 & h2 & -> & M). exists h1, (h2 ++ [o]). split; [by rewrite <- app_assoc|]. intros c'.
    rewrite elem_of_app, elem_of_list_singleton. intros [Y|Y]; [by apply (M c')|by apply (N c')]. }
  destruct o; cbn [calls_step] in H; try (by apply K).
  - destruct (decide (i0 = i)) as [->|N].
    + rewrite lookup_insert in H. injection H as ->. exists h, []. split; [done|]. intros c'. apply not_elem_of_nil.
    + rewrite lookup_insert_ne in H by done. apply K; [done|]. intros c' [= ? _]. congruence.
  - destruct (decide (i0 = i)) as [->|N]; [by rewrite lookup_delete in H|]. rewrite lookup_delete_ne in H by done. by apply K.
Qed.

Lemma refused_in_app i cl h d : refused_in i cl h -> (forall c', Called i c' ∉ d) -> refused_in i cl (h ++ d).
Proof.
  intros (h1 & h2 & p & -> & N & F & C) D. exists h1, (h2 ++ d), p. split; [by rewrite <- app_assoc|]. split; [|split].
  - intros c'. rewrite elem_of_app. intros [X|X]; [by apply (N c')|by apply (D c')].
  - apply elem_of_app. by left.
  - destruct cl; cbn in *; try done; destruct C as [C1 C2]; (split; [|done]); apply elem_of_app; by left.
Qed.
Lemma refused_new i cl h d p : calls h !! i = Some cl -> (forall c', Called i c' ∉ d) -> Fault p ∈ d -> concerned cl p h -> refused_in i cl (h ++ d).
Proof.
  intros H D F C. destruct (calls_split _ _ _ H) as (h1 & h2 & -> & N). exists h1, (h2 ++ d), p. split; [by rewrite <- app_assoc|]. split; [|split].
  - intros c'. rewrite elem_of_app. intros [X|X]; [by apply (N c')|by apply (D c')].
  - apply elem_of_app. by right.
  - destruct cl; cbn in *; try done; destruct C as [C1 C2]; (split; [|done]); apply elem_of_app; by left.
Qed.

(** What a thread carries. *)
Definition carries (h : list obs) (i : nat) (q : pc) : Prop :=
  match q with
  | DBegin cl p | Post cl p => concerned cl p h
  | Ret cl (Err (EOs e)) => makes cl \/ refused_in i cl h
  | _ => True
  end.
Definition returned_err (h : list obs) : Prop :=
  forall h1 i cl e h2, h = h1 ++ Returned i cl (Err (EOs e)) :: h2 -> makes cl \/ refused_in i cl h1.
Record finv (s : state) : Prop := {
  f_pc : forall i q, threads s !! i = Some q -> carries (log s) i q;
  f_log : returned_err (log s)
}.
Lemma carries_app h d i q : carries h i q -> (forall c', Called i c' ∉ d) -> carries (h ++ d) i q.
Proof.
  intros C D. destruct q as [|c|c p|c|c p|c p u|c|c p|c|c p|c [|[]|]]; cbn in *; try done.
  - destruct c; cbn in *; try done; destruct C as [C1 C2]; (split; [|done]); apply elem_of_app; by left.
  - destruct c; cbn in *; try done; destruct C as [C1 C2]; (split; [|done]); apply elem_of_app; by left.
  - destruct C as [C|C]; [by left|right]. by apply refused_in_app.
Qed.
Lemma returned_err_app h d : returned_err h -> (forall i cl e, Returned i cl (Err (EOs e)) ∉ d) -> returned_err (h ++ d).
Proof.
  intros R N h1 i cl e h2 E. apply app_eq_inv in E as [(k & E1 & E2)|(k & E1 & E2)].
  - destruct k as [|y k]; [destruct (N i cl e); cbn in E2; rewrite <- E2; constructor|]. injection E2 as <- ->. by apply (R h1 i cl e k).
  - destruct (N i cl e). rewrite E2. apply elem_of_app. right. constructor.
Qed.
Lemma quiet_called d i c : Forall (fun o => call_obs o = false) d -> Called i c ∉ d.
Proof. intros F H. rewrite Forall_forall in F. by apply F in H. Qed.
Lemma quiet_returned d i c r : Forall (fun o => call_obs o = false) d -> Returned i c r ∉ d.
Proof. intros F H. rewrite Forall_forall in F. by apply F in H. Qed.

Lemma finv_thread c s i q a s' : tinv s -> cinv s -> tables_entered s -> finv s -> threads s !! i = Some q -> thread_step c s i q a = Some s' -> finv s'.
Proof.
  intros T CI TE [A B] Hq H. pose proof (t_pc _ T _ _ Hq) as P. pose proof (CI i) as Ci. rewrite Hq in Ci. cbn [mbind option_bind] in Ci.
  destruct (thread_calls _ _ _ _ _ _ T Hq H) as (q' & Et & d & Ed & D).
  assert (Others : forall j r, j <> i -> threads s' !! j = Some r -> carries (log s') j r).
  { intros j r N Hj. rewrite Et, list_lookup_insert_ne in Hj by done. rewrite Ed. apply carries_app; [by apply A|]. intros c'.
    destruct D as [(cl & _ & _ & ->)|[(cl & r' & _ & _ & ->)|[_ D]]]; [rewrite elem_of_list_singleton; congruence|by rewrite elem_of_list_singleton|by apply quiet_called]. }
  assert (Hq' : threads s' !! i = Some q') by (rewrite Et; apply list_lookup_insert; by eapply lookup_lt_Some).
  split.
  - intros j r Hj. destruct (decide (j = i)) as [->|N]; [|by apply Others]. rewrite Hq' in Hj. injection Hj as <-.
    destruct D as [(cl & -> & -> & ->)|[(cl & r' & _ & -> & _)|[Hc D]]]; [|done|].
    + destruct cl; cbn; try done; by destruct (supported m).
    + assert (NC : forall c', Called i c' ∉ d) by (intros c'; by apply quiet_called).
      destruct q, a; try done; unfold thread_step in H.
      * exfalso. injection H as <-. cbn in Ed. apply app_inv_head in Ed as <-. by inversion D.
      * destruct o; [injection H as <-|].
        -- cbn in Hq'. rewrite list_lookup_insert in Hq' by (by eapply lookup_lt_Some). injection Hq' as <-. cbn. left. by destruct c0.
        -- destruct (new_packet _ _) as [[[m p] ob]|]; [|done]. cbn [mbind option_bind] in H. injection H as <-.
           cbn in Hq'. rewrite list_lookup_insert in Hq' by (by eapply lookup_lt_Some). by injection Hq' as <-.
      * destruct (insert_packet _ _ _) as [s1|] eqn:E; injection H as <-.
        -- assert (X : threads s1 = threads s) by (destruct c0, p; cbn in E; try done; (case_in E; [done|]); by injection E as <-).
           cbn in Hq'. rewrite X, list_lookup_insert in Hq' by (by eapply lookup_lt_Some). by injection Hq' as <-.
        -- cbn in Hq'. rewrite list_lookup_insert in Hq' by (by eapply lookup_lt_Some). by injection Hq' as <-.
      * destruct (lookup_packet _ _) as [p|] eqn:E; injection H as <-; cbn in Hq'; rewrite list_lookup_insert in Hq' by (by eapply lookup_lt_Some); by injection Hq' as <-.
      * destruct (do_set _ _ _) as [[s1 b]|] eqn:E; [|done]. cbn [mbind option_bind] in H. injection H as <-.
        assert (X : threads s1 = threads s) by (destruct c0, p; cbn in E; try done; (case_in E; [|done]); cbn in E; by injection E as <- _).
        destruct b; cbn in Hq'; rewrite X, list_lookup_insert in Hq' by (by eapply lookup_lt_Some); by injection Hq' as <-.
      * cbn in P. destruct P as (P1 & P2 & P3). destruct (ustep _ _ _ _ _) as [s1 x] eqn:E. injection H as <-.
        destruct (ustep_log _ _ _ _ _ _ _ (names_source _ _ _ P2) P3 E) as (Q & d' & D1 & D2 & D3 & D4).
        assert (X : threads s1 = threads s) by (by destruct (ustep_frame _ _ _ _ _ _ _ E) as (? & ? & ? & ? & ? & ?)).
        cbn in Hq'. rewrite X, list_lookup_insert in Hq' by (by eapply lookup_lt_Some). injection Hq' as <-.
        cbn in Ed. rewrite D1 in Ed. apply app_inv_head in Ed as <-. destruct x as [u'|[|[e|]|]]; try (cbn; exact I).
        destruct D4 as [p' D4]. right. cbn. rewrite D1. eapply refused_new; [exact Ci|done|done|]. destruct c0; try done; cbn in P1; tauto.
      * destruct (lookup_packet _ _) as [p|] eqn:E; injection H as <-.
        -- cbn in Hq'. assert (X : threads (remove_packet s c0) = threads s) by (by destruct c0). rewrite X, list_lookup_insert in Hq' by (by eapply lookup_lt_Some). injection Hq' as <-.
           cbn. assert (Y : log (remove_packet s c0) = log s) by (by destruct c0). rewrite Y. destruct TE as [T1 T2].
           destruct c0; try done; cbn in E; apply fmap_Some in E as (n & E & ->); cbn; eauto.
        -- cbn in Hq'. rewrite list_lookup_insert in Hq' by (by eapply lookup_lt_Some). by injection Hq' as <-.
      * cbn in P. destruct P as [P1 P2]. destruct (delete_log s p o (names_source _ _ _ P2)) as (Q & _ & d' & D1 & D2 & D3 & D4).
        assert (X : threads (do_delete s p o).2 = threads s) by done.
        destruct (do_delete s p o) as [r s1]. cbn [snd] in *. injection H as <-. cbn in Hq'. rewrite X, list_lookup_insert in Hq' by (by eapply lookup_lt_Some). injection Hq' as <-.
        cbn in Ed. destruct r as [|[e|]|]; try done. right. cbn. rewrite D1 in Ed |- *. apply app_inv_head in Ed as <-.
        eapply refused_new; [exact Ci|done| |by apply (A _ _ Hq)]. apply elem_of_app. left. by apply D4.
      * cbn in P. subst c0. destruct (notified s); injection H as <-; cbn in Hq'; rewrite list_lookup_insert in Hq' by (by eapply lookup_lt_Some); by injection Hq' as <-.
      * unfold do_post in H; destruct o; injection H as <-; cbn in Hq'; rewrite list_lookup_insert in Hq' by (by eapply lookup_lt_Some); injection Hq' as <-; [|done].
        right. cbn. eapply refused_new; [exact Ci| | |by apply (A _ _ Hq)]; [intros c'; by rewrite elem_of_list_singleton|apply elem_of_list_singleton; done].
      * injection H as <-. cbn in Hq'. rewrite list_lookup_insert in Hq' by (by eapply lookup_lt_Some). by injection Hq' as <-.
  - rewrite Ed. destruct D as [(cl & -> & -> & ->)|[(cl & r' & -> & -> & ->)|[Hc D]]].
    + apply returned_err_app; [done|]. intros. by rewrite elem_of_list_singleton.
    + intros h1 j cl' e h2 E. apply app_eq_inv in E as [(k & E1 & E2)|(k & E1 & E2)].
      * destruct k as [|y k]; [|injection E2 as <- ->; by apply (B h1 j cl' e k)]. cbn in E2. injection E2 as <- <- <- _. rewrite app_nil_r in E1. subst h1.
        apply (A _ _ Hq).
      * destruct k as [|y k]; [|by destruct k]. cbn in E2. injection E2 as <- <- -> _. rewrite app_nil_r in E1. subst h1. apply (A _ _ Hq).
    + apply returned_err_app; [done|]. intros. by apply quiet_returned.
Qed.
Lemma finv_reach c s : reachable c s -> finv s.
Proof.
  induction 1 as [n|s l s' Hr IH L H].
  { split; [|intros h1 i cl e h2 E; by destruct h1]. intros i q Hi. cbn in Hi. by apply lookup_replicate in Hi as [-> _]. }
  pose proof (tinv_reach _ _ Hr) as T. destruct (step_cases _ _ _ _ H) as [(i & q & a & _ & Hq & X)|[(a & _ & X)|[(cap & d & old & E & ->)|X]]].
  - eapply finv_thread; try done; [by apply (cinv_reach c)|apply (sets_reach _ _ Hr)].
  - destruct (wait_keeps _ _ _ _ T X) as (d & Et & Ed & F & _). apply own_calls in F. destruct IH as [A B]. split; rewrite Ed.
    + rewrite Et. intros j r Hj. apply carries_app; [by apply A|]. intros c'. by apply quiet_called.
    + apply returned_err_app; [done|]. intros. by apply quiet_returned.
  - destruct IH as [A B]. split; cbn.
    + intros j r Hj. apply carries_app; [by apply A|]. intros c'. by rewrite elem_of_list_singleton.
    + apply returned_err_app; [done|]. intros. by rewrite elem_of_list_singleton.
  - destruct (env_calls _ _ _ _ H X) as (d & Ed & F). apply own_calls in F. destruct (env_log _ _ _ _ H X) as (_ & Et & _). destruct IH as [A B]. split; rewrite Ed.
    + rewrite Et. intros j r Hj. apply carries_app; [by apply A|]. intros c'. by apply quiet_called.
    + apply returned_err_app; [done|]. intros. by apply quiet_returned.
Qed.
