(** Calls that fail. *)
From stdpp Require Import prelude list gmap.
From Verif Require Import Bits Types EventModel Pool IocpModel IocpSpec IocpProofs IocpProofs2 IocpProofs3 IocpProofs4 IocpProofs5 IocpProofs8 IocpProofs9 IocpProofs10.
Local Open Scope nat_scope.

(** A call that fails with a system error, other than making a packet: the system refused something. *)
Definition makes (c : call) : Prop := match c with CAdd _ _ _ | CAddW _ _ _ => True | _ => False end.
Definition refused_some (h : list obs) : Prop := exists p, Fault p ∈ h.
Record einv (s : state) : Prop := {
  e_pc : forall i c e, threads s !! i = Some (Ret c (Err (EOs e))) -> makes c \/ refused_some (log s);
  e_log : forall i c e, Returned i c (Err (EOs e)) ∈ log s -> makes c \/ refused_some (log s)
}.
Lemma refused_app h d : refused_some h -> refused_some (h ++ d).
Proof. intros [p H]. exists p. apply elem_of_app. by left. Qed.
Lemma einv_thread s s' i q q' d : einv s -> threads s !! i = Some q -> threads s' = <[i:=q']> (threads s) -> log s' = log s ++ d ->
  (forall i c e, Returned i c (Err (EOs e)) ∉ d) -> (forall c e, q' = Ret c (Err (EOs e)) -> makes c \/ refused_some (log s')) -> einv s'.
Proof.
  intros [A B] Hq Et Ed N Q. split; rewrite Ed.
  - rewrite Et. intros j c e Hj. apply list_lookup_insert_Some in Hj as [(<- & E & _)|[_ Hj]].
    + rewrite Ed in Q. by eapply Q.
    + destruct (A _ _ _ Hj) as [?|?]; [by left|right; by apply refused_app].
  - intros j c e [Hj|Hj]%elem_of_app; [|by apply N in Hj]. destruct (B _ _ _ Hj) as [?|?]; [by left|right; by apply refused_app].
Qed.
Lemma einv_other s s' d : einv s -> threads s' = threads s -> log s' = log s ++ d -> (forall i c e, Returned i c (Err (EOs e)) ∉ d) -> einv s'.
Proof.
  intros [A B] Et Ed N. split; rewrite Ed.
  - rewrite Et. intros j c e Hj. destruct (A _ _ _ Hj) as [?|?]; [by left|right; by apply refused_app].
  - intros j c e [Hj|Hj]%elem_of_app; [|by apply N in Hj]. destruct (B _ _ _ Hj) as [?|?]; [by left|right; by apply refused_app].
Qed.
Lemma mishap_quiet d : Forall mishap d -> forall i c e, Returned i c (Err (EOs e)) ∉ d.
Proof. intros F i c e H. rewrite Forall_forall in F. by apply F in H. Qed.
Lemma einv_step_thread c s i q a s' : tinv s -> einv s -> threads s !! i = Some q -> thread_step c s i q a = Some s' -> einv s'.
Proof.
  intros T I Hq H. pose proof (t_pc _ T _ _ Hq) as P.
  assert (N : forall s2 q2, log s2 = log s -> threads s2 = threads s -> (forall c e, q2 = Ret c (Err (EOs e)) -> makes c) -> einv (set_pc s2 i q2)).
  { intros s2 q2 E1 E2 E3. apply (einv_thread s _ i q q2 [] I Hq); [cbn; by rewrite E2|cbn; by rewrite E1, app_nil_r|intros; apply not_elem_of_nil|]. intros c0 e ->. left. by eapply E3. }
  assert (N1 : forall s2 q2 ob, log s2 = log s ++ [ob] -> threads s2 = threads s -> (forall i c e, ob <> Returned i c (Err (EOs e))) ->
      (forall c e, q2 <> Ret c (Err (EOs e))) -> einv (set_pc s2 i q2)).
  { intros s2 q2 ob E1 E2 E3 E4. apply (einv_thread s _ i q q2 [ob] I Hq); [cbn; by rewrite E2|done|intros j c0 e X%elem_of_list_singleton; by apply (E3 j c0 e)|].
    intros c0 e X. by destruct (E4 c0 e). }
  destruct q, a; try done; unfold thread_step in H; cbn in P.
  - injection H as <-. apply (einv_thread s _ i Out (entry c0) [Called i c0] I Hq); [done|done|intros j c1 e X%elem_of_list_singleton; done|].
    intros c1 e X. exfalso. destruct c0; cbn in X; try done; destruct (supported _); done.
  - destruct o; [injection H as <-; apply N; [done|done|]; intros c1 e9 X; injection X as <- _; by destruct c0|].
    destruct (new_packet _ _) as [[[m p] ob]|] eqn:E; [|done]. cbn [mbind option_bind] in H. injection H as <-.
    apply (N1 (emit (set_mem s m) ob) (AInsert c0 p) ob); [done|done| |done]. destruct c0; cbn in E; try done; by injection E as <- <- <-.
  - destruct (insert_packet _ _ _) as [s1|] eqn:E; [|injection H as <-; by apply N]. injection H as <-.
    destruct c0, p; cbn in E; try done; (case_in E; [done|]); injection E as <-; by eapply N1.
  - destruct (lookup_packet _ _) as [p|] eqn:E; injection H as <-; by apply N.
  - destruct (do_set _ _ _) as [[s1 b]|] eqn:E; [|done]. cbn [mbind option_bind] in H. injection H as <-. destruct P as [P _].
    assert (X : exists ob, log s1 = log s ++ [ob] /\ threads s1 = threads s /\ (forall i c e, ob <> Returned i c (Err (EOs e)))).
    { destruct c0, p; cbn in E; try done; (case_in E; [|done]); cbn in E; injection E as <- _; by eexists. }
    destruct X as (ob & X1 & X2 & X3). destruct b; by eapply N1.
  - destruct P as (P1 & P2 & P3). destruct (ustep _ _ _ _ _) as [s1 x] eqn:E. injection H as <-.
    destruct (ustep_log _ _ _ _ _ _ _ (names_source _ _ _ P2) P3 E) as (Q & d & D1 & D2 & D3 & D4). destruct (ustep_frame _ _ _ _ _ _ _ E) as (_ & X & _).
    assert (X' : threads s1 = threads s) by (by destruct (ustep_frame _ _ _ _ _ _ _ E) as (? & ? & ? & ? & ? & ?)).
    eapply (einv_thread s _ i _ _ d I Hq); [cbn; by rewrite X'|done|by apply mishap_quiet|].
    intros c1 e Y. right. destruct x as [u'|[]]; try done. destruct D4 as [p' D4]. exists p'. cbn. rewrite D1. apply elem_of_app. by right.
  - destruct (lookup_packet _ _) as [p|] eqn:E; injection H as <-; apply N; try done; by destruct c0.
  - destruct P as [P1 P2]. destruct (delete_log s p o (names_source _ _ _ P2)) as (Q & _ & d & D1 & D2 & D3 & D4).
    assert (X : threads (do_delete s p o).2 = threads s) by done.
    destruct (do_delete s p o) as [r s1]. cbn [snd] in *. injection H as <-. eapply (einv_thread s _ i _ _ (d ++ [Removed p]) I Hq); [cbn; by rewrite X|done| |].
    + intros j c1 e [Y|Y%elem_of_list_singleton]%elem_of_app; [by apply mishap_quiet in Y|done].
    + intros c1 e Y. injection Y as -> ->. right. exists p. cbn. rewrite D1. apply elem_of_app. right. apply elem_of_app. left. by apply D4.
  - subst c0. destruct (notified s); injection H as <-; by apply N.
  - unfold do_post in H; destruct o; injection H as <-.
    + eapply (einv_thread s _ i _ _ [Fault p] I Hq); [done|done|intros j c1 e0 X%elem_of_list_singleton; done|].
      intros c1 e0 X. right. exists p. cbn. apply elem_of_app. right. by left.
    + eapply (einv_thread s _ i _ _ [Posted p] I Hq); [done|done|intros j c1 e0 X%elem_of_list_singleton; done|]. done.
  - injection H as <-. destruct I as [A B]. split; cbn.
    + intros j c1 e Hj. apply list_lookup_insert_Some in Hj as [(_ & E & _)|[_ Hj]]; [done|]. destruct (A _ _ _ Hj) as [?|?]; [by left|right; by apply refused_app].
    + intros j c1 e [Hj|Hj%elem_of_list_singleton]%elem_of_app.
      * destruct (B _ _ _ Hj) as [?|?]; [by left|right; by apply refused_app].
      * injection Hj as -> -> <-. destruct (A _ _ _ Hq) as [?|?]; [by left|right; by apply refused_app].
Qed.
Lemma einv_reach c s : reachable c s -> einv s.
Proof.
  induction 1 as [n|s l s' Hr IH L H].
  { split; [|intros i c0 e X; by apply not_elem_of_nil in X]. intros i c0 e Hi. cbn in Hi. by apply lookup_replicate in Hi as [? _]. }
  pose proof (tinv_reach _ _ Hr) as T. destruct (step_cases _ _ _ _ H) as [(i & q & a & _ & Hq & X)|[(a & _ & X)|[(cap & d & old & E & ->)|X]]].
  - by eapply einv_step_thread.
  - destruct (wait_keeps _ _ _ _ T X) as (d & Et & Ed & F & _). eapply einv_other; try done. intros i c0 e Y. rewrite Forall_forall in F. destruct (F _ Y) as [Y1 _]. done.
  - eapply einv_other; [done|done|cbn; done|]. intros i c0 e Y%elem_of_list_singleton. done.
  - destruct (env_log _ _ _ _ H X) as (_ & Et & _ & _ & _ & d & Ed & _). eapply einv_other; try done.
    intros i c0 e Y. destruct l; try done; cbn -[do_post] in H.
    + injection H as <-. cbn in Ed. rewrite <- (app_nil_r (log s)) in Ed at 1. apply app_inv_head in Ed as <-. by apply not_elem_of_nil in Y.
    + case_in H; [|done]. cbn in H. case_in H; [|done]. cbn in H. injection H as <-. apply app_inv_head in Ed as <-. by apply elem_of_list_singleton in Y.
    + case_in H; [|done]. cbn in H. injection H as <-. apply app_inv_head in Ed as <-. by apply elem_of_list_singleton in Y.
    + case_in H; [|done]. cbn -[do_post] in H. destruct c1 as [m|m].
      * case_in H; [|done]. cbn in H. injection H as <-. cbn in Ed. rewrite <- (app_nil_r (log s)) in Ed at 1. apply app_inv_head in Ed as <-. by apply not_elem_of_nil in Y.
      * injection H as <-. unfold do_post in Ed; destruct o; apply app_inv_head in Ed as <-; by apply elem_of_list_singleton in Y.
Qed.
