(** Which updates can be waiting in the queue while a wait() is blocked: those of the calls that overlapped its start. *)
From stdpp Require Import prelude list gmap.
From Verif Require Import Bits Types EventModel Pool IocpModel IocpSpec IocpProofs IocpProofs2 IocpProofs3 IocpProofs4 IocpProofs5 IocpProofs6 IocpProofs7 IocpProofs8 IocpProofs9 IocpProofs10 IocpProofs11 IocpProofs12.
Local Open Scope nat_scope.

Lemma thread_grows c s i q a s' : tinv s -> thread_step c s i q a = Some s' -> grows (pmem s) (pmem s').
Proof.
  intros T H. destruct q, a; try done; unfold thread_step in H.
  - injection H as <-. apply grows_refl.
  - destruct o; [injection H as <-; apply grows_refl|]. destruct (new_packet _ _) as [[[m p] ob]|] eqn:E; [|done]. cbn [mbind option_bind] in H. injection H as <-.
    destruct (grow_fresh _ _ _ _ _ (t_dom _ T) E) as (G & _). exact G.
  - destruct (insert_packet _ _ _) as [s1|] eqn:E; injection H as <-; [|apply grows_drop, grows_refl].
    destruct c0, p; cbn in E; try done; (case_in E; [done|]); injection E as <-; apply (grows_clone _ _ _ (grows_refl _)).
  - destruct (lookup_packet _ _) as [p|] eqn:E; injection H as <-; [apply (grows_clone _ _ _ (grows_refl _))|apply grows_refl].
  - destruct (do_set _ _ _) as [[s1 b]|] eqn:E; [|done]. cbn [mbind option_bind] in H. injection H as <-.
    assert (X : grows (pmem s) (pmem s1)).
    { destruct c0, p; cbn in E; try done.
      - destruct (socks (pmem s) !! n) as [k|] eqn:Ek; [|done]. cbn in E. injection E as <- _. by eapply grows_sock.
      - destruct (wtbs (pmem s) !! n) as [k|] eqn:Ek; [|done]. cbn in E. injection E as <- _. by eapply grows_wtb. }
    destruct b; [done|]. by apply grows_drop.
  - destruct (ustep _ _ _ _ _) as [s1 x] eqn:E. injection H as <-. by apply ustep_frame in E as (_ & _ & _ & _ & _ & _ & G).
  - destruct (lookup_packet _ _) as [p|] eqn:E; injection H as <-; [|apply grows_refl]. destruct c0; apply grows_refl.
  - injection H as <-. apply grows_drop, grows_delete.
  - destruct (notified s); injection H as <-; apply grows_refl.
  - unfold do_post in H. destruct o; injection H as <-; apply (grows_clone _ _ _ (grows_refl _)).
  - injection H as <-. apply grows_refl.
Qed.
Lemma env_grows c s l s' : tinv s ->
  step c s l = Some s' -> (match l with LThread _ _ | LWait _ _ _ | LWaiter _ => False | _ => True end) -> grows (pmem s) (pmem s').
Proof.
  intros T H X. destruct l; try done; cbn -[do_post] in H.
  - injection H as <-. split; [cbn; lia|]. split; [eauto|]. split; [eauto|]. cbn. intros n e0 Hn. rewrite lookup_insert_ne; [done|].
    intros <-. destruct (t_dom _ T) as (_ & _ & DC). assert (next (pmem s) < next (pmem s)) by (apply DC; by eexists). lia.
  - destruct (ops (sys s) !! i) as [x|] eqn:Ei; [|done]. cbn in H. destruct (socks (pmem s) !! op_pk x) as [k|] eqn:Ek; [|done]. cbn in H. injection H as <-.
    by eapply grows_sock.
  - case_in H; [|done]. cbn in H. injection H as <-. apply grows_refl.
  - case_in H; [|done]. cbn -[do_post] in H. destruct c0 as [m|m].
    + destruct (wtbs (pmem s) !! m) as [k|] eqn:Ek; [|done]. cbn in H. injection H as <-. by eapply grows_wtb.
    + injection H as <-. unfold do_post. destruct o; apply grows_refl.
Qed.
(** What may go on while a wait() is blocked. *)
Definition late (h : list obs) (i : nat) (q : pc) : Prop :=
  match q with Upd cl _ u => u = ULoad \/ u = UDo \/ calls_at_clock h !! i = Some cl | _ => True end.
Definition finv (s : state) : Prop := forall l z, waiter s = WBlock l z ->
  (forall p, p ∈ pending s -> exists i cl, calls_at_clock (log s) !! i = Some cl /\ (is_add cl \/ is_modify cl) /\ names (pmem s) cl p)
  /\ (forall i q, threads s !! i = Some q -> late (log s) i q).
Lemma thread_late c s i q a s' : tinv s -> polling s = true ->
  threads s !! i = Some q -> thread_step c s i q a = Some s' -> late (log s) i q ->
  exists q', threads s' = <[i:=q']> (threads s) /\ late (log s) i q'
  /\ forall p, p ∈ pending s' -> p ∈ pending s \/ exists cl, calls_at_clock (log s) !! i = Some cl /\ (is_add cl \/ is_modify cl) /\ names (pmem s) cl p.
Proof.
  intros T Po Hq H L. pose proof (t_pc _ T _ _ Hq) as P.
  assert (D : direct q -> exists q', threads s' = <[i:=q']> (threads s) /\ late (log s) i q'
    /\ forall p, p ∈ pending s' -> p ∈ pending s \/ exists cl, calls_at_clock (log s) !! i = Some cl /\ (is_add cl \/ is_modify cl) /\ names (pmem s) cl p).
  { intros D. destruct (thread_direct _ _ _ _ _ _ Hq H) as (_ & X). destruct (X D Po) as (Y & q' & Et & Z). exists q'. split; [done|]. split.
    - destruct q'; try done. destruct Z; [by left|by right; left].
    - rewrite Y. auto. }
  destruct q; try (by apply D). cbn in P. destruct P as (P1 & P2 & P3).
  destruct a; [done|]. unfold thread_step in H. destruct (ustep _ _ _ _ _) as [s1 x] eqn:E. injection H as <-.
  destruct (ustep_frame _ _ _ _ _ _ _ E) as (X1 & _). cbn in L.
  destruct L as [->|[->|L]]; [apply D; by left|apply D; by right|].
  eexists. split; [cbn; by rewrite X1|]. split.
  - destruct x; [|done]. right. by right.
  - cbn. intros p0 Hp. unfold ustep in E. destruct u.
    + injection E as <- <-. by left.
    + assert (Y : pending (do_update s p o).2 = pending s) by done. destruct (do_update s p o) as [r s2]. injection E as <- <-. cbn in Y. rewrite Y in Hp. by left.
    + case_decide; injection E as <- <-; [|by left]. cbn in Hp. apply elem_of_app in Hp as [Hp|Hp]; [by left|]. apply elem_of_list_singleton in Hp as ->. right. by exists c0.
    + destruct n; [injection E as <- <-; by left|]. destruct (pending s) as [|q r] eqn:Ep; injection E as <- <-; [rewrite Ep in Hp; by left|]. cbn in Hp. left. by right.
    + assert (Y : pending (do_update s q o).2 = pending s) by done. destruct (do_update s q o) as [r s2]. cbn in Y. destruct r; injection E as <- <-; cbn in Hp; rewrite Y in Hp; by left.
Qed.
Lemma finv_reach c s : reachable c s -> finv s.
Proof.
  induction 1 as [n|s l s' Hr IH L H]; [done|]. pose proof (tinv_reach _ _ Hr) as T. destruct (binv_reach _ _ Hr) as [Po _].
  destruct (step_cases _ _ _ _ H) as [(i & q & a & _ & Hq & X)|[(a & _ & X)|[(cap & d & old & E & ->)|X]]].
  - destruct (thread_log _ _ _ _ _ _ T Hq X) as (W & d & Ed & As & _). intros l0 z E. rewrite W in E. destruct (IH _ _ E) as [I1 I2].
    assert (Pt : polling s = true) by (apply Po; by rewrite E).
    destruct (thread_late _ _ _ _ _ _ T Pt Hq X (I2 _ _ Hq)) as (q' & Et & Lq & Pe). pose proof (thread_grows _ _ _ _ _ _ T X) as G.
    rewrite Ed. unfold late. rewrite clock_quiet by (eapply Forall_impl; [exact As|]; by intros []). split.
    + intros p Hp. destruct (Pe _ Hp) as [Hp'|(cl & C & K & N)].
      * destruct (I1 _ Hp') as (j & cl & C & K & N). exists j, cl. split; [done|]. split; [done|]. by eapply grow_names.
      * exists i, cl. split; [done|]. split; [done|]. by eapply grow_names.
    + intros j q0 Hj. rewrite Et in Hj. apply list_lookup_insert_Some in Hj as [(-> & <- & _)|[_ Hj]]; [done|by apply (I2 j)].
  - intros l0 z E. destruct (wait_binv _ _ _ _ X Po) as [_ B]. destruct (B _ _ E) as (-> & Et & now & ->). split; [by intros p ?%not_elem_of_nil|].
    intros i q Hi. rewrite Et in Hi. destruct q; try done. right. right. rewrite clock_snoc. by rewrite (cinv_reach _ _ Hr i), Hi.
  - done.
  - destruct (env_log _ _ _ _ H X) as (W & Et & _ & Ep & Epo & d' & Ed' & As & _). pose proof (env_grows _ _ _ _ T H X) as G.
    intros l0 z E. rewrite W in E. destruct (IH _ _ E) as [I1 I2]. unfold late. rewrite Et, Ep, Ed', clock_quiet by (eapply Forall_impl; [exact As|]; by intros []). split; [|done].
    intros p Hp. destruct (I1 _ Hp) as (j & cl & C & K & N). exists j, cl. split; [done|]. split; [done|]. by eapply grow_names.
Qed.
Lemma blocked_other c s x n l z : reachable c s -> sources s !! x = Some n -> spared (PSock n) (log s) -> waiter s = WBlock l z ->
  (forall i e m, calls_at_clock (log s) !! i <> Some (CAdd x e m) /\ calls_at_clock (log s) !! i <> Some (CModify x e m)) ->
  arranged s n \/ exists i q, threads s !! i = Some q /\ PSock n ∈ pc_updates q.
Proof.
  intros R H Sp W C. destruct (finv_reach _ _ R _ _ W) as [P D].
  destruct (registered_arranged _ _ _ _ R H Sp) as [?|[Hp|[U|U]]]; [by left| | |by right].
  - exfalso. destruct (P _ Hp) as (i & cl & E & K & N). destruct (t_src _ (tinv_reach _ _ R) _ _ H) as (k & Hk & Hs).
    destruct cl; cbn in N; try done; destruct N as (k' & Hk' & Hs'); rewrite Hk in Hk'; injection Hk' as <-; rewrite Hs in Hs'; subst.
    + destruct (C i e m) as (A & _). done.
    + destruct (C i e m) as (_ & A). done.
    + by destruct K.
  - rewrite W in U. by apply not_elem_of_nil in U.
Qed.
(** A packet in the queue belongs to a call that overlapped the start of the wait. *)
Lemma queued_waitable c s x n l z : reachable c s -> waitables s !! x = Some n -> waiter s = WBlock l z ->
  (forall i e m, calls_at_clock (log s) !! i <> Some (CAddW x e m) /\ calls_at_clock (log s) !! i <> Some (CModifyW x e m)) -> PWait n ∉ pending s.
Proof.
  intros R H W C Hp. destruct (finv_reach _ _ R _ _ W) as [P _].
  destruct (P _ Hp) as (i & cl & E & K & N). destruct (t_wts _ (tinv_reach _ _ R) _ _ H) as (k & Hk & Hs).
  destruct cl; cbn in N; try done; destruct N as (k' & Hk' & Hs'); rewrite Hk in Hk'; injection Hk' as <-; rewrite Hs in Hs'; subst.
  - destruct (C i e m) as (A & _). done.
  - destruct (C i e m) as (_ & A). done.
  - by destruct K.
Qed.
