(** C118 on completion ports: a wait() that has seen its deadline pass does not go to sleep again. *)
From stdpp Require Import prelude list gmap.
From Verif Require Import Bits Types Pool EventModel IocpModel IocpSpec IocpProofs IocpProofs2 IocpProofs3 IocpProofs4 IocpProofs5 IocpProofs6
  IocpProofs7 IocpProofs8 IocpRuns IocpProps.
Local Open Scope nat_scope.

(** Each time a wait() reads the clock, the time it had read before, if any, was before its deadline. *)
Definition clocks_ok (h : list obs) : Prop :=
  forall h1 now h2, h = h1 ++ Clock now :: h2 -> exists w, current h1 = Some w /\ ~ late w.
Lemma clocks_ok_app h d : (forall evs, Clock evs ∉ d) -> clocks_ok h -> clocks_ok (h ++ d).
Proof.
  intros H W h1 evs h2 E. destruct (app_eq_inv _ _ _ _ E) as [(k & -> & Ek)|(k & -> & Ek)].
  - destruct k as [|x k]; cbn in Ek; [|simplify_eq; by eapply W].
    destruct (H evs). rewrite <- Ek. constructor.
  - destruct (H evs). rewrite Ek. set_solver.
Qed.
Lemma clocks_ok_snoc h now w : clocks_ok h -> current h = Some w -> ~ late w -> clocks_ok (h ++ [Clock now]).
Proof.
  intros J C1 C2 h1 e1 h2 E. destruct h2 as [|x h2 _] using rev_ind.
  - apply app_inj_tail in E as [-> E]. simplify_eq. eauto.
  - rewrite app_comm_cons, app_assoc in E. apply app_inj_tail in E as [-> _]. by eapply J.
Qed.
Definition sprog (q : wpc) (w : progress) : Prop :=
  match q with
  | WOut | WDead _ _ _ | WFail _ _ _ | WEnd _ => True
  | WSwap l | WDrain l | WDrainDo l _ => agrees l w /\ ~ late w
  | WBlock l z | WGot l z _ | WFeed l z _ | WOpen l z _ _ => agrees l w /\ (late w -> z = true)
  | WUpd l z _ ret p _ => agrees (put l p ret) w /\ (late w -> z = true)
  end.
Record sinv (s : state) : Prop := {
  s_ok : clocks_ok (log s);
  s_cur : waiter s = WOut \/ exists w, current (log s) = Some w /\ sprog (waiter s) w
}.
Lemma sinv_aside s s' d :
  sinv s -> waiter s' = waiter s -> log s' = log s ++ d -> Forall aside d -> sinv s'.
Proof.
  intros [W1 W2] EW EL D. split.
  - rewrite EL. apply clocks_ok_app; [|done]. intros evs Hin. rewrite Forall_forall in D. by apply D in Hin.
  - rewrite EW, EL, current_still by by apply aside_still. done.
Qed.
(** A step of the waiter that shows nothing of its progress. *)
Lemma sinv_move s s' d :
  sinv s -> waiter s <> WOut -> log s' = log s ++ d -> Forall still d -> (forall evs, Clock evs ∉ d) ->
  (forall w, sprog (waiter s) w -> sprog (waiter s') w) -> sinv s'.
Proof.
  intros [W1 W2] N EL D R X. split.
  - rewrite EL. by apply clocks_ok_app.
  - right. destruct W2 as [?|(w & C & P)]; [done|]. exists w. rewrite EL, current_still by done. auto.
Qed.
Lemma sinv_fed s s' p r :
  sinv s -> waiter s <> WOut -> log s' = log s ++ [Fed p r] ->
  (forall w w', sprog (waiter s) w -> progress_step (Some w) (Fed p r) = Some w' -> sprog (waiter s') w') -> sinv s'.
Proof.
  intros [W1 W2] N EL X. split.
  - rewrite EL. apply clocks_ok_app; [|done]. by intros evs ?%elem_of_list_singleton.
  - right. destruct W2 as [?|(w & C & P)]; [done|]. rewrite EL, current_snoc, C.
    assert (exists w', progress_step (Some w) (Fed p r) = Some w') as [w' Hw'].
    { destruct p, r; cbn; eauto. }
    exists w'. split; [done|]. eauto.
Qed.
Lemma sinv_step c s l s' : tinv s -> sinv s -> step c s l = Some s' -> sinv s'.
Proof.
  intros T W H. assert (DL : (match l with LThread _ _ | LWait _ _ _ | LWaiter _ => False | _ => True end) \/ match l with LThread _ _ | LWait _ _ _ | LWaiter _ => True | _ => False end)
    by (destruct l; auto). destruct DL as [L|L].
  { destruct (env_log _ _ _ _ H L) as (EW & _ & _ & _ & _ & d & D1 & D2 & _). by eapply sinv_aside. }
  assert (NL : Forall still []) by constructor. assert (NR : forall evs, Clock evs ∉ []) by (intros; apply not_elem_of_nil).
  destruct l; try done; cbn in H; clear L.
  - destruct (threads s !! i) eqn:E; [|done]. cbn in H. destruct (thread_log _ _ _ _ _ _ T E H) as (EW & d & D1 & D2 & _). by eapply sinv_aside.
  - destruct (waiter s) eqn:E; simplify_eq. split.
    + apply clocks_ok_app; [by intros evs ?%elem_of_list_singleton|]. apply W.
    + right. eexists. cbn [log emit emits waiter set_waiter]. rewrite current_snoc. split; [done|]. split; [done|]. by intros (? & ? & _ & ? & _).
  - pose proof (t_wait _ T) as TW. unfold wait_step in H.
    destruct (waiter s) as [|l|l|l q|l z|l z b|l z b|l z p b|l z b ret p u|l e g|l|d own b] eqn:E, a;
      try done; try (by destruct b); cbn in TW.
    + simplify_eq. apply (sinv_move s _ [] W); try done; rewrite ?E, ?app_nil_r; done.
    + destruct (pending s) as [|q r] eqn:Ep; simplify_eq.
      * destruct (s_cur _ W) as [?|(w & C & P)]; [congruence|]. rewrite E in P. destruct P as [P N].
        split; [eapply clocks_ok_snoc; [apply W|exact C|exact N]|]. right. cbn [log emit emits waiter set_waiter].
        rewrite current_snoc, C. eexists. split; [done|]. cbn. split; [exact P|]. destruct P as (P1 & P2 & P3). unfold elapsed.
        intros (d & n & D1 & D2 & D3). cbn in D1, D2. simplify_eq. rewrite P1 in D1. rewrite D1. by apply N.leb_le.
      * apply (sinv_move s _ [] W); try done; rewrite ?E, ?app_nil_r; done.
    + assert (X : log (do_update s q o).2 = log s ++ (if ef_fault (update (pmem s) (sys s) q o) then [Fault q] else [])) by done.
      assert (Y : Forall still (if ef_fault (update (pmem s) (sys s) q o) then [Fault q] else [])) by (destruct (ef_fault _); by repeat constructor).
      assert (Z : forall evs, Clock evs ∉ (if ef_fault (update (pmem s) (sys s) q o) then [Fault q] else [])).
      { intros evs. destruct (ef_fault _); [by intros ?%elem_of_list_singleton|apply not_elem_of_nil]. }
      destruct (do_update s q o) as [r s1]. cbn [snd] in X. simplify_eq. eapply (sinv_move s _ _ W); try done; rewrite E; [done|]. by destruct r.
    + simplify_eq. apply (sinv_move s _ [] W); try done; rewrite ?E, ?app_nil_r; done.
    + simplify_eq. apply (sinv_move s _ [] W); try done; rewrite ?E, ?app_nil_r; done.
    + case_decide; simplify_eq. apply (sinv_move s _ [] W); try done; rewrite ?E, ?app_nil_r; done.
    + simplify_eq. apply (sinv_move s _ [] W); try done; rewrite ?E, ?app_nil_r; done.
    + destruct b as [|p b].
      * destruct (lc_notified l || negb (bool_decide (lc_events l = [])) || z) eqn:Ez; simplify_eq;
          (apply (sinv_move s _ [] W); try done; rewrite ?E, ?app_nil_r; try done); intros w [A B]; cbn; try done.
        split; [done|]. intros Lt. apply B in Lt as ->. by rewrite orb_true_r in Ez.
      * simplify_eq. apply (sinv_move s _ [] W); try done; rewrite ?E, ?app_nil_r; done.
    + (* feeding *)
      destruct p as [j|j|j|]; unfold feed_step in H.
      * destruct (socks (pmem s) !! j) as [k|] eqn:Ek; [|done]. cbn [mbind option_bind] in H.
        assert (FN : forall s' q', waiter s' = q' -> log s' = log s ++ [Fed (PSock j) None] ->
                   (forall w, sprog (WOpen l z (PSock j) b) w -> sprog q' w) -> sinv s').
        { intros s2 q' E1 E2 E3. eapply (sinv_fed s); [done|by rewrite E|done|]. rewrite E, E1. intros w w' P [= <-]. by apply E3. }
        destruct (feed_sock k) as [k'|k'|k' r] eqn:F.
        -- destruct (sources s !! sk_socket k) as [n'|] eqn:Es; [|simplify_eq; by eapply FN].
           case_decide; [simplify_eq; by eapply FN|].
           set (s1 := emit (set_mem s (set_sock (pmem s) j k')) (Fed (PSock j) None)) in *.
           assert (T1 : source (pmem s1) (PSock n')).
           { destruct (t_src _ T _ _ Es) as (k2 & Hk2 & _). cbn. rewrite lookup_insert_ne by done. by exists k2. }
           set (s2 := set_maps s1 _ _) in *. destruct (delete_log s2 (PSock n') o T1) as (_ & NP & d & D1 & D2 & D3 & D4).
           assert (WF : sinv (set_waiter s1 (WFeed l z b))) by by eapply FN.
           assert (Q : forall s5 d', log s5 = log s1 ++ d' -> Forall still d' -> (forall evs, Clock evs ∉ d') ->
              (forall w, sprog (WFeed l z b) w -> sprog (waiter s5) w) -> sinv s5).
           { intros s5 d' Q1 Q2 Q3 Q4. by apply (sinv_move (set_waiter s1 (WFeed l z b)) _ d'). }
           assert (ST : Forall still (d ++ [Removed (PSock n')])).
           { apply Forall_app. split; [by apply aside_still, mishap_aside|by repeat constructor]. }
           assert (NW : forall evs, Clock evs ∉ d ++ [Removed (PSock n')]).
           { intros evs [Hy|Hy%elem_of_list_singleton]%elem_of_app; [|done]. rewrite Forall_forall in D2. by apply D2 in Hy. }
           destruct (do_delete s2 (PSock n') o) as [r s3]. cbn [fst snd] in *. destruct r as [[]|e|]; [| |done]; simplify_eq.
           ++ by eapply Q.
           ++ apply (Q _ ((d ++ [Removed (PSock n')]) ++ map Lost b)); try done.
              ** transitivity (log s3 ++ map Lost b); [done|]. rewrite D1. symmetry. apply (app_assoc (log s1)).
              ** apply Forall_app. split; [done|apply lost_still].
              ** intros evs [Hy|Hy]%elem_of_app; [by apply NW in Hy|]. by apply elem_of_list_fmap in Hy as (? & ? & _).
        -- simplify_eq. by eapply FN.
        -- simplify_eq. eapply (sinv_fed s); [done|by rewrite E|done|]. rewrite E. intros w w' [(P1 & P2 & P3) Z] X. cbn.
           destruct r; cbn in X; simplify_eq; cbn; (split; [split_and!; cbn; try done; by rewrite P3|]); done.
      * destruct (wtbs (pmem s) !! j) as [k|] eqn:Ek; [|done]. cbn in H. simplify_eq. eapply (sinv_fed s); [done|by rewrite E|done|].
        rewrite E. intros w w' [(P1 & P2 & P3) Z] X. cbn in X |- *. simplify_eq. cbn; (split; [split_and!; cbn; try done; by rewrite P3|]); done.
      * destruct (customs (pmem s) !! j) as [e|] eqn:Ek; [|done]. cbn in H. simplify_eq. eapply (sinv_fed s); [done|by rewrite E|done|].
        rewrite E. intros w w' [(P1 & P2 & P3) Z] X. cbn in X |- *. simplify_eq. cbn; (split; [split_and!; cbn; try done; by rewrite P3|]); done.
      * simplify_eq. eapply (sinv_fed s); [done|by rewrite E|done|].
        rewrite E. intros w w' [(P1 & P2 & P3) Z] X. cbn in X |- *. simplify_eq. cbn; done.
    + destruct TW as (TW1 & TW2 & TW3). destruct (ustep _ _ _ _ _) as [s1 x] eqn:Eu.
      destruct (ustep_log _ _ _ _ _ _ _ TW1 TW2 Eu) as (Q & d & D1 & D2 & D3 & D4).
      assert (NW : forall evs, Clock evs ∉ d).
      { intros evs Hy. rewrite Forall_forall in D2. by apply D2 in Hy. }
      assert (ST : Forall still d) by by apply aside_still, mishap_aside.
      destruct x as [u'|[[]|e|]]; [| | |done]; simplify_eq.
      * eapply (sinv_move s _ d W); rewrite ?E; done.
      * eapply (sinv_move s _ d W); rewrite ?E; done.
      * eapply (sinv_move s _ (d ++ map Lost b) W); rewrite ?E; try done.
        -- cbn. by rewrite D1, app_assoc.
        -- apply Forall_app. split; [done|apply lost_still].
        -- intros evs [Hy|Hy]%elem_of_app; [by apply NW in Hy|]. by apply elem_of_list_fmap in Hy as (? & ? & _).
    + simplify_eq. split; [|by left]. apply clocks_ok_app; [by intros evs ?%elem_of_list_singleton|apply W].
    + simplify_eq. split; [|by left]. apply clocks_ok_app; [by intros evs ?%elem_of_list_singleton|apply W].
Qed.
Lemma sinv_reach c s : reachable c s -> sinv s.
Proof.
  induction 1 as [n|s l s' Hr IH L H]; [|eapply sinv_step; eauto using tinv_reach]. split; [|by left].
  intros h1 evs h2. by destruct h1.
Qed.

(** wait() reads the clock each time before it goes to sleep.  It does so only if the time it had read before, in the same wait(),
    was before its deadline: once the deadline has passed it goes to sleep no more, so one whose timeout is zero does it once. *)
Theorem C118_iocp_deadline_seen_once c s h1 now h2 :
  reachable c s -> log s = h1 ++ Clock now :: h2 ->
  exists w, current h1 = Some w /\ forall d before, pr_deadline w = Some d -> pr_clock w = Some before -> (before < d)%N.
Proof.
  intros R E. destruct (s_ok _ (sinv_reach _ _ R) _ _ _ E) as (w & C & N). exists w. split; [done|].
  intros d b H1 H2. destruct (decide (d <= b)%N) as [L|L]; [|lia]. destruct N. by exists d, b.
Qed.

(** A wait() with deadline 100 reads the clock at 10, takes a completion without an event, and reads the clock again at 150. *)
Definition twice : list label :=
  add 0 5 (rd 7) Level ++ block (Some 100%N) 10 1 ++ [LDone 0 BDone 1 AFD_SEND; got; w] ++ feed ++ [w; w; at_ 20; w; at_ 150].
Example C118_iocp_case : exists c s h1 w, valid c /\ reachable c s /\ log s = h1 ++ [Clock 150%N] /\ current h1 = Some w
  /\ pr_deadline w = Some 100%N /\ pr_clock w = Some 10%N.
Proof.
  sees log cfg 2 twice s H R X. clear H. eexists cfg, s, (take (length (log s) - 1) (log s)), _. split; [unfold valid; cbn; lia|]. split; [done|].
  rewrite X. cbn [length take Nat.sub]. split; [reflexivity|]. split; [reflexivity|]. split; reflexivity.
Qed.
Print Assumptions C118_iocp_deadline_seen_once.
