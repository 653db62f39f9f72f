(** C117: what wait() takes from the system reaches its caller (completion ports). *)
From stdpp Require Import prelude list gmap.
From Verif Require Import Bits Types Pool EventModel IocpModel IocpSpec IocpProofs IocpProofs2 IocpProofs3 IocpProofs4 IocpProofs5 IocpProofs6
  IocpProofs7 IocpProofs8 IocpRuns IocpProps.
Local Open Scope nat_scope.

(** The events returned are those that were processed since the wait() began; if it fails, and the update of some source
    was refused in the history [h], the last one may be missing. *)
Definition handed_over (h : list obs) (r : res unit) (evs : list (pid * event N)) (w : progress) : Prop :=
  evs = pr_events w \/ exists e x q, r = Err e /\ pr_events w = evs ++ [x] /\ Fault q ∈ h.

Definition rets_ok (h : list obs) : Prop :=
  forall h1 r evs h2, h = h1 ++ WaitRet r evs :: h2 -> exists w, current h1 = Some w /\ handed_over h1 r evs w.
Lemma rets_ok_app h d : (forall r evs, WaitRet r evs ∉ d) -> rets_ok h -> rets_ok (h ++ d).
Proof.
  intros H W h1 r evs h2 E. destruct (app_eq_inv _ _ _ _ E) as [(k & -> & Ek)|(k & -> & Ek)].
  - destruct k as [|x k]; cbn in Ek; [|simplify_eq; by eapply W].
    destruct (H r evs). rewrite <- Ek. constructor.
  - destruct (H r evs). rewrite Ek. set_solver.
Qed.
Lemma rets_ok_snoc h r evs w :
  rets_ok h -> current h = Some w -> handed_over h r evs w -> rets_ok (h ++ [WaitRet r evs]).
Proof.
  intros J C1 C2 h1 r1 e1 h2 E. destruct h2 as [|x h2 _] using rev_ind.
  - apply app_inj_tail in E as [-> E]. simplify_eq. eauto.
  - rewrite app_comm_cons, app_assoc in E. apply app_inj_tail in E as [-> _]. by eapply J.
Qed.
Definition eprog (h : list obs) (q : wpc) (w : progress) : Prop :=
  match q with
  | WOut | WDead _ _ _ => True
  | WFail l e _ => handed_over h (Err e) (lc_events l) w
  | WSwap l | WDrain l | WDrainDo l _ => agrees l w
  | WBlock l z | WGot l z _ | WFeed l z _ | WOpen l z _ _ => agrees l w /\ (z = true -> late w)
  | WUpd l z _ ret p _ => agrees (put l p ret) w /\ (z = true -> late w)
  | WEnd l => agrees l w
  end.
Lemma eprog_more h d q w : eprog h q w -> eprog (h ++ d) q w.
Proof.
  destruct q; try done. intros [H|(e1 & x & q & E & H & F)]; [by left|]. right. exists e1, x, q. split_and!; [done..|].
  apply elem_of_app. by left.
Qed.
Record einv (s : state) : Prop := {
  e_ok : rets_ok (log s);
  e_cur : waiter s = WOut \/ exists w, current (log s) = Some w /\ eprog (log s) (waiter s) w
}.
Lemma einv_aside s s' d :
  einv s -> waiter s' = waiter s -> log s' = log s ++ d -> Forall aside d -> einv s'.
Proof.
  intros [W1 W2] EW EL D. split.
  - rewrite EL. apply rets_ok_app; [|done]. intros r evs Hin. rewrite Forall_forall in D. by apply D in Hin.
  - rewrite EW, EL, current_still by by apply aside_still. destruct W2 as [?|(w & C & P)]; [by left|right].
    exists w. split; [done|]. by apply eprog_more.
Qed.
(** A step of the waiter that shows nothing of its progress. *)
Lemma einv_move s s' d :
  einv s -> waiter s <> WOut -> log s' = log s ++ d -> Forall still d -> (forall r evs, WaitRet r evs ∉ d) ->
  (forall w, eprog (log s) (waiter s) w -> eprog (log s') (waiter s') w) -> einv s'.
Proof.
  intros [W1 W2] N EL D R X. split.
  - rewrite EL. by apply rets_ok_app.
  - right. destruct W2 as [?|(w & C & P)]; [done|]. exists w. rewrite EL in X |- *. rewrite current_still by done. auto.
Qed.
Lemma einv_fed s s' p r :
  einv s -> waiter s <> WOut -> log s' = log s ++ [Fed p r] ->
  (forall w w', eprog (log s) (waiter s) w -> progress_step (Some w) (Fed p r) = Some w' -> eprog (log s') (waiter s') w') -> einv s'.
Proof.
  intros [W1 W2] N EL X. split.
  - rewrite EL. apply rets_ok_app; [|done]. by intros ? evs ?%elem_of_list_singleton.
  - right. destruct W2 as [?|(w & C & P)]; [done|]. rewrite EL in X |- *. rewrite current_snoc, C.
    assert (exists w', progress_step (Some w) (Fed p r) = Some w') as [w' Hw'].
    { destruct p, r; cbn; eauto. }
    exists w'. split; [done|]. eauto.
Qed.
Lemma late_same w w' : pr_deadline w' = pr_deadline w -> pr_clock w' = pr_clock w -> late w -> late w'.
Proof. intros E1 E2 (d & now & ?). exists d, now. by rewrite E1, E2. Qed.

Lemma einv_step c s l s' : tinv s -> einv s -> step c s l = Some s' -> einv s'.
Proof.
  intros T W H. assert (DL : (match l with LThread _ _ | LWait _ _ _ | LWaiter _ => False | _ => True end) \/ match l with LThread _ _ | LWait _ _ _ | LWaiter _ => True | _ => False end)
    by (destruct l; auto). destruct DL as [L|L].
  { destruct (env_log _ _ _ _ H L) as (EW & _ & _ & _ & _ & d & D1 & D2 & _). by eapply einv_aside. }
  assert (NL : Forall still []) by constructor. assert (NR : forall r evs, WaitRet r evs ∉ []) by (intros; apply not_elem_of_nil).
  destruct l; try done; cbn in H; clear L.
  - destruct (threads s !! i) eqn:E; [|done]. cbn in H. destruct (thread_log _ _ _ _ _ _ T E H) as (EW & d & D1 & D2 & _). by eapply einv_aside.
  - destruct (waiter s) eqn:E; simplify_eq. split.
    + apply rets_ok_app; [by intros ? evs ?%elem_of_list_singleton|]. apply W.
    + right. eexists. cbn [log emit emits waiter set_waiter]. rewrite current_snoc. split; [done|]. done.
  - pose proof (t_wait _ T) as TW. unfold wait_step in H.
    destruct (waiter s) as [|l|l|l q|l z|l z b|l z b|l z p b|l z b ret p u|l e g|l|d own b] eqn:E, a;
      try done; try (by destruct b); cbn in TW.
    + simplify_eq. apply (einv_move s _ [] W); try done; rewrite ?E, ?app_nil_r; done.
    + destruct (pending s) as [|q r] eqn:Ep; simplify_eq.
      * split; [apply rets_ok_app; [by intros ? evs ?%elem_of_list_singleton|apply W]|]. right.
        destruct (e_cur _ W) as [?|(w & C & P)]; [congruence|]. rewrite E in P. cbn in P. cbn [log emit emits waiter set_waiter].
        rewrite current_snoc, C. eexists. split; [done|]. cbn. split; [exact P|]. destruct P as (P1 & P2 & P3). unfold elapsed.
        destruct (lc_deadline l) as [t|] eqn:Ed; [|done]. intros Ht%N.leb_le. exists t, now. cbn. by rewrite P1.
      * apply (einv_move s _ [] W); try done; rewrite ?E, ?app_nil_r; done.
    + assert (X : log (do_update s q o).2 = log s ++ (if ef_fault (update (pmem s) (sys s) q o) then [Fault q] else [])) by done.
      assert (Y : Forall still (if ef_fault (update (pmem s) (sys s) q o) then [Fault q] else [])) by (destruct (ef_fault _); by repeat constructor).
      assert (Z : forall r evs, WaitRet r evs ∉ (if ef_fault (update (pmem s) (sys s) q o) then [Fault q] else [])).
      { intros ? evs. destruct (ef_fault _); [by intros ?%elem_of_list_singleton|apply not_elem_of_nil]. }
      destruct (do_update s q o) as [r s1]. cbn [snd] in X. simplify_eq. eapply (einv_move s _ _ W); try done; rewrite E; [done|]. intros w P. destruct r; try done. by left; destruct P as (_ & _ & ->).
    + simplify_eq. apply (einv_move s _ [] W); try done; rewrite ?E, ?app_nil_r; try done; (intros w [(_ & _ & P) _]; by left).
    + simplify_eq. apply (einv_move s _ [] W); try done; rewrite ?E, ?app_nil_r; try done; (intros w [(_ & _ & P) _]; by left).
    + case_decide; simplify_eq. apply (einv_move s _ [] W); try done; rewrite ?E, ?app_nil_r; done.
    + simplify_eq. apply (einv_move s _ [] W); try done; rewrite ?E, ?app_nil_r; try done; (intros w [(_ & _ & P) _]; by left).
    + destruct b as [|p b].
      * destruct (lc_notified l || negb (bool_decide (lc_events l = [])) || z) eqn:Ez; simplify_eq;
          (apply (einv_move s _ [] W); try done; rewrite ?E, ?app_nil_r; try done); intros w [A B]; cbn; done.
      * simplify_eq. apply (einv_move s _ [] W); try done; rewrite ?E, ?app_nil_r; done.
    + (* feeding *)
      destruct p as [j|j|j|]; unfold feed_step in H.
      * destruct (socks (pmem s) !! j) as [k|] eqn:Ek; [|done]. cbn [mbind option_bind] in H.
        assert (FN : forall s' q', waiter s' = q' -> log s' = log s ++ [Fed (PSock j) None] ->
                   (forall w, eprog (log s) (WOpen l z (PSock j) b) w -> eprog (log s') q' w) -> einv s').
        { intros s2 q' E1 E2 E3. eapply (einv_fed s); [done|by rewrite E|done|]. rewrite E, E1. intros w w' P [= <-]. by apply E3. }
        destruct (feed_sock k) as [k'|k'|k' r] eqn:F.
        -- destruct (sources s !! sk_socket k) as [n'|] eqn:Es; [|simplify_eq; by eapply FN].
           case_decide; [simplify_eq; by eapply FN|].
           set (s1 := emit (set_mem s (set_sock (pmem s) j k')) (Fed (PSock j) None)) in *.
           assert (T1 : source (pmem s1) (PSock n')).
           { destruct (t_src _ T _ _ Es) as (k2 & Hk2 & _). cbn. rewrite lookup_insert_ne by done. by exists k2. }
           set (s2 := set_maps s1 _ _) in *. destruct (delete_log s2 (PSock n') o T1) as (_ & NP & d & D1 & D2 & D3 & D4).
           assert (WF : einv (set_waiter s1 (WFeed l z b))) by by eapply FN.
           assert (Q : forall s5 d', log s5 = log s1 ++ d' -> Forall still d' -> (forall r evs, WaitRet r evs ∉ d') ->
              (forall w, eprog (log s1) (WFeed l z b) w -> eprog (log s5) (waiter s5) w) -> einv s5).
           { intros s5 d' Q1 Q2 Q3 Q4. by apply (einv_move (set_waiter s1 (WFeed l z b)) _ d'). }
           assert (ST : Forall still (d ++ [Removed (PSock n')])).
           { apply Forall_app. split; [by apply aside_still, mishap_aside|by repeat constructor]. }
           assert (NW : forall r evs, WaitRet r evs ∉ d ++ [Removed (PSock n')]).
           { intros ? evs [Hy|Hy%elem_of_list_singleton]%elem_of_app; [|done]. rewrite Forall_forall in D2. by apply D2 in Hy. }
           destruct (do_delete s2 (PSock n') o) as [r s3]. cbn [fst snd] in *. destruct r as [[]|e|]; [| |done]; simplify_eq.
           ++ by eapply Q.
           ++ apply (Q _ ((d ++ [Removed (PSock n')]) ++ map Lost b)); try done; [| | |intros w [(_ & _ & P) _]; by left].
              ** transitivity (log s3 ++ map Lost b); [done|]. rewrite D1. symmetry. apply (app_assoc (log s1)).
              ** apply Forall_app. split; [done|apply lost_still].
              ** intros ? evs [Hy|Hy]%elem_of_app; [by apply NW in Hy|]. by apply elem_of_list_fmap in Hy as (? & ? & _).
        -- simplify_eq. by eapply FN.
        -- simplify_eq. eapply (einv_fed s); [done|by rewrite E|done|]. rewrite E. intros w w' [(P1 & P2 & P3) Z] X. cbn.
           destruct r; cbn in X; simplify_eq; cbn; (split; [split_and!; cbn; try done; by rewrite P3|]); done.
      * destruct (wtbs (pmem s) !! j) as [k|] eqn:Ek; [|done]. cbn in H. simplify_eq. eapply (einv_fed s); [done|by rewrite E|done|].
        rewrite E. intros w w' [(P1 & P2 & P3) Z] X. cbn in X |- *. simplify_eq. cbn; (split; [split_and!; cbn; try done; by rewrite P3|]); done.
      * destruct (customs (pmem s) !! j) as [e|] eqn:Ek; [|done]. cbn in H. simplify_eq. eapply (einv_fed s); [done|by rewrite E|done|].
        rewrite E. intros w w' [(P1 & P2 & P3) Z] X. cbn in X |- *. simplify_eq. cbn; (split; [split_and!; cbn; try done; by rewrite P3|]); done.
      * simplify_eq. eapply (einv_fed s); [done|by rewrite E|done|].
        rewrite E. intros w w' [(P1 & P2 & P3) Z] X. cbn in X |- *. simplify_eq. cbn; done.
    + destruct TW as (TW1 & TW2 & TW3). destruct (ustep _ _ _ _ _) as [s1 x] eqn:Eu.
      destruct (ustep_log _ _ _ _ _ _ _ TW1 TW2 Eu) as (Q & d & D1 & D2 & D3 & D4).
      assert (NW : forall r evs, WaitRet r evs ∉ d).
      { intros ? evs Hy. rewrite Forall_forall in D2. by apply D2 in Hy. }
      assert (ST : Forall still d) by by apply aside_still, mishap_aside.
      destruct x as [u'|[[]|e|]]; [| | |done]; simplify_eq.
      * eapply (einv_move s _ d W); rewrite ?E; done.
      * eapply (einv_move s _ d W); rewrite ?E; done.
      * eapply (einv_move s _ (d ++ map Lost b) W); rewrite ?E; try done;
          [| | |intros w [(_ & _ & P) _]; destruct ret as [x|]; [right; destruct D4 as [q Hq]; eexists _, _, q; split_and!; [done|exact P|]; cbn; rewrite D1; set_solver +Hq|left; symmetry; exact P]].
        -- cbn. by rewrite D1, app_assoc.
        -- apply Forall_app. split; [done|apply lost_still].
        -- intros ? evs [Hy|Hy]%elem_of_app; [by apply NW in Hy|]. by apply elem_of_list_fmap in Hy as (? & ? & _).
    + simplify_eq. split; [|by left]. cbn. destruct (e_cur _ W) as [?|(w & C & P)]; [congruence|]. rewrite E in P.
      eapply rets_ok_snoc; [apply W|done|done].
    + simplify_eq. split; [|by left]. cbn. destruct (e_cur _ W) as [?|(w & C & P)]; [congruence|]. rewrite E in P.
      destruct P as (P1 & P2 & P3). eapply rets_ok_snoc; [apply W|done|by left].
Qed.
Lemma einv_reach c s : reachable c s -> einv s.
Proof.
  induction 1 as [n|s l s' Hr IH L H]; [|eapply einv_step; eauto using tinv_reach]. split; [|by left].
  intros h1 r evs h2. by destruct h1.
Qed.




(** ** C117 *)
(** What wait() reported as processed is what it returns if it succeeds.  If it fails, at most the last event is missing, and
    only after the system refused an update.  Missing: that it never is. *)
Theorem C117_returned_partial c s h1 r evs h2 :
  reachable c s -> log s = h1 ++ WaitRet r evs :: h2 ->
  exists w, current h1 = Some w
    /\ (evs = pr_events w \/ (exists e, r = Err e) /\ (exists x, pr_events w = evs ++ [x]) /\ exists q, Fault q ∈ h1).
Proof.
  intros R E. destruct (e_ok _ (einv_reach _ _ R) _ _ _ _ E) as (w & C & [H|(e & x & q & H1 & H2 & H3)]); exists w; split; eauto 10.
Qed.
(** As long as the system refuses no update, every event that was processed is returned. *)
Theorem C117_no_refusal_partial c s h1 r evs h2 :
  reachable c s -> log s = h1 ++ WaitRet r evs :: h2 -> (forall q, Fault q ∉ h1) ->
  exists w, current h1 = Some w /\ evs = pr_events w.
Proof.
  intros R E N. destruct (C117_returned_partial _ _ _ _ _ _ R E) as (w & C & [H|(_ & _ & q & H)]); [eauto|by apply N in H].
Qed.

(** Socket 5 is registered in level mode and socket 6 in one-shot mode; the queue of updates has room for one.  Socket 6 becomes
    readable, then modify is called for socket 5 and fills the queue.  wait() processes the completion of socket 6, must first make
    room in the queue, and the update of socket 5 is refused. *)
Definition dropped : list label :=
  add 0 5 (rd 7) Level ++ [by_ 1 (CAdd 6 (rd 8) Oneshot); t 1; t 1; t 1; t 1; t 1; t 1; t 1; t 1; t 1; t 1]
  ++ block None 10 1 ++ [LDone 1 BDone 1 AFD_RECEIVE; got; w; by_ 0 (CModify 5 (wr 7) Level); t 0; t 0; t 0; t 0; t 0]
  ++ [w; w; w; w; w; w_err (EOTHER 5); w].
(** The one-shot source is disarmed, no wait() has reported it, nothing failed for it, and nobody asked for its removal. *)
Theorem C117_refuted :
  exists c s x n k e, valid c /\ reachable c s /\ sources s !! x = Some n /\ socks (pmem s) !! n = Some k
    /\ Armed (PSock n) (rd 8) Oneshot ∈ log s /\ Fed (PSock n) (Some e) ∈ log s /\ ev_readable e = true
    /\ sk_interest k = nothing 8 /\ (forall r evs, WaitRet r evs ∈ log s -> evs = []) /\ Fault (PSock n) ∉ log s
    /\ waiter s = WOut /\ pending s = [] /\ requests n s = 0 /\ outstanding s (PSock n) = 0.
Proof.
  sees (fun s => (log s, waiter s, sources s !! 6%N, pending s, (socks (pmem s) !! 1, outstanding s (PSock 1), requests 1 s))) (Config 1) 2 dropped s H R X.
  injection X as X1 X2 X3 X4 X5 X6 X7. eexists (Config 1), s, 6%N, 1, _, _. split; [unfold valid; cbn; lia|]. split; [done|]. clear H.
  rewrite X1, X2, X3, X4, X5, X6, X7. split; [done|]. split; [done|]. split; [in_list|]. split; [in_list|]. split; [done|]. split; [done|].
  split; [|split; [not_in_list|done]]. intros r evs Hin.
  repeat (apply elem_of_cons in Hin as [Hin|Hin]; [by try discriminate Hin; injection Hin as -> ->|]). by apply not_elem_of_nil in Hin.
Qed.

(** A wait() that returns after it has processed three events. *)
Example C117_case : exists c s h1 evs h2 w, valid c /\ reachable c s /\ log s = h1 ++ WaitRet (Ok tt) evs :: h2
  /\ (forall q, Fault q ∉ h1) /\ current h1 = Some w /\ length (pr_events w) = 3 /\ pr_deadline w = Some 100%N.
Proof.
  sees log cfg 2 demo1 s H R X. clear H. eexists cfg, s, (take (length (log s) - 1) (log s)), _, [], _. split; [unfold valid; cbn; lia|]. split; [done|].
  rewrite X. cbn [length take Nat.sub]. split; [reflexivity|]. split; [intros q; not_in_list|]. split; [reflexivity|]. split; reflexivity.
Qed.
Print Assumptions C117_returned_partial.
Print Assumptions C117_no_refusal_partial.
Print Assumptions C117_refuted.
