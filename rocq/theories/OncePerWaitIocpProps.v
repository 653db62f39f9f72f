(** C115 on completion ports: a wait() reports each registration of a socket at most once. *)
From stdpp Require Import prelude list gmap.
From Verif Require Import Bits Types EventModel IocpModel IocpSpec IocpProofs IocpProofs3 IocpProofs4 IocpProofs8 IocpProofs9 IocpProofs10 IocpProofs11 IocpProps IocpRuns RoomIocpProps.
Local Open Scope nat_scope.

(** What the wait() has reported and what it can still report before it returns. *)
Definition shown (w : wpc) : list pid :=
  match w with
  | WOut | WDead _ _ _ => []
  | WSwap l | WDrain l | WDrainDo l _ | WBlock l _ | WFail l _ _ | WEnd l => (lc_events l).*1
  | WGot l _ b | WFeed l _ b => (lc_events l).*1 ++ b
  | WOpen l _ p b | WUpd l _ b _ p _ => (lc_events l).*1 ++ p :: b
  end.
Definition fresh_start (w : wpc) : Prop :=
  match w with WSwap l | WDrain l | WDrainDo l _ | WBlock l _ | WGot l _ _ => lc_events l = [] | _ => True end.
Definition once (w : wpc) : Prop := fresh_start w /\ forall n, occ (PSock n) (shown w) <= 1.

Lemma none n : occ (PSock n) [] <= 1.
Proof. rewrite occ_nil. lia. Qed.
Lemma occ_take p k l : occ p (take k l) <= occ p l.
Proof. rewrite <- (take_drop k l) at 2. rewrite occ_app. lia. Qed.
Lemma put_occ q l p r : occ q (lc_events (put l p r)).*1 <= occ q ((lc_events l).*1 ++ [p]).
Proof. destruct r; cbn; [by rewrite fmap_app|]. rewrite occ_app. lia. Qed.
Lemma feed_once s l z p b o s' : once (WOpen l z p b) -> feed_step s l z p b o = Some s' -> once (waiter s').
Proof.
  intros [_ F] H. unfold feed_step in H. cbn [shown] in F.
  assert (A : forall n, occ (PSock n) ((lc_events l).*1 ++ b) <= 1).
  { intros n. specialize (F n). rewrite occ_app, occ_cons in F. rewrite occ_app. lia. }
  assert (B : forall n, occ (PSock n) (lc_events l).*1 <= 1).
  { intros n. specialize (A n). rewrite occ_app in A. lia. }
  destruct p as [n|n|n|].
  all: try (match type of H with (?x ≫= _) = _ => destruct x as [y|]; [|done]; cbn [mbind option_bind] in H end).
  all: try (match type of H with context [let (_, _) := feed_wtb ?x in _] => destruct (feed_wtb x) as [w' e] end).
  - destruct (feed_sock y) as [k'|k'|k' r]; [|injection H as <-; by split..].
    destruct (sources s !! sk_socket y) as [n'|]; [|injection H as <-; split; [done|exact none]]. destruct (decide (n' = n)); [injection H as <-; split; [done|exact none]|].
    destruct (do_delete _ (PSock n') o) as [r s3]. injection H as <-. destruct r; (split; [done|]); [exact A|exact B|exact none].
  - injection H as <-. by split.
  - injection H as <-. split; [done|]. intros j. cbn. rewrite fmap_app. cbn. rewrite <- app_assoc. apply F.
  - injection H as <-. by split.
Qed.
Lemma wait_once c s a s' : reachable c s -> once (waiter s) -> wait_step c s a = Some s' -> once (waiter s').
Proof.
  intros R F H.
  destruct (waiter s) as [|l|l|l q|l z|l z b|l z b|l z p b|l z b ret p u|l e g|l|d own b] eqn:E, a;
    unfold wait_step in H; rewrite E in H; try done; try (by destruct b).
  - by injection H as <-.
  - destruct (pending s); by injection H as <-.
  - destruct F as [F1 F2]. destruct (do_update s q o) as [r s1]. injection H as <-. destruct r; (split; [done|]); [exact F2|exact F2|exact none].
  - destruct F as [F1 F2]. injection H as <-. split; [done|]. cbn. intros n. rewrite app_nil_r. apply F2.
  - destruct F as [F1 F2]. by injection H as <-.
  - destruct F as [F1 F2]. destruct (decide _) as [|NE]; [done|]. injection H as <-. split; [done|]. intros n. cbn [waiter set_waiter shown fresh_start] in F1 |- *. rewrite F1. cbn [fmap list_fmap app].
    pose proof (C52_one_request c s n R) as Q. unfold outstanding in Q. pose proof (occ_take (PSock n) (lc_cap l) (queue (sys s))). lia.
  - destruct F as [F1 F2]. injection H as <-. split; [done|exact F2].
  - destruct F as [F1 F2]. destruct b as [|p b].
    + cbn in F2. destruct (lc_notified l || _ || z) eqn:G; injection H as <-.
      * split; [done|]. intros n. specialize (F2 n). by rewrite app_nil_r in F2.
      * apply orb_false_iff in G as [G _]. apply orb_false_iff in G as [_ G]. apply negb_false_iff, bool_decide_eq_true in G.
        split; [done|]. cbn [waiter set_waiter shown]. rewrite G. exact none.
    + injection H as <-. by split.
  - by eapply feed_once.
  - destruct F as [_ F2]. cbn in F2. destruct (ustep c s p u o) as [s1 x]. injection H as <-. destruct x as [u'|[|e|]]; (split; [done|]); cbn [waiter set_waiter shown abandon].
    + done.
    + intros n. specialize (F2 n). pose proof (put_occ (PSock n) l p ret) as P. rewrite occ_app in P. rewrite occ_app, occ_cons in F2. rewrite occ_app. lia.
    + intros n. specialize (F2 n). rewrite occ_app in F2. lia.
    + exact none.
  - injection H as <-. split; [done|exact none].
  - injection H as <-. split; [done|exact none].
Qed.
Lemma once_reach c s : reachable c s -> once (waiter s) /\ forall r evs, WaitRet r evs ∈ log s -> forall n, occ (PSock n) evs.*1 <= 1.
Proof.
  induction 1 as [n|s l s' R [IH IL] L H].
  { split; [split; [done|exact none]|]. intros r evs X. by apply elem_of_nil in X. }
  pose proof (tinv_reach _ _ R) as T.
  destruct (step_cases _ _ _ _ H) as [(i & q & a & _ & Hq & X)|[(a & _ & X)|[(cap & d & old & _ & ->)|X]]].
  - destruct (thread_log _ _ _ _ _ _ T Hq X) as (-> & d & D & A & _). split; [done|]. intros r evs. rewrite D, elem_of_app.
    intros [Y|Y]; [by eapply IL|]. by apply aside_waitret with (r := r) (evs := evs) in A.
  - split; [by eapply wait_once|]. pose proof (wait_quiet _ _ _ _ T X) as Y. intros r evs.
    destruct (waiter s) as [|l1|l1|l1 q|l1 z|l1 z b|l1 z b|l1 z p b|l1 z b ret p u|l1 e g|l1|dd own b] eqn:Ew;
      try (destruct (Y Logic.I) as (d & D & N); rewrite D, elem_of_app; intros [Z|Z]; [by eapply IL|by apply N in Z]).
    all: unfold wait_step in X; rewrite Ew in X; destruct a; try done; injection X as <-; cbn; rewrite elem_of_app, elem_of_list_singleton;
      intros [Z|Z]; [by eapply IL|injection Z as _ ->; apply IH].
  - split.
    + split; [done|exact none].
    + intros r evs. cbn. rewrite elem_of_app, elem_of_list_singleton. intros [Z|Z]; [by eapply IL|done].
  - destruct (env_log _ _ _ _ H X) as (-> & _ & _ & _ & _ & d & D & A & _). split; [done|]. intros r evs. rewrite D, elem_of_app.
    intros [Y|Y]; [by eapply IL|]. by apply aside_waitret with (r := r) (evs := evs) in A.
Qed.
Theorem C115_iocp_sockets_partial c s h1 r evs h2 i j n :
  reachable c s -> log s = h1 ++ WaitRet r evs :: h2 -> evs.*1 !! i = Some (PSock n) -> evs.*1 !! j = Some (PSock n) -> i = j.
Proof.
  intros R E I J. apply once_reach in R as [_ O]. specialize (O r evs ltac:(rewrite E; set_solver) n).
  destruct (decide (i = j)) as [|N]; [done|exfalso].
  pose proof (occ_remove_nth (PSock n) _ _ _ I) as X. rewrite occ_one, decide_True in X by done.
  assert (PSock n ∈ remove_nth i evs.*1) as Y%occ_in; [|lia].
  unfold remove_nth. apply elem_of_app. destruct (decide (j < i)).
  - left. apply elem_of_list_lookup. exists j. by rewrite lookup_take.
  - right. apply elem_of_list_lookup. exists (j - S i). rewrite lookup_drop. replace (S i + (j - S i)) with j by lia. done.
Qed.
Print Assumptions C115_iocp_sockets_partial.

(** An event is signalled after a wait() that timed out.  Its completion is in the queue when modify_waitable() is called,
    so that the next wait() first registers another wait, which is satisfied as well: wait() reports the event twice. *)
Definition doubled : list label :=
  add_w 0 5 (rd 7) Level ++ block (Some 10%N) 10 1 ++ [timeout; w; w; w; LSignal 0; LCallback 0 None; LCallback 0 None]
  ++ modify_w 0 5 (rd 8) Level ++ block None 20 1 ++ [LSignal 1; LCallback 0 None; LCallback 0 None; got; w] ++ feed ++ feed ++ finish.
Theorem C115_iocp_waitables_refuted : exists c s h1 evs h2 n e,
  valid c /\ reachable c s /\ log s = h1 ++ WaitRet (Ok tt) evs :: h2 /\ evs = [(PWait n, e); (PWait n, e)].
Proof.
  sees log cfg 1 doubled s Hr R Hl. clear Hr. eexists cfg, s, (take 18 (log s)), _, [], 0, (rd 8).
  split; [unfold valid; cbn; lia|]. split; [done|]. rewrite Hl. cbn [take]. split; reflexivity.
Qed.
Print Assumptions C115_iocp_waitables_refuted.
Example C115_iocp_case : exists c s h1 r evs h2 n n',
  valid c /\ reachable c s /\ log s = h1 ++ WaitRet r evs :: h2 /\ n <> n' /\ PSock n ∈ evs.*1 /\ PSock n' ∈ evs.*1.
Proof.
  sees log cfg 2 demo1 s Hr R Hl. clear Hr. eexists cfg, s, (take 18 (log s)), _, _, [], 1, 2.
  split; [unfold valid; cbn; lia|]. split; [done|]. rewrite Hl. cbn [take]. split; [reflexivity|]. split; [done|]. cbn. set_solver.
Qed.
