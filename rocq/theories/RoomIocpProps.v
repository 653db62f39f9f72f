(** C113 on completion ports: one wait() reports at most as many events as the container has room for. *)
From stdpp Require Import prelude list gmap.
From Verif Require Import Bits Types EventModel IocpModel IocpSpec IocpProofs IocpProofs8 IocpProofs9 IocpProofs10 IocpProofs11 IocpRuns RoomSpec.
Local Open Scope nat_scope.

(** What is in the container, and what can still come before the wait() returns, has room. *)
Definition fits (room : nat) (w : wpc) : Prop :=
  match w with
  | WOut | WDead _ _ _ => True
  | WSwap l | WDrain l | WDrainDo l _ | WBlock l _ => lc_cap l = room /\ lc_events l = []
  | WGot l _ b => lc_cap l = room /\ lc_events l = [] /\ length b <= room
  | WFeed l _ b => lc_cap l = room /\ length (lc_events l) + length b <= room
  | WOpen l _ _ b | WUpd l _ b _ _ _ => lc_cap l = room /\ length (lc_events l) + S (length b) <= room
  | WFail l _ _ | WEnd l => length (lc_events l) <= room
  end.
Lemma feed_fits room s l z p b o s' : fits room (WOpen l z p b) -> feed_step s l z p b o = Some s' -> fits room (waiter s').
Proof.
  intros [F1 F2] H. unfold feed_step in H. destruct p as [n|n|n|].
  all: try (match type of H with (?x ≫= _) = _ => destruct x as [y|]; [|done]; cbn [mbind option_bind] in H end).
  all: try (match type of H with context [let (_, _) := feed_wtb ?x in _] => destruct (feed_wtb x) as [w' e] end).
  all: try (injection H as <-; cbn; rewrite ?app_length; cbn; split; [done|lia]).
  destruct (feed_sock y) as [k'|k'|k' r]; [|injection H as <-; cbn; split; [done|lia]..].
  destruct (sources s !! sk_socket y) as [n'|]; [|by injection H as <-]. destruct (decide (n' = n)); [by injection H as <-|].
  destruct (do_delete _ (PSock n') o) as [r s3]. injection H as <-. destruct r; cbn; try done; try split; try done; lia.
Qed.
Lemma wait_fits c room s a s' : fits room (waiter s) -> wait_step c s a = Some s' -> fits room (waiter s').
Proof.
  intros F H.
  destruct (waiter s) as [|l|l|l q|l z|l z b|l z b|l z p b|l z b ret p u|l e g|l|d own b] eqn:E, a;
    unfold wait_step in H; rewrite E in H; try done; try (by destruct b).
  - by injection H as <-.
  - destruct (pending s); by injection H as <-.
  - destruct F as [F1 F2]. destruct (do_update s q o) as [r s1]. injection H as <-. destruct r; cbn; try done. rewrite F2. cbn. lia.
  - destruct F as [F1 F2]. injection H as <-. cbn. split_and!; [done|done|lia].
  - destruct F as [F1 F2]. injection H as <-. cbn. rewrite F2. cbn. lia.
  - destruct F as [F1 F2]. destruct (decide _); [done|]. injection H as <-. cbn. split_and!; [done|done|]. rewrite take_length, F1. lia.
  - destruct F as (F1 & F2 & F3). injection H as <-. cbn. rewrite F2. by split.
  - destruct F as [F1 F2]. destruct b as [|p b].
    + destruct (lc_notified l || _ || z) eqn:G; injection H as <-; cbn in *; [lia|]. split; [done|].
      apply orb_false_iff in G as [G _]. apply orb_false_iff in G as [_ G]. apply negb_false_iff, bool_decide_eq_true in G. done.
    + injection H as <-. cbn in *. by split.
  - by eapply feed_fits.
  - destruct F as [F1 F2]. destruct (ustep c s p u o) as [s1 x]. injection H as <-. destruct x as [u'|[|e|]]; cbn.
    + by split.
    + destruct ret; cbn; rewrite ?app_length; cbn; (split; [done|lia]).
    + lia.
    + done.
  - by injection H as <-.
  - by injection H as <-.
Qed.
Lemma waiting_fits c room s : iocp_waiting c room s -> reachable c s /\ fits room (waiter s).
Proof.
  induction 1 as [s d old s' R P H|s l s' _ [R IH] L N H].
  - split; [exact (reach_step c s (LWait room d old) s' R P H)|]. cbn in H. destruct (waiter s); try done. by injection H as <-.
  - split; [exact (reach_step c s l s' R L H)|]. pose proof (tinv_reach _ _ R) as T.
    assert (V : (match l with LThread _ _ | LWait _ _ _ | LWaiter _ => False | _ => True end) -> fits room (waiter s')).
    { intros X. by destruct (env_log _ _ _ _ H X) as (-> & _). }
    destruct l; try (exact (V Logic.I)); cbn [step] in H.
    + destruct (threads s !! i) as [q|] eqn:Hq; [|done]. destruct (thread_log _ _ _ _ _ _ T Hq H) as (-> & _). done.
    + by destruct (N cap d old).
    + by eapply wait_fits.
Qed.
Lemma wait_quiet c s a s' : tinv s -> wait_step c s a = Some s' -> match waiter s with WFail _ _ _ | WEnd _ => False | _ => True end ->
  exists d, log s' = log s ++ d /\ forall r evs, WaitRet r evs ∉ d.
Proof.
  intros T H O. pose proof (t_wait _ T) as TW. unfold wait_step in H.
  assert (N : forall s2, log s2 = log s -> exists d, log s2 = log s ++ d /\ forall r evs, WaitRet r evs ∉ d).
  { intros s2 E1. exists []. rewrite app_nil_r. split; [done|]. intros. apply not_elem_of_nil. }
  assert (M : forall d r evs, Forall mishap d -> WaitRet r evs ∉ d).
  { intros d r evs F Hin. rewrite Forall_forall in F. by apply F in Hin. }
  assert (ML : forall b r evs, WaitRet r evs ∉ map Lost b).
  { intros b r evs Hy. by apply elem_of_list_fmap in Hy as (? & ? & _). }
  destruct (waiter s) as [|l|l|l q|l z|l z b|l z b|l z p b|l z b ret p u|l e g|l|d own b] eqn:E, a;
    try done; try (by destruct b); cbn in TW; try (injection H as <-; by apply N).
  - destruct (pending s) as [|q r] eqn:Ep; injection H as <-; [|by apply N]. eexists. split; [done|]. by intros r evs ?%elem_of_list_singleton.
  - destruct (do_update s q o) as [r s1] eqn:Eu. assert (s1 = (do_update s q o).2) as -> by by rewrite Eu. clear Eu. injection H as <-.
    exists (if ef_fault (update (pmem s) (sys s) q o) then [Fault q] else []). split; [done|].
    intros r0 evs. destruct (ef_fault _); [by intros ?%elem_of_list_singleton|apply not_elem_of_nil].
  - case_decide; [done|]. injection H as <-. by apply N.
  - destruct b; [case_match|]; injection H as <-; by apply N.
  - destruct (feed_log _ _ _ _ _ _ _ T E H) as (X1 & X2 & X3 & _ & _ & r & d & L & D). exists (Fed p r :: d). split; [done|].
    assert (NG : forall d1 r evs, Forall deletes d1 -> WaitRet r evs ∉ d1).
    { intros d1 r0 evs F Hin. rewrite Forall_forall in F. by apply F in Hin as [?|[? ?]]. }
    destruct D as [(D1 & _)|(d1 & -> & D1 & _)].
    + intros r0 evs [?|Hin]%elem_of_cons; [done|]. by apply NG in Hin.
    + intros r0 evs [?|[Hin|Hin]%elem_of_app]%elem_of_cons; [done|by apply NG in Hin|by apply ML in Hin].
  - destruct TW as (TW1 & TW2 & TW3). destruct (ustep _ _ _ _ _) as [s1 x] eqn:Eu.
    destruct (ustep_log _ _ _ _ _ _ _ TW1 TW2 Eu) as (Q & d & D1 & D2 & D3 & D4).
    destruct x as [u'|[[]|e|]]; [| | |done]; injection H as <-.
    1,2: exists d; split; [done|]; intros; by apply M.
    exists (d ++ map Lost b). split; [cbn; by rewrite D1, app_assoc|].
    intros r evs [Hin|Hin]%elem_of_app; [by apply M in Hin|by apply ML in Hin].
Qed.
Theorem C113_iocp_partial c room s l s' r evs :
  iocp_waiting c room s -> step c s l = Some s' -> log s' = log s ++ [WaitRet r evs] -> length evs <= room.
Proof.
  intros W H E. apply waiting_fits in W as [R F]. pose proof (tinv_reach _ _ R) as T.
  assert (Q : forall d, log s' = log s ++ d -> (WaitRet r evs ∉ d) -> length evs <= room).
  { intros d D X. rewrite D in E. apply app_inv_head in E. subst d. destruct X. apply elem_of_list_here. }
  destruct (step_cases _ _ _ _ H) as [(i & q & a & _ & Hq & X)|[(a & _ & X)|[(cap & d & old & _ & ->)|X]]].
  - destruct (thread_log _ _ _ _ _ _ T Hq X) as (_ & d & D & A & _). by apply (Q d D), aside_waitret.
  - pose proof (wait_quiet _ _ _ _ T X) as Y.
    destruct (waiter s) as [|l1|l1|l1 q|l1 z|l1 z b|l1 z b|l1 z p b|l1 z b ret p u|l1 e g|l1|dd own b] eqn:Ew;
      try (destruct (Y Logic.I) as (d & D & N); by apply (Q d D)).
    all: unfold wait_step in X; rewrite Ew in X; destruct a; try done; injection X as <-; cbn in E; apply app_inv_head in E; injection E as _ <-; exact F.
  - cbn in E. apply app_inv_head in E. done.
  - destruct (env_log _ _ _ _ H X) as (_ & _ & _ & _ & _ & d & D & A & _). by apply (Q d D), aside_waitret.
Qed.
Print Assumptions C113_iocp_partial.

(** Three posted packets are there; the container has room for two, and two are reported. *)
Definition three : list label := [LMake (IocpRuns.rd 1); LMake (IocpRuns.rd 2); LMake (IocpRuns.rd 3)] ++ post 0 0 ++ post 0 1 ++ post 0 2.
Lemma go_waiting c room ls : forall s s', forallb (fun l => match l with LWait _ _ _ => false | _ => true end) ls = true ->
  iocp_waiting c room s -> go c s ls = Some s' -> iocp_waiting c room s'.
Proof.
  induction ls as [|l ls IH]; intros s s' A W H; cbn [go forallb] in *; [by injection H as <-|].
  destruct (legalb s l) eqn:L; [|done]. destruct (step c s l) as [s1|] eqn:E; [|done]. apply andb_true_iff in A as [A1 A2].
  eapply IH; [exact A2| |exact H]. refine (iocp_goes_on c room s l s1 W _ _ E); [by apply legalb_sound|]. by intros ? ? ? ->.
Qed.
Example C113_iocp_nonvacuous : exists s s' evs,
  iocp_waiting cfg 2 s /\ step cfg s w = Some s' /\ log s' = log s ++ [WaitRet (Ok tt) evs] /\ length evs = 2 /\ length (queue (sys s)) = 1.
Proof.
  sees (fun s => (queue (sys s), waiter s)) cfg 1 three s0 H0 R0 X0. injection X0 as Q0 W0.
  set (begin := LWait 2 None []). set (ls := [w; at_ 0; got; w] ++ feed_plain ++ feed_plain ++ [w]).
  sees (fun s => (queue (sys s), waiter s)) cfg 1 (three ++ begin :: ls ++ [w]) s' H' R' X'.
  sees (fun s => (length (queue (sys s)), log s)) cfg 1 (three ++ begin :: ls) s H R X. injection X as Q L.
  sees (fun s => log s) cfg 1 (three ++ begin :: ls ++ [w]) s2 H2 R2 X2. assert (s2 = s') as -> by congruence.
  apply go_app in H as (s1 & H1 & H). assert (s1 = s0) as -> by congruence.
  apply go_app in H2 as (s1 & H3 & H2). assert (s1 = s0) as -> by congruence.
  change (begin :: ls ++ [w]) with ((begin :: ls) ++ [w]) in H2. apply go_app in H2 as (s1 & H4 & H2). assert (s1 = s) as -> by congruence.
  exists s, s'. eexists. split; [|split; [|split; [rewrite L, X2; reflexivity|done]]].
  - cbn [go] in H. destruct (legalb s0 begin); [|done]. destruct (step cfg s0 begin) as [s1|] eqn:B; [|done].
    eapply (go_waiting cfg 2 ls); [vm_compute; reflexivity| |exact H]. eapply iocp_begins; [exact R0|lia|exact B].
  - cbn [go] in H2. destruct (legalb s w); [|done]. by destruct (step cfg s w).
Qed.
