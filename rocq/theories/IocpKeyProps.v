(** C48 on completion ports, what holds: as long as the program gives no waitable and no packet of its own the
    reserved key, every event that wait() collects is shown. *)
From stdpp Require Import prelude list gmap.
From Verif Require Import Bits Types EventModel LibModel Pool IocpModel IocpSpec IocpProofs IocpProofs2 IocpProofs3 IocpProofs4 IocpProofs5 IocpProofs6 IocpProofs7
  IocpProofs8 IocpProofs9 IocpProofs10 IocpProofs11 IocpProofs12 IocpProofs13 IocpProofs14 IocpProofs15 IocpProofs19 IocpRuns IocpProps.
Local Open Scope nat_scope.

(** ** Where an interest comes from *)
Lemma interest_armed p h i err m : interest_of p h = Some (i, err, m) -> exists e m', Armed p e m' ∈ h /\ ev_key e = ev_key i.
Proof.
  revert i err m. induction h as [|o h IH] using rev_ind; intros i err m H; [done|]. unfold interest_of in H. rewrite fold_left_app in H. cbn in H.
  change (fold_left (interest_step p) h None) with (interest_of p h) in H.
  assert (L : forall i err m, interest_of p h = Some (i, err, m) -> exists e m', Armed p e m' ∈ h ++ [o] /\ ev_key e = ev_key i).
  { intros i0 err0 m0 E. destruct (IH _ _ _ E) as (e & m' & A & B). exists e, m'. split; [apply elem_of_app; by left|done]. }
  destruct o; cbn in H; try by eapply L.
  - case_decide; [|by eapply L]. injection H as -> _ _. subst. eexists _, _. split; [apply elem_of_app; right; by left|done].
  - destruct r as [e|]; [|by eapply L]. case_decide; [|by eapply L]. destruct (interest_of p h) as [[[i0 err0] m0]|] eqn:E; [|done].
    destruct (L _ _ _ eq_refl) as (e1 & m1 & A & B). exists e1, m1. split; [done|]. destruct m0; by injection H as <- _ _.
Qed.
Lemma thread_arming c s i q a s' d p e m : tinv s -> thread_step c s i q a = Some s' -> log s' = log s ++ d -> Armed p e m ∈ d ->
  exists cl x, (q = AMake cl \/ q = MSet cl p) /\ gives cl = Some (x, e, m) /\ kind cl p.
Proof.
  intros T H L A.
  assert (N : log s' = log s -> exists cl x, (q = AMake cl \/ q = MSet cl p) /\ gives cl = Some (x, e, m) /\ kind cl p).
  { intros E. rewrite E in L. rewrite <- (app_nil_r (log s)) in L at 1. apply app_inv_head in L as <-. by apply not_elem_of_nil in A. }
  assert (N1 : forall d', Forall dull d' -> log s' = log s ++ d' -> exists cl x, (q = AMake cl \/ q = MSet cl p) /\ gives cl = Some (x, e, m) /\ kind cl p).
  { intros d' F E. rewrite E in L. apply app_inv_head in L as <-. by apply (dull_unarmed _ _ _ _ F) in A. }
  destruct q, a; try done; unfold thread_step in H.
  - injection H as <-. (eapply N1; [|cbn; reflexivity]); by repeat constructor.
  - destruct o; [injection H as <-; by apply N|].
    destruct c0; cbn in H; try done; injection H as <-; cbn in L; apply app_inv_head in L as <-; apply elem_of_list_singleton in A; injection A as -> -> ->;
      (eexists _, _; split; [by left|]; split; [reflexivity|exact I]).
  - destruct (insert_packet _ _ _) as [s1|] eqn:E; [|injection H as <-; by apply N]. injection H as <-.
    destruct c0, p0; cbn in E; try done; (case_in E; [done|]); injection E as <-; (eapply N1; [|cbn; reflexivity]); by repeat constructor.
  - destruct (lookup_packet _ _); injection H as <-; by apply N.
  - destruct (do_set _ _ _) as [[s1 b]|] eqn:E; [|done]. cbn [mbind option_bind] in H. injection H as <-.
    assert (L1 : log s1 = log s ++ d) by by destruct b. clear L.
    destruct c0, p0 as [j|j|j|]; cbn in E; try done; (case_in E; [|done]); cbn in E; injection E as <- _; cbn in L1; apply app_inv_head in L1 as <-; apply elem_of_list_singleton in A; injection A as -> -> ->;
      (eexists _, _; split; [by right|]; split; [reflexivity|exact I]).
  - destruct (ustep _ _ _ _ _) as [s1 x] eqn:E. apply (ustep_given 0) in E as [_ (d1 & D & F)]. injection H as <-. by eapply N1.
  - destruct (lookup_packet _ _); injection H as <-; [|by apply N]. destruct c0; by apply N.
  - destruct (delete_given 0 s p0 o) as [_ (d1 & D & F)]. destruct (do_delete s p0 o). injection H as <-. by eapply N1.
  - destruct (notified s); injection H as <-; by apply N.
  - unfold do_post in H; destruct o; injection H as <-; ((eapply N1; [|cbn; reflexivity]); by repeat constructor).
  - injection H as <-. (eapply N1; [|cbn; reflexivity]); by repeat constructor.
Qed.
Lemma armed_called c s p e m : reachable c s -> Armed p e m ∈ log s -> exists i cl x, Called i cl ∈ log s /\ gives cl = Some (x, e, m) /\ kind cl p.
Proof.
  induction 1 as [n|s l s' R IH Lg H]; [by intros A%not_elem_of_nil|]. intros A. pose proof (tinv_reach _ _ R) as T.
  assert (Q : forall d, log s' = log s ++ d -> (Armed p e m ∈ d -> exists i cl x, Called i cl ∈ log s /\ gives cl = Some (x, e, m) /\ kind cl p) ->
    exists i cl x, Called i cl ∈ log s' /\ gives cl = Some (x, e, m) /\ kind cl p).
  { intros d E G. rewrite E in A. assert (X : exists i cl x, Called i cl ∈ log s /\ gives cl = Some (x, e, m) /\ kind cl p) by (apply elem_of_app in A as [A|A]; auto).
    destruct X as (i & cl & x & X & Y). exists i, cl, x. split; [rewrite E; apply elem_of_app; by left|done]. }
  destruct (step_cases _ _ _ _ H) as [(i & q & a & _ & Hq & X)|[(a & _ & X)|[(cap & d & old & E & ->)|X]]].
  - destruct (step_log _ _ _ _ T H) as [d D]. apply (Q d D). intros A'. destruct (thread_arming _ _ _ _ _ _ _ _ _ _ T X D A') as (cl & x & K & G & KK).
    pose proof (se_pc _ (sets_reach _ _ R) _ _ Hq) as S. exists i, cl, x. split; [|done].
    destruct K as [-> | ->]; cbn in S; [|destruct S as [_ S]]; destruct S as (h1 & h2 & -> & _); apply elem_of_app; right; by left.
  - destruct (wait_keeps _ _ _ _ T X) as (d & _ & D & O & _). apply (Q d D). by intros A'%own_unarmed.
  - apply (Q [WaitBegun d old] eq_refl). by intros A'%elem_of_list_singleton.
  - destruct (env_calls _ _ _ _ H X) as (d & D & O). apply (Q d D). by intros A'%own_unarmed.
Qed.
(** add and modify refuse the reserved key (src/lib.rs:554-559, 659-664). *)
Lemma called_legal c s i cl : reachable c s -> Called i cl ∈ log s ->
  match cl with CAdd _ e _ | CModify _ e _ => ev_key e <> NOTIFY_KEY | _ => True end.
Proof.
  induction 1 as [n|s l s' R IH Lg H]; [by intros A%not_elem_of_nil|]. intros A. pose proof (tinv_reach _ _ R) as T.
  assert (Q : forall d, log s' = log s ++ d -> (Called i cl ∈ d -> match cl with CAdd _ e _ | CModify _ e _ => ev_key e <> NOTIFY_KEY | _ => True end) ->
    match cl with CAdd _ e _ | CModify _ e _ => ev_key e <> NOTIFY_KEY | _ => True end).
  { intros d E G. rewrite E in A. apply elem_of_app in A as [A|A]; [exact (IH A)|exact (G A)]. }
  assert (QO : forall d, Forall (fun o => call_obs o = false) d -> Called i cl ∉ d) by (intros d F X; rewrite Forall_forall in F; by apply F in X).
  assert (OQ : forall d, Forall own d -> Called i cl ∉ d) by (intros d F X; rewrite Forall_forall in F; by apply F in X as [? _]).
  destruct (step_cases _ _ _ _ H) as [(j & q & a & -> & Hq & X)|[(a & _ & X)|[(cap & d & old & E & ->)|X]]].
  - destruct (thread_calls _ _ _ _ _ _ T Hq X) as (q' & _ & d & D & [(cl' & -> & _ & ->)|[(cl' & r & _ & _ & ->)|[_ F]]]); apply (Q _ D).
    + intros E%elem_of_list_singleton. injection E as <- <-. destruct a; try done. cbn in X. injection X as <-. cbn in D.
      apply app_inv_head in D. injection D as ->. by destruct cl.
    + by intros Y%elem_of_list_singleton.
    + by intros Y%QO.
  - destruct (wait_keeps _ _ _ _ T X) as (d & _ & D & O & _). apply (Q d D). by intros Y%OQ.
  - apply (Q [WaitBegun d old] eq_refl). by intros Y%elem_of_list_singleton.
  - destruct (env_calls _ _ _ _ H X) as (d & D & O). apply (Q d D). by intros Y%OQ.
Qed.
Lemma current_fed h w p e : current h = Some w -> (p, e) ∈ pr_events w -> Fed p (Some e) ∈ h /\ p <> PWake.
Proof.
  revert w. induction h as [|o h IH] using rev_ind; intros w H I; [done|]. unfold current in H. rewrite fold_left_app in H. cbn in H.
  change (fold_left progress_step h None) with (current h) in H.
  assert (L : forall w0, current h = Some w0 -> (p, e) ∈ pr_events w0 -> Fed p (Some e) ∈ h ++ [o] /\ p <> PWake).
  { intros w0 E0 I0. destruct (IH _ E0 I0). split; [apply elem_of_app; by left|done]. }
  destruct o; cbn in H; try (by eapply L).
  all: try (injection H as <-; by apply not_elem_of_nil in I).
  all: try done.
  all: try (destruct (current h) as [w0|]; [|done]; cbn in H; injection H as <-; by eapply L).
  assert (K : forall w0, current h = Some w0 -> forall r0, r = Some r0 -> w = Prog (pr_deadline w0) (pr_clock w0) (pr_notified w0) (pr_events w0 ++ [(p0, r0)]) -> p0 <> PWake ->
    Fed p (Some e) ∈ h ++ [Fed p0 r] /\ p <> PWake).
  { intros w0 E0 r0 -> -> NP. cbn in I. apply elem_of_app in I as [I|I]; [by eapply L|]. apply elem_of_list_singleton in I. injection I as -> ->. split; [|done]. apply elem_of_app. right. by left. }
  destruct p0; [| | |destruct (current h) as [w0|]; [|done]; cbn in H; injection H as <-; by eapply L];
    (destruct r as [r0|]; [|by eapply L]); (destruct (current h) as [w0|]; [|done]); cbn in H; injection H as <-; by eapply K.
Qed.

(** ** C48: every event is shown *)
(** Missing: a waitable or a packet of the program with the reserved key (see the refutation in IocpProps.v). *)
Theorem C48_iocp_events_visible_partial c s h1 evs h2 p e :
  reachable c s -> log s = h1 ++ WaitRet (Ok tt) evs :: h2 -> (p, e) ∈ evs ->
  (forall i x k m, Called i (CAddW x k m) ∈ log s \/ Called i (CModifyW x k m) ∈ log s -> ev_key k <> NOTIFY_KEY) ->
  (forall n k, customs (pmem s) !! n = Some k -> ev_key k <> NOTIFY_KEY) ->
  e ∈ ev_iter evs.*2.
Proof.
  intros R E Hin Hw Hc.
  assert (Hk : ev_key e <> NOTIFY_KEY).
  { destruct (C19_not_early _ _ _ _ _ R E) as (w & C & Ew & _). subst evs. pose proof (current_fed _ _ _ _ C Hin) as [F NP].
    assert (F' : Fed p (Some e) ∈ log s) by (rewrite E; apply elem_of_app; by left).
    apply elem_of_list_split in F as (g1 & g2 & Eg).
    assert (E' : log s = g1 ++ Fed p (Some e) :: (g2 ++ WaitRet (Ok tt) (pr_events w) :: h2)) by (rewrite E, Eg, <- app_assoc; done).
    assert (A' : forall i err m, interest_of p g1 = Some (i, err, m) -> ev_key i <> NOTIFY_KEY).
    { intros i err m I. destruct (interest_armed _ _ _ _ _ I) as (e' & m' & A1 & <-).
      destruct (armed_called c s p e' m' R) as (j & cl & x & CL & G & K); [rewrite E'; apply elem_of_app; by left|].
      pose proof (called_legal _ _ _ _ R CL) as LG. destruct cl; try done; cbn in G; injection G as -> -> ->; try done; eapply Hw; eauto. }
    destruct p as [n|n|n|].
    - destruct (C55_only_asked _ _ _ _ _ _ R E') as (i & err & m & I & -> & _). by eapply A'.
    - destruct (C84_waitables _ _ _ _ _ _ R E') as (i & err & m & I & [= ->]). by eapply A'.
    - destruct (C65_value _ _ _ _ R F') as (e' & [= <-] & X). by eapply Hc.
    - done. }
  clear -Hin Hk. induction evs as [|[g x] b IH]; [by apply elem_of_nil in Hin|]. cbn [fmap list_fmap snd ev_iter].
  apply elem_of_cons in Hin as [Hin|Hin].
  - injection Hin as -> ->. apply N.eqb_neq in Hk. rewrite Hk. simpl. by left.
  - destruct (negb _); [right|]; by apply IH.
Qed.

(** Two sockets and a packet of the program, none with the reserved key, deliver in one wait. *)
Example C48_iocp_events_visible_case : exists c s h1 evs h2 n k n' k', valid c /\ reachable c s /\ log s = h1 ++ WaitRet (Ok tt) evs :: h2
  /\ (PSock n, k) ∈ evs /\ (PCustom n', k') ∈ evs
  /\ (forall i x k m, Called i (CAddW x k m) ∈ log s \/ Called i (CModifyW x k m) ∈ log s -> ev_key k <> NOTIFY_KEY)
  /\ (forall n k, customs (pmem s) !! n = Some k -> ev_key k <> NOTIFY_KEY).
Proof.
  sees (fun s => (log s, map_to_list (customs (pmem s)))) cfg 2 demo1 s H R X. clear H. injection X as X1 X2.
  eexists cfg, s, (take (length (log s) - 1) (log s)), _, [], _, _, _, _. split; [unfold valid; cbn; lia|]. split; [done|].
  rewrite X1. cbn [length take Nat.sub]. split; [reflexivity|]. split; [in_list|]. split; [in_list|]. split.
  - intros i x k m [A|A]; exfalso; revert A; not_in_list.
  - intros n k A. apply elem_of_map_to_list in A. rewrite X2 in A. apply elem_of_list_singleton in A. injection A as _ ->. done.
Qed.
(** And a waitable. *)
Example C48_iocp_waitable_case : exists c s h1 evs h2 n k, valid c /\ reachable c s /\ log s = h1 ++ WaitRet (Ok tt) evs :: h2
  /\ (PWait n, k) ∈ evs /\ (forall i x k m, Called i (CAddW x k m) ∈ log s \/ Called i (CModifyW x k m) ∈ log s -> ev_key k <> NOTIFY_KEY)
  /\ (forall n k, customs (pmem s) !! n = Some k -> ev_key k <> NOTIFY_KEY).
Proof.
  sees (fun s => (log s, map_to_list (customs (pmem s)))) cfg 2 (removal1 ++ removal2) s H R X. clear H. injection X as X1 X2.
  eexists cfg, s, (take (length (log s) - 1) (log s)), _, [], _, _. split; [unfold valid; cbn; lia|]. split; [done|].
  rewrite X1. cbn [length take Nat.sub]. split; [reflexivity|]. split; [in_list|]. split.
  - intros i x k m [A|A]; repeat (apply elem_of_cons in A as [A|A]; [first [discriminate A|injection A as _ _ -> _; done]|]); by apply not_elem_of_nil in A.
  - intros n k A. apply elem_of_map_to_list in A. rewrite X2 in A. by apply not_elem_of_nil in A.
Qed.

Print Assumptions C48_iocp_events_visible_partial.
