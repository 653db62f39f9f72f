(** C95, and what is left of a one-shot waitable after its removal (C57). *)
From stdpp Require Import prelude list gmap.
From Verif Require Import Bits Types EventModel Pool IocpModel IocpSpec IocpProofs IocpProofs2 IocpProofs3 IocpProofs4 IocpProofs5 IocpProofs6 IocpProofs7
  IocpProofs8 IocpProofs9 IocpProofs10 IocpProofs11 IocpProofs12 IocpProofs13 IocpProofs14 IocpProofs15 IocpOnceSpec IocpProofs19 IocpRuns.
Local Open Scope nat_scope.

(** ** C95: a one-shot waitable delivers once per arming *)
(** The first delivery is the interest as it was asked for.  A second one without an add or a modify in
    between is an event that is neither readable nor writable. *)
Theorem C95_once c s n h1 r1 h2 r2 h3 i err :
  reachable c s -> log s = h1 ++ Fed (PWait n) r1 :: h2 ++ Fed (PWait n) r2 :: h3 ->
  interest_of (PWait n) h1 = Some (i, err, Oneshot) -> (forall e m, Armed (PWait n) e m ∉ h2) ->
  r1 = Some i /\ r2 = Some (Ev (ev_key i) false false 0%N).
Proof.
  intros R E I A. pose proof (wtold_reach c s n R) as W. rewrite E in W.
  destruct (W h1 r1 _ eq_refl) as (e1 & -> & G). rewrite given_interest, I in G. injection G as <-. split; [done|].
  assert (I1 : interest_of (PWait n) (h1 ++ [Fed (PWait n) (Some i)]) = Some (Ev (ev_key i) false false 0%N, false, Oneshot)).
  { rewrite interest_app, I. cbn. by rewrite decide_True. }
  destruct (told_empty _ _ _ _ _ I1 A) as (err' & I2). rewrite <- app_assoc in I2. cbn in I2.
  destruct (W (h1 ++ Fed (PWait n) (Some i) :: h2) r2 h3) as (e2 & -> & G); [by rewrite <- app_assoc|]. rewrite given_interest, I2 in G. by injection G as <-.
Qed.
(** Between two deliveries that say something the waitable was armed. *)
Theorem C95_armed_between c s n h1 e1 h2 e2 h3 i err :
  reachable c s -> log s = h1 ++ Fed (PWait n) (Some e1) :: h2 ++ Fed (PWait n) (Some e2) :: h3 ->
  interest_of (PWait n) h1 = Some (i, err, Oneshot) -> ev_readable e2 = true \/ ev_writable e2 = true ->
  exists e m, Armed (PWait n) e m ∈ h2.
Proof.
  intros R E I U. destruct (decide (Exists (fun o => (match o with Armed p _ _ => bool_decide (p = PWait n) | _ => false end) = true) h2)) as [X|X].
  - apply Exists_exists in X as ([] & X & Y); try done. apply bool_decide_eq_true in Y as ->. eauto.
  - exfalso. destruct (C95_once c s n h1 (Some e1) h2 (Some e2) h3 i err R E I) as [_ [= ->]]; [|by destruct U].
    intros e m A. apply X, Exists_exists. eexists. split; [exact A|]. by apply bool_decide_eq_true.
Qed.

(** ** C57: after remove_waitable *)
(** Missing: the events of a waitable in another mode (see the refutation in IocpProps.v), and the one event
    that a one-shot waitable may still deliver. *)
Theorem C57_oneshot_partial c s s' n i err :
  reachable c s -> Removed (PWait n) ∈ log s -> interest_of (PWait n) (log s) = Some (i, err, Oneshot) ->
  (forall j x e m, calls (log s) !! j <> Some (CModifyW x e m)) -> later c s s' ->
  exists d, log s' = log s ++ d /\ tally (useful n) d <= (if ev_readable i || ev_writable i then 1 else 0).
Proof.
  intros R H I C L. destruct (frozen_later _ _ _ _ R (frozen_of_calls _ _ _ R H C) L) as (_ & d & D & A). exists d. split; [done|].
  eapply told_once; [|done|done]. rewrite <- D. apply (wtold_reach c). by eapply later_reachable.
Qed.
(** In every mode: what is delivered after the removal has the key and at most the directions of the last interest. *)
Theorem C57_no_more_partial c s s' n i err m :
  reachable c s -> Removed (PWait n) ∈ log s -> interest_of (PWait n) (log s) = Some (i, err, m) ->
  (forall j x e m, calls (log s) !! j <> Some (CModifyW x e m)) -> later c s s' ->
  exists d, log s' = log s ++ d /\ forall r, Fed (PWait n) r ∈ d -> r = Some i \/ (m = Oneshot /\ r = Some (Ev (ev_key i) false false 0%N)).
Proof.
  intros R H I C L. destruct (frozen_later _ _ _ _ R (frozen_of_calls _ _ _ R H C) L) as (_ & d & D & A). exists d. split; [done|].
  pose proof (wtold_reach c s' n (later_reachable _ _ _ R L)) as W. rewrite D in W. intros r (d1 & d2 & ->)%elem_of_list_split.
  destruct (W (log s ++ d1) r d2) as (e & -> & G); [by rewrite <- app_assoc|]. rewrite given_interest in G.
  assert (A1 : forall e m, Armed (PWait n) e m ∉ d1) by (intros e0 m0 X; apply (A e0 m0); apply elem_of_app; by left).
  destruct (told_kept n (log s) d1 i err m I A1) as (i' & err' & E & X). rewrite E in G. injection G as <-. destruct X as [-> |[-> ->]]; auto.
Qed.

Print Assumptions C95_once.
Print Assumptions C95_armed_between.
Print Assumptions C57_oneshot_partial.
Print Assumptions C57_no_more_partial.

(** A modify while the callback runs starts a second wait: two completions, of which the second says nothing. *)
Definition twice : list label :=
  add_w 0 5 (rd 7) Oneshot ++ block None 10 1 ++ [LSignal 0; LCallback 0 None; by_ 1 (CModifyW 5 (rd 8) Oneshot); t 1; t 1; t 1; t 1; t 1]
  ++ [LSignal 1; LCallback 1 None; LCallback 0 None; LCallback 0 None; got; w] ++ feed ++ feed ++ finish.
Example C95_case : exists c s n h1 h2 h3 i err, valid c /\ reachable c s
  /\ log s = h1 ++ Fed (PWait n) (Some i) :: h2 ++ Fed (PWait n) (Some (Ev (ev_key i) false false 0%N)) :: h3
  /\ interest_of (PWait n) h1 = Some (i, err, Oneshot) /\ (forall e m, Armed (PWait n) e m ∉ h2) /\ ev_readable i = true.
Proof.
  sees log cfg 2 twice s H R X. clear H. eexists cfg, s, 0, [_; _; _; _; _; _; _; _; _; _; _; _; _], [], _, (rd 8), _.
  split; [unfold valid; cbn; lia|]. split; [done|]. rewrite X. split; [reflexivity|]. split; [vm_compute; reflexivity|]. split; [intros e m; apply not_elem_of_nil|done].
Qed.
(** Armed, delivered, armed again and delivered again. *)
Definition again : list label :=
  add_w 0 5 (rd 7) Oneshot ++ block None 10 1 ++ [LSignal 0; LCallback 0 None; LCallback 0 None; got; w] ++ feed ++ finish
  ++ [by_ 0 (CModifyW 5 (rd 8) Oneshot); t 0; t 0; t 0; t 0; t 0] ++ block None 20 2 ++ [LSignal 1; LCallback 0 None; LCallback 0 None; got; w] ++ feed ++ finish.
Example C95_armed_case : exists c s n h1 e1 h2 e2 h3 i err, valid c /\ reachable c s
  /\ log s = h1 ++ Fed (PWait n) (Some e1) :: h2 ++ Fed (PWait n) (Some e2) :: h3
  /\ interest_of (PWait n) h1 = Some (i, err, Oneshot) /\ ev_readable e2 = true.
Proof.
  sees log cfg 2 again s H R X. clear H. eexists cfg, s, 0, [_; _; _; _; _; _; _; _], _, [_; _; _; _; _; _; _; _], (rd 8), _, _, _.
  split; [unfold valid; cbn; lia|]. split; [done|]. rewrite X. split; [reflexivity|]. split; [vm_compute; reflexivity|done].
Qed.
(** A one-shot waitable is removed while its callback runs: it still delivers once. *)
Definition once1 : list label := add_w 0 5 (rd 7) Oneshot ++ block None 10 1 ++ [LSignal 0] ++ remove_w 0 5.
Definition once2 : list label := [LCallback 0 None; LCallback 0 None; got; w] ++ feed ++ finish.
Example C57_oneshot_case : exists c s s' n i err d, valid c /\ reachable c s /\ Removed (PWait n) ∈ log s
  /\ interest_of (PWait n) (log s) = Some (i, err, Oneshot) /\ calls (log s) = ∅ /\ later c s s' /\ log s' = log s ++ d
  /\ Fed (PWait n) (Some i) ∈ d /\ tally (useful n) d = 1.
Proof.
  sees2 log log cfg 2 once1 once2 s s' R L X Y. eexists cfg, s, s', 0, (rd 7), _, [_; _; _]. split; [unfold valid; cbn; lia|]. split; [done|].
  rewrite X, Y. split; [in_list|]. split; [vm_compute; reflexivity|]. split; [empty_map|]. split; [done|]. split; [reflexivity|]. split; [in_list|]. vm_compute. reflexivity.
Qed.
