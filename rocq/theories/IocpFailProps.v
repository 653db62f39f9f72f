(** More about calls that fail on a completion port (C81). *)
From stdpp Require Import prelude list gmap.
From Verif Require Import Bits Types EventModel Pool IocpModel IocpSpec IocpProofs IocpRuns IocpProps.
Local Open Scope nat_scope.

(** Everything but the history is as it was. *)
Definition as_before (s s' : state) : Prop :=
  pmem s' = pmem s /\ sys s' = sys s /\ sources s' = sources s /\ waitables s' = waitables s /\ pending s' = pending s
  /\ polling s' = polling s /\ notified s' = notified s /\ waiter s' = waiter s /\ threads s' = threads s /\ leaks s' = leaks s.

(** Modifying what is not registered: a complete call. *)
Theorem C81_missing_partial c s i cl x e m : threads s !! i = Some Out -> (m = Oneshot \/ m = Level) ->
  (cl = CModify x e m /\ sources s !! x = None \/ cl = CModifyW x e m /\ waitables s !! x = None) ->
  exists s', run c s [LThread i (Call cl); LThread i (Go None); LThread i (Go None)] = Some s'
    /\ log s' = log s ++ [Called i cl; Returned i cl (Err (ESimple KNotFound))] /\ as_before s s'.
Proof.
  intros Hi M Hc. pose proof (lookup_lt_Some _ _ _ Hi) as Li.
  assert (entry cl = MLook cl /\ lookup_packet s cl = None) as [E1 E2].
  { destruct Hc as [[-> Hx]|[-> Hx]]; cbn; rewrite Hx; by destruct M as [-> | ->]. }
  cbn [run step]. rewrite Hi. cbn [mbind option_bind thread_step]. rewrite E1. cbn. rewrite list_lookup_insert by done. cbn.
  unfold lookup_packet in *. cbn. rewrite E2. cbn. rewrite list_lookup_insert by (rewrite insert_length; done). cbn.
  eexists. split; [reflexivity|]. unfold as_before. cbn. rewrite <- app_assoc, !list_insert_insert. split_and!; try done. by apply list_insert_id.
Qed.

(** An add during which the system refuses to tell the base socket, or to open an AFD handle for it: a complete call. *)
Theorem C81_refused_lookup_partial c s i x e m err : threads s !! i = Some Out -> (m = Oneshot \/ m = Level) ->
  exists s', run c s [LThread i (Call (CAdd x e m)); LThread i (Go (Some err)); LThread i (Go None)] = Some s'
    /\ log s' = log s ++ [Called i (CAdd x e m); Returned i (CAdd x e m) (Err (EOs err))] /\ as_before s s'.
Proof.
  intros Hi M. pose proof (lookup_lt_Some _ _ _ Hi) as Li.
  assert (entry (CAdd x e m) = AMake (CAdd x e m)) as E by (by destruct M as [-> | ->]).
  cbn [run step]. rewrite Hi. cbn [mbind option_bind thread_step]. rewrite E. cbn. rewrite list_lookup_insert by done. cbn.
  rewrite list_lookup_insert by (rewrite insert_length; done). cbn.
  eexists. split; [reflexivity|]. unfold as_before. cbn. rewrite <- app_assoc, !list_insert_insert. split_and!; try done. by apply list_insert_id.
Qed.

(** Adding a waitable again: a complete call.  No reference to the packet made for it is left. *)
Theorem C81_waitable_exists_partial c s i x e m n : reachable c s -> threads s !! i = Some Out -> (m = Oneshot \/ m = Level) ->
  waitables s !! x = Some n ->
  exists s' n', run c s [LThread i (Call (CAddW x e m)); LThread i (Go None); LThread i (Go None); LThread i (Go None)] = Some s'
    /\ log s' = log s ++ [Called i (CAddW x e m); Armed (PWait n') e m; Returned i (CAddW x e m) (Err (ESimple KAlreadyExists))]
    /\ wtbs (pmem s) !! n' = None /\ (forall p, count (pmem s') p = count (pmem s) p)
    /\ (forall j, j <> n' -> wtbs (pmem s') !! j = wtbs (pmem s) !! j) /\ socks (pmem s') = socks (pmem s) /\ customs (pmem s') = customs (pmem s)
    /\ sys s' = sys s /\ sources s' = sources s /\ waitables s' = waitables s /\ pending s' = pending s
    /\ polling s' = polling s /\ notified s' = notified s /\ waiter s' = waiter s /\ threads s' = threads s /\ leaks s' = leaks s.
Proof.
  intros R Hi M Hx. pose proof (lookup_lt_Some _ _ _ Hi) as Li. cbn [run step]. rewrite Hi. cbn [mbind option_bind thread_step].
  assert (entry (CAddW x e m) = AMake (CAddW x e m)) as -> by (by destruct M as [-> | ->]).
  cbn. rewrite list_lookup_insert by done. cbn. rewrite list_lookup_insert by (rewrite insert_length; done). cbn. rewrite Hx. cbn.
  rewrite list_lookup_insert by (rewrite !insert_length; done). cbn.
  eexists _, (next (pmem s)). split; [reflexivity|]. cbn. rewrite <- !app_assoc, !list_insert_insert. split; [done|].
  assert (Z : wtbs (pmem s) !! next (pmem s) = None).
  { destruct (wtbs (pmem s) !! next (pmem s)) eqn:E; [|done]. destruct (t_dom _ (tinv_reach _ _ R)) as (_ & D & _). pose proof (D (next (pmem s)) ltac:(by eexists)). lia. }
  split; [done|]. split; [|].
  - intros p. etransitivity; [apply count_round|done].
  - split; [|split_and!; try done; by apply list_insert_id]. intros j Hj. by rewrite lookup_insert_ne.
Qed.

Example C81_missing_case : exists c s i x, valid c /\ reachable c s /\ threads s !! i = Some Out /\ sources s !! x = None /\ waitables s !! x = None
  /\ exists y n, sources s !! y = Some n.
Proof.
  sees (fun s => (threads s !! 0, sources s !! 5%N, sources s !! 9%N, waitables s !! 9%N)) cfg 2 demo1 s H R X. clear H. injection X as X1 X2 X3 X4.
  exists cfg, s, 0, 9%N. split; [unfold valid; cbn; lia|]. eauto 10.
Qed.
Example C81_waitable_exists_case : exists c s i x n, valid c /\ reachable c s /\ threads s !! i = Some Out /\ waitables s !! x = Some n.
Proof.
  sees (fun s => (threads s !! 0, waitables s !! 3%N)) cfg 2 (add_w 0 3 (rd 7) Oneshot) s H R X.
  clear H. injection X as X1 X2. exists cfg, s. eexists 0, 3%N, _. split; [unfold valid; cbn; lia|]. eauto.
Qed.

Print Assumptions C81_missing_partial.
Print Assumptions C81_refused_lookup_partial.
Print Assumptions C81_waitable_exists_partial.
Print Assumptions C81_missing_case.
Print Assumptions C81_waitable_exists_case.
