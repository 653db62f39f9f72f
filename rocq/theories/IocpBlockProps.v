(** C54 on completion ports, further: only calls about the same source that overlap the start of a wait() can go unnoticed. *)
From stdpp Require Import prelude list gmap.
From Verif Require Import Bits Types EventModel Pool IocpModel IocpSpec IocpReadySpec IocpProofs IocpProofs10 IocpRuns IocpBlockProofs.
Local Open Scope nat_scope.

(** Whatever was done meanwhile about other sources, the interest of [x] is arranged with AFD, or some call is about to do that.
    Missing: calls about [x] itself that overlap the start of the wait (see [C54_refuted]). *)
Theorem C54_other_sources_partial c s x n l z : reachable c s -> sources s !! x = Some n -> spared (PSock n) (log s) ->
  waiter s = WBlock l z -> clear_of x (log s) ->
  arranged s n \/ exists i q, threads s !! i = Some q /\ PSock n ∈ pc_updates q.
Proof. apply blocked_other. Qed.
(** Once no call is in progress any more it is arranged. *)
Theorem C54_all_returned_partial c s x n l z : reachable c s -> sources s !! x = Some n -> spared (PSock n) (log s) ->
  waiter s = WBlock l z -> clear_of x (log s) -> calls (log s) = ∅ -> arranged s n.
Proof.
  intros R H Sp W C E. destruct (blocked_other _ _ _ _ _ _ R H Sp W C) as [?|(i & q & Hq & U)]; [done|].
  pose proof (cinv_reach _ _ R i) as CI. rewrite E, lookup_empty, Hq in CI. destruct q; try done; by apply not_elem_of_nil in U.
Qed.

(** Source 5 is added while the wait is blocked; the add of source 6 overlapped the start of the wait, and goes unnoticed. *)
Definition overlap : list label := [by_ 1 (CAdd 6 (rd 8) Oneshot); t 1; t 1; t 1] ++ block None 10 0 ++ add 0 5 (rd 7) Oneshot ++ [t 1; t 1].
Example C54_other_case : exists c s x n x' n' l z, valid c /\ reachable c s /\ x <> x' /\ sources s !! x = Some n /\ sources s !! x' = Some n'
  /\ spared (PSock n) (log s) /\ waiter s = WBlock l z /\ calls_at_clock (log s) <> ∅ /\ clear_of x (log s) /\ calls (log s) = ∅
  /\ (exists o, ops (sys s) = [o] /\ op_pk o = n) /\ pending s = [PSock n'].
Proof.
  sees (fun s => (log s, sources s !! 5%N, sources s !! 6%N, waiter s, ops (sys s), pending s)) cfg 2 overlap s H R X. clear H. injection X as X1 X2 X3 X4 X5 X6.
  assert (E : calls_at_clock (log s) = {[1 := CAdd 6 (rd 8) Oneshot]}) by (rewrite X1; reflexivity).
  eexists cfg, s, 5%N, _, 6%N, _, _, _. split; [unfold valid; cbn; lia|]. split; [done|]. rewrite X2, X3, X4. split; [done|]. split; [done|]. split; [done|].
  split; [rewrite X1; split; not_in_list|]. split; [done|]. unfold clear_of. rewrite E. split; [done|].
  split; [intros i e m; destruct (decide (i = 1)) as [->|]; [by rewrite lookup_singleton|by rewrite lookup_singleton_ne]|].
  split; [rewrite X1; empty_map|]. rewrite X5, X6. split; [by eexists|done].
Qed.

Print Assumptions C54_other_sources_partial.
Print Assumptions C54_all_returned_partial.
