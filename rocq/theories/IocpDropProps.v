(** C90: what is left of a poller on a completion port. *)
From stdpp Require Import prelude list gmap.
From Verif Require Import Bits Types EventModel Pool IocpModel IocpSpec IocpProofs IocpProofs3 IocpProofs4 IocpProps IocpRuns IocpDropModel.
Local Open Scope nat_scope.

(** Packets that the program has made itself. *)
Definition made (m : mem) : list pid := map PCustom (map_to_list (customs m)).*1.
(** Packets whose address is in a request that is in flight. *)
Definition requests (k : kern) : list pid := map (fun o => PSock (op_pk o)) (ops k).
(** Packets of waits and callbacks. *)
Definition waiting (k : kern) : list pid := map PWait (map_to_list (waits k)).*2 ++ map cb_packet (cbs k).

Lemma drops l : forall m p, count (fold_left drop_ref l m) p = count m p - occ p l.
Proof.
  induction l as [|q l IH]; intros m p; cbn [fold_left]; [rewrite occ_nil; lia|]. rewrite IH, count_drop, (occ_cons p q l). lia.
Qed.
Lemma unused_refs s : unused s -> wait_refs (waiter s) = [] /\ concat (map pc_refs (threads s)) = [].
Proof.
  intros [W T]. rewrite W. split; [done|]. induction T as [|q l <- T IH]; [done|]. exact IH.
Qed.

(** The count of a packet is exactly what the system still has, what the program has, and what had been lost before. *)
Theorem C90_count c s p : reachable c s -> unused s ->
  count (r_mem (dropped s)) p
  = occ p (requests (sys s)) + occ p (queue (sys s)) + occ p (waiting (sys s)) + occ p (made (pmem s)) + occ p (leaks s).
Proof.
  intros R U. destruct (unused_refs s U) as [E1 E2]. cbn [r_mem dropped]. rewrite drops, (C62_exact_count _ _ _ R).
  unfold owners. rewrite E1, E2, !app_nil_r. unfold system_refs, table_refs, user_refs, made, requests, waiting.
  rewrite !occ_app, (occ_cons p PWake (map _ _)). lia.
Qed.
(** So everything is freed if no request is in flight, no completion is in the port and no wait is registered. *)
Theorem C90_freed_partial c s p : reachable c s -> unused s -> ops (sys s) = [] -> queue (sys s) = [] -> waits (sys s) = ∅ -> cbs (sys s) = [] ->
  p ∉ made (pmem s) -> p ∉ leaks s -> count (r_mem (dropped s)) p = 0.
Proof.
  intros R U O Q W C M L. rewrite (C90_count c) by done. unfold requests, waiting. rewrite O, Q, W, C, map_to_list_empty. cbn [map fmap list_fmap app].
  rewrite !occ_nil, (occ_not_in p (made (pmem s))), (occ_not_in p (leaks s)) by done. done.
Qed.

Lemma customs_drops l : forall m, customs (fold_left drop_ref l m) = customs m.
Proof. induction l as [|q l IH]; intros m; cbn [fold_left]; [done|]. by rewrite IH. Qed.
(** Every later moment: references are accounted for in the same way, with those in the closed port. *)
Lemma after_count r l r' p x : after r l = Some r' ->
  count (r_mem r) p = occ p (requests (r_sys r)) + occ p (waiting (r_sys r)) + occ p (r_lost r) + x ->
  count (r_mem r') p = occ p (requests (r_sys r')) + occ p (waiting (r_sys r')) + occ p (r_lost r') + x.
Proof.
  intros E H. destruct l as [i b n e|h|j]; cbn [after] in E.
  - destruct (ops (r_sys r) !! i) as [o|] eqn:O; [|done]. cbn in E. destruct (socks (r_mem r) !! op_pk o) as [y|]; [|done]. injection E as <-.
    cbn [r_mem r_sys r_lost]. change (count (set_sock _ _ _) p) with (count (r_mem r) p). rewrite H. unfold requests, waiting. cbn [ops set_ops waits cbs].
    rewrite !occ_app. assert (Z : map (fun o => PSock (op_pk o)) (ops (r_sys r)) !! i = Some (PSock (op_pk o))).
    { pose proof (list_lookup_fmap (fun o => PSock (op_pk o)) (ops (r_sys r)) i) as F. rewrite O in F. exact F. }
    pose proof (occ_remove_nth p _ i _ Z) as Y.
    assert (W : remove_nth i (map (fun o => PSock (op_pk o)) (ops (r_sys r))) = map (fun o => PSock (op_pk o)) (remove_nth i (ops (r_sys r)))).
    { unfold remove_nth. rewrite map_app. f_equal; symmetry; [apply fmap_take|apply fmap_drop]. }
    rewrite W in Y. lia.
  - destruct (waits (r_sys r) !! h) as [n|] eqn:W; [|done]. injection E as <-. cbn [r_mem r_sys r_lost]. rewrite H. unfold requests, waiting. cbn [ops waits cbs].
    rewrite map_app, !occ_app. pose proof (occ_map_delete p PWait (waits (r_sys r)) h n W) as Y. cbn [map cb_packet]. lia.
  - destruct (cbs (r_sys r) !! j) as [y|] eqn:Y; [|done]. cbn in E.
    assert (Z : map cb_packet (cbs (r_sys r)) !! j = Some (cb_packet y)).
    { pose proof (list_lookup_fmap cb_packet (cbs (r_sys r)) j) as F. rewrite Y in F. exact F. }
    pose proof (occ_remove_nth p _ j _ Z) as X.
    assert (W : remove_nth j (map cb_packet (cbs (r_sys r))) = map cb_packet (remove_nth j (cbs (r_sys r)))).
    { unfold remove_nth. rewrite map_app. f_equal; symmetry; [apply fmap_take|apply fmap_drop]. }
    rewrite W in X. unfold waiting in H. rewrite occ_app in H.
    destruct y as [n|n]; injection E as <-; cbn [r_mem r_sys r_lost]; unfold requests, waiting in *; cbn [ops waits cbs set_cbs cb_packet] in *; rewrite ?count_drop, !occ_app; lia.
Qed.
Theorem C90_later c s r p : reachable c s -> unused s -> afterwards (dropped s) r ->
  count (r_mem r) p = occ p (requests (r_sys r)) + occ p (waiting (r_sys r)) + occ p (r_lost r) + (occ p (made (pmem s)) + occ p (leaks s)).
Proof.
  intros R U A. induction A as [|r1 l r2 A IH E]; [|by eapply after_count].
  rewrite (C90_count c) by done. cbn [r_sys r_lost dropped]. unfold requests, waiting. cbn [ops waits cbs]. lia.
Qed.
(** Nothing is freed to which the system may still write, or for which it will call back. *)
Theorem C90_not_too_early c s r p : reachable c s -> unused s -> afterwards (dropped s) r -> p ∈ requests (r_sys r) \/ p ∈ waiting (r_sys r) -> 0 < count (r_mem r) p.
Proof.
  intros R U A H. rewrite (C90_later c s r) by done. destruct H as [H|H]; apply occ_in in H; lia.
Qed.
(** A waitable's packet is freed as soon as the handle has been signalled and the callback has run. *)
Theorem C90_waitables_partial c s r n : reachable c s -> unused s -> afterwards (dropped s) r -> PWait n ∉ queue (sys s) -> CbPost n ∉ cbs (sys s) -> PWait n ∉ leaks s ->
  PWait n ∉ waiting (r_sys r) -> count (r_mem r) (PWait n) = 0.
Proof.
  intros R U A Q C L W. rewrite (C90_later c s r) by done.
  assert (X : PWait n ∉ r_lost r /\ CbPost n ∉ cbs (r_sys r)).
  { clear W. induction A as [|r1 l r2 A IH E]; [done|]. destruct IH as [I1 I2]. destruct l as [i b m e|h|j]; cbn [after] in E.
    - destruct (ops (r_sys r1) !! i) as [o|]; [|done]. cbn in E. destruct (socks (r_mem r1) !! op_pk o); [|done]. injection E as <-. cbn. split; [|done].
      rewrite elem_of_app, elem_of_list_singleton. naive_solver.
    - destruct (waits (r_sys r1) !! h) as [k|]; [|done]. injection E as <-. cbn. split; [done|]. rewrite elem_of_app, elem_of_list_singleton. naive_solver.
    - destruct (cbs (r_sys r1) !! j) as [y|] eqn:Y; [|done]. cbn in E.
      assert (Z : forall z, z ∈ remove_nth j (cbs (r_sys r1)) -> z ∈ cbs (r_sys r1)).
      { intros z [H|H]%elem_of_app; [by apply elem_of_take in H as (? & H & _); apply elem_of_list_lookup; eexists|].
        apply elem_of_list_lookup in H as [q H]. rewrite lookup_drop in H. apply elem_of_list_lookup. by eexists. }
      destruct y as [k|k]; injection E as <-; cbn.
      + split; [done|]. by intros H%Z.
      + split; [|by intros H%Z]. rewrite elem_of_app, elem_of_list_singleton. intros [H|[= ->]]; [done|]. apply I2, elem_of_list_lookup. by exists j. }
  rewrite (occ_not_in _ (waiting (r_sys r))), (occ_not_in _ (r_lost r)), (occ_not_in _ (leaks s)) by (done || apply X).
  rewrite !occ_not_in; [done|..].
  - unfold made. intros H. apply elem_of_list_fmap in H as (? & ? & _). done.
  - unfold requests. intros H. apply elem_of_list_fmap in H as (? & ? & _). done.
Qed.
(** Whatever happens later, a packet with a request in flight or a completion in the port is never freed. *)
Lemma sock_kept c s r n : reachable c s -> unused s -> afterwards (dropped s) r -> count (r_mem r) (PSock n) = count (r_mem (dropped s)) (PSock n).
Proof.
  intros R U A. induction A as [|r1 l r2 A IH E]; [done|]. rewrite <- IH. clear IH. destruct l as [i b m e|h|j]; cbn [after] in E.
  - destruct (ops (r_sys r1) !! i) as [o|]; [|done]. cbn in E. destruct (socks (r_mem r1) !! op_pk o); [|done]. by injection E as <-.
  - destruct (waits (r_sys r1) !! h) as [k|]; [|done]. by injection E as <-.
  - destruct (cbs (r_sys r1) !! j) as [y|] eqn:Y; [|done]. cbn in E. destruct y as [k|k]; injection E as <-; [|done]. cbn [r_mem]. rewrite count_drop.
    rewrite occ_one, decide_False by done. lia.
Qed.

(** Refuted: a source is registered and deleted again, as the documentation demands, the poller is dropped when nobody
    uses it; the packet of the source, and with it its share in an AFD handle, is never freed.  Nothing was refused. *)
Theorem C90_refuted : exists c s n x, valid c /\ reachable c s /\ unused s /\ Entered (PSock n) x ∈ log s /\ sources s = ∅ /\ waitables s = ∅ /\ pending s = [] /\ leaks s = []
  /\ (forall p, Fault p ∉ log s) /\ forall r, afterwards (dropped s) r -> 0 < count (r_mem r) (PSock n).
Proof.
  sees (fun s => (waiter s, threads s, log s, map_to_list (sources s), map_to_list (waitables s), pending s, leaks s, requests (sys s)))
    cfg 1 (add 0 5 (rd 7) Oneshot ++ block (Some 30%N) 30 1 ++ [timeout; w; w; w] ++ delete_ 0 5) s H R X. clear H.
  injection X as X1 X2 X3 X4 X5 X6 X7 X8. exists cfg, s, 0, 5%N. ok. split; [exact R|].
  assert (U : unused s) by (split; [exact X1|rewrite X2; repeat constructor]). split; [exact U|].
  split; [rewrite X3; in_list|]. split; [by apply map_to_list_empty_iff|]. split; [by apply map_to_list_empty_iff|]. split; [exact X6|]. split; [exact X7|].
  split; [intros p; rewrite X3; not_in_list|].
  intros r A. rewrite (sock_kept _ _ _ _ R U A), (C90_count _ _ _ R U), X8, occ_one, decide_True by done. lia.
Qed.
(** The notifier's own packet as well, if a notification has not been taken. *)
Theorem C90_notifier_refuted : exists c s, valid c /\ reachable c s /\ unused s /\ sources s = ∅ /\ waitables s = ∅ /\ leaks s = [] /\ (forall p, Fault p ∉ log s)
  /\ 0 < count (r_mem (dropped s)) PWake.
Proof.
  sees (fun s => (waiter s, threads s, log s, map_to_list (sources s), map_to_list (waitables s), leaks s, queue (sys s))) cfg 1 (notify 0) s H R X. clear H.
  injection X as X1 X2 X3 X4 X5 X6 X7. exists cfg, s. ok. split; [exact R|].
  assert (U : unused s) by (split; [exact X1|rewrite X2; repeat constructor]). split; [exact U|].
  split; [by apply map_to_list_empty_iff|]. split; [by apply map_to_list_empty_iff|]. split; [exact X6|].
  split; [intros p; rewrite X3; not_in_list|]. rewrite (C90_count _ _ _ R U), X7, occ_one, decide_True by done. lia.
Qed.

(** A poller that was used and is at rest when it is dropped. *)
Example C90_case : exists c s n x, valid c /\ reachable c s /\ unused s /\ Entered (PSock n) x ∈ log s /\ ops (sys s) = [] /\ queue (sys s) = [] /\ waits (sys s) = ∅ /\ cbs (sys s) = []
  /\ PSock n ∉ made (pmem s) /\ PSock n ∉ leaks s /\ sources s <> ∅.
Proof.
  sees (fun s => (waiter s, threads s, log s, ops (sys s), queue (sys s), map_to_list (waits (sys s)), cbs (sys s), made (pmem s), leaks s, map_to_list (sources s)))
    cfg 1 (add 0 5 (rd 7) Oneshot ++ block None 10 1 ++ [LDone 0 BDone 1 AFD_RECEIVE; got; w] ++ feed ++ finish) s H R X. clear H.
  injection X as X1 X2 X3 X4 X5 X6 X7 X8 X9 X10. exists cfg, s, 0, 5%N. ok. split; [exact R|]. split; [split; [exact X1|rewrite X2; repeat constructor]|].
  split; [rewrite X3; in_list|]. split; [exact X4|]. split; [exact X5|]. split; [by apply map_to_list_empty_iff|]. split; [exact X7|].
  split; [rewrite X8; not_in_list|]. split; [rewrite X9; not_in_list|]. intros E. rewrite E, map_to_list_empty in X10. discriminate X10.
Qed.
Definition fired (s : state) : option (list pid) :=
  match after (dropped s) (SSignal 0) with
  | Some r => match after r (SCallback 0) with Some r' => Some (waiting (r_sys r')) | None => None end
  | None => None
  end.
Lemma fired_after s l : fired s = Some l -> exists r, afterwards (dropped s) r /\ waiting (r_sys r) = l.
Proof.
  unfold fired. destruct (after (dropped s) (SSignal 0)) as [r1|] eqn:E1; [|done]. destruct (after r1 (SCallback 0)) as [r2|] eqn:E2; [|done].
  intros [= <-]. exists r2. split; [|done]. eapply aft_step; [eapply aft_step; [apply aft_now|exact E1]|exact E2].
Qed.
Example C90_waitables_case : exists c s n r, valid c /\ reachable c s /\ unused s /\ PWait n ∈ waiting (sys s) /\ PWait n ∉ queue (sys s) /\ CbPost n ∉ cbs (sys s) /\ PWait n ∉ leaks s
  /\ afterwards (dropped s) r /\ PWait n ∉ waiting (r_sys r).
Proof.
  sees (fun s => (fired s, (waiter s, threads s, waiting (sys s), queue (sys s), cbs (sys s), leaks s))) cfg 1 (add_w 0 5 (rd 7) Oneshot ++ block (Some 30%N) 30 1 ++ [timeout; w; w; w]) s H R X. clear H.
  apply pair_equal_spec in X as [X0 X]. injection X as X1 X2 X3 X4 X5 X6. apply fired_after in X0 as (r & A & W).
  exists cfg, s, 0, r. ok. split; [exact R|]. split; [split; [exact X1|rewrite X2; repeat constructor]|].
  split; [rewrite X3; in_list|]. split; [rewrite X4; not_in_list|]. split; [rewrite X5; not_in_list|]. split; [rewrite X6; not_in_list|].
  split; [exact A|]. rewrite W. not_in_list.
Qed.

Print Assumptions C90_count.
Print Assumptions C90_freed_partial.
Print Assumptions C90_later.
Print Assumptions C90_not_too_early.
Print Assumptions C90_waitables_partial.
Print Assumptions C90_refuted.
Print Assumptions C90_notifier_refuted.
