(** C107. *)
From stdpp Require Import prelude list gmap.
From Verif Require Import Bits Types EventModel EventSpec EventProofs Pool IocpModel IocpSpec IocpReadySpec IocpProofs IocpProofs2 IocpProofs5 IocpProofs7 IocpProofs9 IocpProofs10 IocpProofs11 IocpProofs12 IocpProofs15 IocpProofs20 IocpRuns IocpBlockProofs.
Local Open Scope nat_scope.

Lemma idle_threads c s i q : reachable c s -> calls (log s) = ∅ -> threads s !! i = Some q -> q = Out.
Proof.
  intros R C Hq. pose proof (cinv_reach _ _ R i) as X. rewrite C, lookup_empty, Hq in X. cbn in X. by destruct q.
Qed.
Lemma wait_interest c s n k i err m : reachable c s -> wtbs (pmem s) !! n = Some k ->
  interest_of (PWait n) (log s) = Some (i, err, m) -> wt_interest k = i.
Proof.
  intros R Hk I. pose proof (given_reach _ _ n R) as G. unfold given in G. rewrite given_interest, I, Hk in G. cbn in G. congruence.
Qed.

(** ** A waitable handle is not forgotten *)
Theorem C107_waitable_kept c s x n i err m : reachable c s -> waitables s !! x = Some n -> spared (PWait n) (log s) ->
  interest_of (PWait n) (log s) = Some (i, err, m) -> asks i ->
  arranged_wait s n \/ PWait n ∈ pending s \/ updating s (PWait n).
Proof.
  intros R H Sp I A. destruct (t_wts _ (tinv_reach _ _ R) _ _ H) as (k & Hk & _).
  pose proof (wait_interest _ _ _ _ _ _ _ R Hk I) as E.
  destruct (woinv_reach _ _ R _ _ _ H Hk Sp) as [[S|[S|[S|[S|S]]]]|U].
  - left. destruct (wt_status k) as [|h|] eqn:St; [done| |by destruct (waitable_live _ _ _ _ _ R H Hk)].
    destruct (proj1 (swatched_reach _ _ R) n h) as [X|X]; [unfold status_of; rewrite Hk; cbn; congruence|left; by exists h|right; by left].
  - left. right. right. by left.
  - left. by right; right; right.
  - by right; left.
  - rewrite E in S. unfold no_interest in S. exfalso. destruct A as [A|A]; rewrite A in S; [done|]. by rewrite andb_false_r in S.
  - by right; right.
Qed.
(** While a wait is blocked that began when no call about the handle was in progress, only a call can be at work. *)
Theorem C107_waitable_blocked_partial c s x n i err m l z : reachable c s -> waitables s !! x = Some n -> spared (PWait n) (log s) ->
  interest_of (PWait n) (log s) = Some (i, err, m) -> asks i -> waiter s = WBlock l z -> clear_of_w x (log s) ->
  arranged_wait s n \/ exists j q, threads s !! j = Some q /\ PWait n ∈ pc_updates q.
Proof.
  intros R H Sp I A W C.
  destruct (C107_waitable_kept _ _ _ _ _ _ _ R H Sp I A) as [?|[Hp|[U|U]]]; [by left| | |by right].
  - by apply (queued_waitable _ _ _ _ _ _ R H W C) in Hp.
  - rewrite W in U. by apply not_elem_of_nil in U.
Qed.

(** ** wait() does not sleep through a source that is ready *)
(** Missing: a wait that began while a call about this source was in progress (see the refutations), and sources for
    which the system refused something. *)
Theorem C107_socket_partial c s v x n i err m : reachable c s -> calls (log s) = ∅ -> clear_of x (log s) ->
  asleep s -> at_rest v s ->
  sources s !! x = Some n -> spared (PSock n) (log s) -> interest_of (PSock n) (log s) = Some (i, err, m) -> ~ ready v x i.
Proof.
  intros R C C0 [(l & z & W) Q] (R1 & R2 & R3) H Sp I (b & Hb & Y).
  assert (M : bit (event_to_afd_mask i err) b).
  { apply afd_mask_bits. destruct Y as [[Y1 Y2]|[[Y1 Y2]|Y]]; [| |tauto].
    - destruct Y2 as [?|[?|[?|[?|?]]]]; tauto.
    - destruct Y2 as [?|[?|?]]; tauto. }
  destruct (t_src _ (tinv_reach _ _ R) _ _ H) as (k & Hk & Ek).
  destruct (blocked_other _ _ _ _ _ _ R H Sp W C0) as [[(o & Ho & Ep & Ec & A)|[(o & Ho & Ep & Ec)|O]]|(j & q & Hj & U)].
  - rewrite <- Ep in Hk. destruct (R1 _ _ Ho Hk) as [_ N]. unfold asked in A. rewrite I in A. injection A as A. rewrite A in M.
    apply (N _ M). by rewrite Ek.
  - rewrite <- Ep in Hk. destruct (R1 _ _ Ho Hk) as [N _]. congruence.
  - unfold outstanding, occ in O. rewrite Q, W in O. cbn in O. lia.
  - apply (idle_threads _ _ _ _ R C) in Hj as ->. by apply not_elem_of_nil in U.
Qed.
Theorem C107_waitable_partial c s v x n i err m : reachable c s -> calls (log s) = ∅ -> clear_of_w x (log s) ->
  asleep s -> at_rest v s ->
  waitables s !! x = Some n -> spared (PWait n) (log s) -> interest_of (PWait n) (log s) = Some (i, err, m) -> asks i -> ~ signalled v x.
Proof.
  intros R C C0 [(l & z & W) Q] (R1 & R2 & R3) H Sp I A.
  destruct (t_wts _ (tinv_reach _ _ R) _ _ H) as (k & Hk & Ek).
  destruct (C107_waitable_blocked_partial _ _ _ _ _ _ _ _ _ R H Sp I A W C0) as [[(h & Hh)|[X|[X|O]]]|(j & q & Hj & U)].
  - rewrite <- Ek. by apply (R2 h n).
  - rewrite R3 in X. by apply not_elem_of_nil in X.
  - rewrite R3 in X. by apply not_elem_of_nil in X.
  - unfold outstanding, occ in O. rewrite Q, W in O. cbn in O. lia.
  - apply (idle_threads _ _ _ _ R C) in Hj as ->. by apply not_elem_of_nil in U.
Qed.

(** ** Not so if a call overlaps the start of the wait *)
(** All calls returned without an error, the source is ready, and wait() sleeps with nothing to wake it. *)
Theorem C107_socket_refuted : exists c s v x n i err m j, valid c /\ reachable c s /\ calls (log s) = ∅ /\ asleep s /\ at_rest v s
  /\ Returned j (CAdd x i m) (Ok tt) ∈ log s /\ sources s !! x = Some n /\ spared (PSock n) (log s)
  /\ interest_of (PSock n) (log s) = Some (i, err, m) /\ ready v x i.
Proof.
  sees (fun s => (log s, waiter s, sources s !! 5%N, sys s)) cfg 2 race s H R X.
  injection X as X1 X2 X3 X4. eexists cfg, s, (World (fun _ _ => True) (fun _ => True)), 5%N, 0, _, _, _, 0.
  split; [unfold valid; cbn; lia|]. split; [done|]. rewrite X1. split; [empty_map|].
  split; [split; [rewrite X2; eauto|by rewrite X4]|]. split.
  { unfold at_rest. rewrite X4. cbn. split_and!; [|done|done]. by intros o k ?%not_elem_of_nil. }
  split; [in_list|]. split; [done|]. split; [split; not_in_list|]. split; [vm_compute; reflexivity|].
  exists a_receive. split; [done|]. left. split; [done|by left].
Qed.
Definition race_w : list label := [by_ 0 (CAddW 5 (rd 7) Oneshot); t 0; t 0; t 0] ++ block None 10 0 ++ [t 0; t 0].
Theorem C107_waitable_refuted : exists c s v x n i err m j, valid c /\ reachable c s /\ calls (log s) = ∅ /\ asleep s /\ at_rest v s
  /\ Returned j (CAddW x i m) (Ok tt) ∈ log s /\ waitables s !! x = Some n /\ spared (PWait n) (log s)
  /\ interest_of (PWait n) (log s) = Some (i, err, m) /\ asks i /\ signalled v x.
Proof.
  sees (fun s => (log s, waiter s, waitables s !! 5%N, sys s)) cfg 2 race_w s H R X.
  injection X as X1 X2 X3 X4. eexists cfg, s, (World (fun _ _ => True) (fun _ => True)), 5%N, 0, _, _, _, 0.
  split; [unfold valid; cbn; lia|]. split; [done|]. rewrite X1. split; [empty_map|].
  split; [split; [rewrite X2; eauto|by rewrite X4]|]. split.
  { unfold at_rest. rewrite X4. cbn. split_and!; [|done|done]. by intros o k ?%not_elem_of_nil. }
  split; [in_list|]. split; [done|]. split; [split; not_in_list|]. split; [vm_compute; reflexivity|]. split; [by left|done].
Qed.

(** ** Cases *)
(** A socket and a waitable handle with an interest, the socket ready for something else, asleep; the add of another socket
    overlapped the start of the wait and goes unnoticed. *)
Definition both : list label := add 0 5 (rd 7) Level ++ add_w 1 6 (rd 8) Level ++ block None 10 2.
Definition both_late : list label :=
  add 0 5 (rd 7) Level ++ add_w 1 6 (rd 8) Level ++ [by_ 0 (CAdd 7 (rd 9) Level); t 0; t 0; t 0] ++ block None 10 2 ++ [t 0; t 0].
Example C107_case : exists c s v n1 n2 i1 e1 m1 i2 e2 m2, valid c /\ reachable c s /\ calls (log s) = ∅
  /\ calls_at_clock (log s) <> ∅ /\ pending s <> [] /\ clear_of 5 (log s) /\ clear_of_w 6 (log s) /\ asleep s
  /\ at_rest v s /\ (exists b, holds v 5%N b) /\ sources s !! 5%N = Some n1 /\ spared (PSock n1) (log s)
  /\ interest_of (PSock n1) (log s) = Some (i1, e1, m1) /\ asks i1
  /\ waitables s !! 6%N = Some n2 /\ spared (PWait n2) (log s) /\ interest_of (PWait n2) (log s) = Some (i2, e2, m2) /\ asks i2.
Proof.
  sees (fun s => (log s, waiter s, sources s !! 5%N, waitables s !! 6%N, sys s, pending s)) cfg 2 both_late s H R X.
  injection X as X1 X2 X3 X4 X5 X6.
  assert (E : calls_at_clock (log s) = {[0 := CAdd 7 (rd 9) Level]}) by (rewrite X1; apply map_to_list_inj; vm_compute; reflexivity). clear H.
  eexists cfg, s, (World (fun _ b => b = a_send) (fun _ => False)), 0, 1, _, _, _, _, _, _.
  split; [unfold valid; cbn; lia|]. split; [done|]. split; [rewrite X1; empty_map|]. unfold clear_of, clear_of_w. rewrite E. clear E. split; [done|].
  split; [rewrite X6; discriminate|].
  split; [intros i e m; destruct (decide (i = 0)) as [->|]; [by rewrite lookup_singleton|by rewrite lookup_singleton_ne]|].
  split; [intros i e m; destruct (decide (i = 0)) as [->|]; [by rewrite lookup_singleton|by rewrite lookup_singleton_ne]|]. rewrite X1.
  split; [split; [rewrite X2; eauto|by rewrite X5]|]. split.
  { unfold at_rest. rewrite X5. cbn. split_and!; [|by intros ? ? ? _ _ []|done]. intros o k [->|?%not_elem_of_nil]%elem_of_cons Hk; [|done].
    split; [done|]. intros b Hb ->. vm_compute in Hb. done. }
  split; [by exists a_send|]. split; [done|]. split; [split; not_in_list|]. split; [vm_compute; reflexivity|]. split; [by left|].
  split; [done|]. split; [split; not_in_list|]. split; [vm_compute; reflexivity|by left].
Qed.
(** A handle that was signalled; its callback is under way. *)
Example C107_kept_case : exists c s x n i err m, valid c /\ reachable c s /\ waitables s !! x = Some n /\ spared (PWait n) (log s)
  /\ interest_of (PWait n) (log s) = Some (i, err, m) /\ asks i /\ CbStart n ∈ cbs (sys s).
Proof.
  sees (fun s => (log s, waitables s !! 6%N, sys s)) cfg 2 (both ++ [LSignal 0]) s H R X.
  injection X as X1 X2 X3. eexists cfg, s, 6%N, 1, _, _, _. split; [unfold valid; cbn; lia|]. split; [done|]. rewrite X1.
  split; [done|]. split; [split; not_in_list|]. split; [vm_compute; reflexivity|]. split; [by left|]. rewrite X3. in_list.
Qed.

Print Assumptions C107_waitable_kept.
Print Assumptions C107_waitable_blocked_partial.
Print Assumptions C107_socket_partial.
Print Assumptions C107_waitable_partial.
Print Assumptions C107_socket_refuted.
Print Assumptions C107_waitable_refuted.
