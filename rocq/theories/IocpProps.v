(** The completion-port properties: C19, C52-C62, C64, C65, C81-C83 and the parts of C13 and C48.
    [reachable c s] ranges over all histories of any number of threads that call the poller, of one
    thread in wait(), of AFD, the completion port and the thread pool, with every failure of a
    system call. *)
From stdpp Require Import prelude list gmap.
From Verif Require Import Bits Types EventModel EventProofs Pool IocpModel IocpSpec IocpProofs IocpProofs2 IocpProofs3 IocpProofs4 IocpProofs5 IocpProofs6 IocpProofs7 IocpProofs8 IocpProofs9 IocpProofs10 IocpProofs11 IocpProofs12 IocpProofs13 IocpProofs14 IocpProofs15 IocpProofs16 IocpProofs17 IocpProofs18 IocpRuns.
Local Open Scope nat_scope.

(** ** C19: wait does not give up early *)
Theorem C19_not_early c s h1 evs h2 :
  reachable c s -> log s = h1 ++ WaitRet (Ok tt) evs :: h2 ->
  exists p, current h1 = Some p /\ evs = pr_events p /\ (evs = [] -> pr_notified p = true \/ late p).
Proof. intros R. apply (w_ok _ (winv_reach _ _ R)). Qed.
Theorem C19_no_deadline c s h1 h2 p :
  reachable c s -> log s = h1 ++ WaitRet (Ok tt) [] :: h2 -> current h1 = Some p -> pr_deadline p = None -> pr_notified p = true.
Proof.
  intros R E C D. destruct (C19_not_early _ _ _ _ _ R E) as (p' & C' & _ & [H|(d & now & H & _)]); [done|congruence|congruence].
Qed.

(** ** C52: one request per socket, its buffer is left alone *)
Definition requests (n : nat) (s : state) : nat := cnt (fun o => bool_decide (op_pk o = n)) (ops (sys s)).
Lemma requests_mine n s : requests n s = length (mine n (ops (sys s))).
Proof. unfold requests, mine. induction (ops (sys s)) as [|o l IH]; [done|]. cbn. rewrite IH. by case_bool_decide. Qed.
(** Also no request is in flight while a completion of the last one was not processed. *)
Theorem C52_one_request c s n : reachable c s -> requests n s + outstanding s (PSock n) <= 1.
Proof.
  intros R. rewrite requests_mine. destruct (vinv_reach c s n R) as [_ A]. cbn in A. unfold outstanding.
  destruct (socks (pmem s) !! n); [|destruct A as (-> & A1 & A2 & _); cbn; lia]. pose proof (a_sum _ _ _ _ _ _ A). lia.
Qed.
(** What the request refers to: a packet that exists, locked, with the mask in its buffer. *)
Theorem C52_request_buffer c s o : reachable c s -> o ∈ ops (sys s) ->
  exists k, socks (pmem s) !! op_pk o = Some k /\ sk_in_use k = true /\ sk_iosb k = BPending /\ sk_count k = 1 /\ sk_events k = op_mask o.
Proof.
  intros R Ho. assert (Hm : o ∈ mine (op_pk o) (ops (sys s))).
  { unfold mine. rewrite elem_of_list_In, List.filter_In, <- elem_of_list_In. split; [done|]. by apply bool_decide_eq_true. }
  destruct (vinv_reach c s (op_pk o) R) as [_ A]. cbn in A. destruct (socks (pmem s) !! op_pk o) as [k|].
  - exists k. destruct (a_ops _ _ _ _ _ _ A o Hm) as (_ & A1 & A2 & A3 & A4 & _). done.
  - destruct A as [A _]. rewrite A in Hm. by apply not_elem_of_nil in Hm.
Qed.
(** Every step made while a request is in flight, unless AFD completes it, leaves the buffer alone and the request in flight. *)
Theorem C52_buffer_kept c s l s' n k d : reachable c s -> legal s l -> step c s l = Some s' ->
  0 < requests n s -> socks (pmem s) !! n = Some k -> log s' = log s ++ d -> (forall b e, Done n b e ∉ d) ->
  exists k', socks (pmem s') !! n = Some k' /\ sk_iosb k' = sk_iosb k /\ sk_count k' = sk_count k /\ sk_events k' = sk_events k /\ 0 < requests n s'.
Proof.
  intros R L H Q Hk E ND. rewrite requests_mine in *. destruct (refines_step n c s l s' (tinv_reach _ _ R) L H) as (d' & E' & V).
  assert (d' = d) as -> by (rewrite E in E'; by apply app_inv_head in E').
  destruct (vsteps_buffer n (view_of n s) d (view_of n s') (log s) k) as (k' & A & B & C); try done.
  - by apply (vinv_reach c).
  - cbn. destruct (mine n (ops (sys s))); [cbn in Q; lia|done].
  - exists k'. unfold buffer in B. injection B as B1 B2 B3. split_and!; try done. cbn in C.
    destruct (mine n (ops (sys s'))); [done|cbn; lia].
Qed.

(** ** C53: no interest is forgotten *)
Theorem C53_not_forgotten c s x n : reachable c s -> sources s !! x = Some n -> spared (PSock n) (log s) ->
  arranged s n \/ PSock n ∈ pending s \/ updating s (PSock n).
Proof. apply registered_arranged. Qed.
(** The update that is queued or under way installs the interest. *)
Theorem C53_update_installs c s l s' x n : reachable c s -> legal s l -> sources s !! x = Some n -> spared (PSock n) (log s) ->
  step c s l = Some s' -> updates s l (PSock n) -> arranged s' n.
Proof.
  intros R L Hx Sp H U. destruct (registered_packet _ _ _ _ R Hx) as [k Hk]. eapply updated_arranged; eauto. by eapply registered_live.
Qed.
(** A call that returned successfully has given its source the interest and the mode, while it ran. *)
Theorem C53_call_arms c s h1 i cl h2 : reachable c s -> log s = h1 ++ Returned i cl (Ok tt) :: h2 -> gives cl <> None ->
  exists p, armed_by i cl p h1 /\ entered_for cl p h1.
Proof. intros R. apply (se_ret _ (sets_reach _ _ R)). Qed.

(** ** C54: add and modify take effect while a wait is blocked *)
(** Missing: calls that overlap the start of the wait (see the refutation). *)
Theorem C54_blocked_partial c s x n l z : reachable c s -> sources s !! x = Some n -> spared (PSock n) (log s) ->
  waiter s = WBlock l z -> calls_at_clock (log s) = ∅ ->
  arranged s n \/ exists i cl u, threads s !! i = Some (Upd cl (PSock n) u).
Proof. apply blocked_arranged. Qed.
(** All calls returned, the wait is blocked, and nothing is arranged for the source. *)
Theorem C54_refuted :
  exists c s x n e m i l z, valid c /\ reachable c s /\ Returned i (CAdd x e m) (Ok tt) ∈ log s /\ sources s !! x = Some n /\ spared (PSock n) (log s)
    /\ calls (log s) = ∅ /\ waiter s = WBlock l z /\ ~ arranged s n /\ ops (sys s) = [] /\ queue (sys s) = [].
Proof.
  sees (fun s => (log s, waiter s, sources s !! 5%N, ops (sys s), queue (sys s))) cfg 2 race s H R X.
  injection X as X1 X2 X3 X4 X5. eexists cfg, s, 5%N, 0, _, _, 0, _, _. split; [unfold valid; cbn; lia|]. split; [done|].
  rewrite X1, X2, X3, X4, X5. split; [in_list|]. split; [done|]. split; [split; not_in_list|]. split.
  { empty_map. }
  split_and!; try done. intros [(o & Ho & _)|[(o & Ho & _)|Ho]].
  - rewrite X4 in Ho. by apply not_elem_of_nil in Ho.
  - rewrite X4 in Ho. by apply not_elem_of_nil in Ho.
  - unfold outstanding, occ in Ho. rewrite X5, X2 in Ho. cbn in Ho. lia.
Qed.

(** ** C55: only what was asked for, and once in one-shot mode *)
Theorem C55_only_asked c s n h1 e h2 : reachable c s -> log s = h1 ++ Fed (PSock n) (Some e) :: h2 ->
  exists i err m, interest_of (PSock n) h1 = Some (i, err, m) /\ ev_key e = ev_key i
    /\ (ev_readable e = true -> ev_readable i = true) /\ (ev_writable e = true -> ev_writable i = true).
Proof.
  intros R E. destruct (vinv_reach c s n R) as [J _]. destruct (J _ _ _ E) as (i & err & m & b & fl & J1 & _ & _ & J2 & J3 & J4 & _).
  exists i, err, m. split_and!; try done; intros X; [by apply J3|by apply J4].
Qed.
(** And AFD reported it (or the request failed). *)
Theorem C55_justified c s n : reachable c s -> all_justified n (log s).
Proof. intros R. apply (vinv_reach c s n R). Qed.
Theorem C55_oneshot c s n h1 e1 h2 e2 h3 i err : reachable c s ->
  log s = h1 ++ Fed (PSock n) (Some e1) :: h2 ++ Fed (PSock n) (Some e2) :: h3 ->
  interest_of (PSock n) h1 = Some (i, err, Oneshot) -> exists e m, Armed (PSock n) e m ∈ h2.
Proof.
  intros R E I. pose proof (oneshot_rearmed _ _ _ _ _ _ _ _ _ _ R E I) as X.
  clear E. induction h2 as [|o h2 IH].
  - destruct X. intros e m H. by apply not_elem_of_nil in H.
  - assert (D : (exists e m, o = Armed (PSock n) e m) \/ forall e m, o <> Armed (PSock n) e m).
    { destruct o; try (by right). destruct (decide (p = PSock n)) as [->|]; [left; eauto|right; congruence]. }
    destruct D as [(e & m & ->)|D]; [exists e, m; by left|].
    destruct IH as (e & m & He); [|exists e, m; by right].
    intros Y. apply X. intros e m [He|He]%elem_of_cons; [by destruct (D e m)|by apply (Y e m)].
Qed.

(** ** C56: no event after delete *)
(** From the moment the deletion of the packet begins. *)
Theorem C56_none_after_removal c s n h1 h2 e : reachable c s -> log s = h1 ++ Removed (PSock n) :: h2 -> Fed (PSock n) (Some e) ∉ h2.
Proof.
  intros R E H. apply elem_of_list_split in H as (h3 & h4 & ->). destruct (vinv_reach c s n R) as [J _].
  destruct (J (h1 ++ Removed (PSock n) :: h3) e h4) as (i & err & m & b & fl & _ & _ & J1 & _).
  - rewrite E, <- app_assoc. done.
  - apply J1. apply elem_of_app. right. by left.
Qed.
(** A delete was made and returned, after the source was last entered, and no delete of it is still running.
    Missing: a delete that returns while another delete of the same source is running (see the refutation), and
    a wait() that is stuck (C61). *)
Theorem C56_after_delete_partial c s s' x n e d :
  reachable c s -> deleted x (log s) -> (forall i, calls (log s) !! i <> Some (CDelete x)) -> (forall d own b, waiter s <> WDead d own b) ->
  Entered (PSock n) x ∈ log s -> later c s s' -> log s' = log s ++ d -> Fed (PSock n) (Some e) ∉ d.
Proof.
  intros R D C W En L E H. assert (Rm : Removed (PSock n) ∈ log s).
  { eapply deleted_removed; try done. intros X. destruct (waiter s) eqn:Ew; try done. by eapply W. }
  apply elem_of_list_split in Rm as (h1 & h2 & Eh). eapply (C56_none_after_removal c s' n h1 (h2 ++ d) e).
  - by eapply later_reachable.
  - by rewrite E, Eh, <- app_assoc.
  - apply elem_of_app. by right.
Qed.
(** A delete returned, and an event is delivered. *)
Theorem C56_refuted :
  exists c s s' x n e d, valid c /\ reachable c s /\ deleted x (log s) /\ Entered (PSock n) x ∈ log s /\ later c s s'
    /\ log s' = log s ++ d /\ Fed (PSock n) (Some e) ∈ d.
Proof.
  sees2 log log cfg 2 deletes1 deletes2 s s' R L X Y. eexists cfg, s, s', 5%N, 0, _, _. split; [unfold valid; cbn; lia|]. split; [done|].
  rewrite X, Y. split; [done|]. split; [in_list|]. split; [done|]. split; [match goal with |- ?a = ?b ++ _ => let k := eval vm_compute in (length b) in apply (eq_sym (take_drop k a)) end|]. cbn. in_list.
Qed.
(** Deleting a source that is not registered: a complete call, whatever the others do; it succeeds and changes nothing. *)
Theorem C56_unknown c s i x : threads s !! i = Some Out -> sources s !! x = None ->
  exists s', run c s [LThread i (Call (CDelete x)); LThread i (Go None); LThread i (Go None)] = Some s'
    /\ log s' = log s ++ [Called i (CDelete x); Returned i (CDelete x) (Ok tt)]
    /\ pmem s' = pmem s /\ sys s' = sys s /\ sources s' = sources s /\ waitables s' = waitables s /\ pending s' = pending s
    /\ polling s' = polling s /\ notified s' = notified s /\ waiter s' = waiter s /\ threads s' = threads s /\ leaks s' = leaks s.
Proof.
  intros Hi Hx. pose proof (lookup_lt_Some _ _ _ Hi) as Li. cbn [run step]. rewrite Hi. cbn. rewrite list_lookup_insert by done. cbn. rewrite Hx. cbn.
  rewrite list_lookup_insert by (rewrite insert_length; done). cbn. eexists. split; [reflexivity|]. cbn. rewrite <- app_assoc, !list_insert_insert. split_and!; try done.
  by apply list_insert_id.
Qed.

(** ** C57: no waitable event after remove_waitable *)
(** Missing: a callback, a completion or an update of the waitable that is under way when it is removed
    (see the refutation). *)
Theorem C57_after_removal_partial c s s' n : reachable c s -> Removed (PWait n) ∈ log s -> PWait n ∉ owners s -> later c s s' ->
  exists d, log s' = log s ++ d /\ forall r, Fed (PWait n) r ∉ d.
Proof. intros R H O L. by destruct (unreferred_later c s s' (PWait n) R I H O L). Qed.
(** Removed, and it is delivered again and again. *)
Theorem C57_refuted :
  exists c s s' i h n e d1 d2 d3, valid c /\ reachable c s /\ Entered (PWait n) h ∈ log s /\ Returned i (CRemoveW h) (Ok tt) ∈ log s /\ waitables s !! h = None
    /\ later c s s' /\ log s' = log s ++ d1 ++ Fed (PWait n) (Some e) :: d2 ++ Fed (PWait n) (Some e) :: d3 /\ calls (log s) = ∅
    /\ (forall x, Entered (PWait n) x ∉ d1 ++ d2 ++ d3).
Proof.
  sees2 (fun s => (log s, waitables s !! 5%N)) log cfg 2 removal1 removal2 s s' R L X Y. injection X as X1 X2.
  eexists cfg, s, s', 0, 5%N, 0, (rd 7), [_], [_; _; _; _; _], [_]. split; [unfold valid; cbn; lia|]. split; [done|].
  rewrite X1, X2, Y. split; [in_list|]. split; [in_list|]. split; [done|]. split; [done|]. split; [reflexivity|]. split; [empty_map|]. intros x. not_in_list.
Qed.

(** ** C58: nothing is delivered without interest *)
(** Sockets. *)
Theorem C58_sockets_partial c s n h1 e h2 : reachable c s -> log s = h1 ++ Fed (PSock n) (Some e) :: h2 ->
  exists i err m, interest_of (PSock n) h1 = Some (i, err, m) /\ (ev_readable i = true \/ ev_writable i = true \/ ev_extra i <> 0%N).
Proof.
  intros R E. destruct (vinv_reach c s n R) as [J _]. destruct (J _ _ _ E) as (i & err & m & b & fl & J1 & _ & _ & _ & J2 & J3 & _ & J4).
  exists i, err, m. split; [done|]. apply orb_true_iff in J4 as [J4|J4]; [apply orb_true_iff in J4 as [J4|J4]|].
  - left. by apply J2.
  - right. left. by apply J3.
  - right. right. intros Z. rewrite Z in J4. unfold intersects in J4. rewrite N.land_0_r in J4. done.
Qed.
(** Waitables: the interest is empty, and an event is delivered. *)
Theorem C58_refuted :
  exists c s n h1 e h2 k err m, valid c /\ reachable c s /\ log s = h1 ++ Fed (PWait n) (Some e) :: h2
    /\ interest_of (PWait n) h1 = Some (Ev k false false 0%N, err, m).
Proof.
  sees log cfg 2 silent s H R X.
  eexists cfg, s, 0, [_; _; _; _; _; _; _; _; _; _; _], _, [_], 7%N, _, _. split; [unfold valid; cbn; lia|]. split; [done|]. split; [rewrite X; reflexivity|]. reflexivity.
Qed.

(** ** C59: retrying after a failed submission *)
(** Missing: starting the poll (see the refutation).  What was refused is only the cancellation of a
    request, which is still in flight: the next update sets it right. *)
Theorem C59_cancel_partial c s l s' n o : reachable c s -> legal s l -> o ∈ ops (sys s) -> op_pk o = n -> Removed (PSock n) ∉ log s ->
  step c s l = Some s' -> updates s l (PSock n) -> arranged s' n.
Proof. apply updated_in_flight. Qed.
(** The poll could not be started; then modify succeeds and wait blocks, nothing is refused and nothing is arranged. *)
Theorem C59_refuted :
  exists c s x n i e m l z h1 h2, valid c /\ reachable c s /\ log s = h1 ++ h2 /\ Fault (PSock n) ∈ h1 /\ (forall p, Fault p ∉ h2 /\ Lost p ∉ h2)
    /\ sources s !! x = Some n /\ Called i (CModify x e m) ∈ h2 /\ Returned i (CModify x e m) (Ok tt) ∈ h2
    /\ waiter s = WBlock l z /\ calls_at_clock (log s) = ∅ /\ calls (log s) = ∅ /\ pending s = [] /\ ops (sys s) = [] /\ queue (sys s) = [].
Proof.
  sees (fun s => (log s, waiter s, sources s !! 5%N, pending s, ops (sys s), queue (sys s))) cfg 2 (stuck1 ++ stuck2) s H R X.
  injection X as X1 X2 X3 X4 X5 X6. eexists cfg, s, 5%N, 0, 0, _, _, _, _, [_; _; _; _; _; _; _], _. split; [unfold valid; cbn; lia|]. split; [done|].
  rewrite X1, X2, X3, X4, X5, X6. split; [reflexivity|]. split; [in_list|]. split; [intros p; split; not_in_list|]. split; [done|].
  split; [in_list|]. split; [in_list|]. split; [done|]. split; [empty_map|]. split; [empty_map|]. split_and!; reflexivity.
Qed.

(** ** C60: completions of other sources *)
(** Missing: batches in which the system refuses something (see the refutation). *)
Theorem C60_processed_partial c s n : reachable c s -> (forall p, Fault p ∉ log s) ->
  tally (dones n) (log s) = tally (taken (PSock n)) (log s) + outstanding s (PSock n).
Proof.
  intros R F. destruct (done_once c s n R) as [A B].
  assert (Z : tally (losses (PSock n)) (log s) = 0); [|lia].
  apply tally_none. intros o Ho. destruct o; try done. destruct (blamed_reach _ _ R) as [q Hq]; [eauto|]. by destruct (F q).
Qed.
(** With refusals: every completion was processed, is still to be processed, or was thrown away together with a batch or
    a queue of updates because the system refused something. *)
Theorem C60_accounted_partial c s n : reachable c s ->
  tally (dones n) (log s) <= tally (taken (PSock n)) (log s) + tally (losses (PSock n)) (log s) + outstanding s (PSock n)
  /\ (0 < tally (losses (PSock n)) (log s) -> exists p, Fault p ∈ log s).
Proof.
  intros R. split; [apply (done_once c s n R)|]. intros L. apply (blamed_reach _ _ R).
  assert (exists o, o ∈ log s /\ losses (PSock n) o = true) as (o & Ho & E).
  { clear R. destruct (Exists_dec (fun o => losses (PSock n) o = true) (log s)) as [X%Exists_exists|X]; [done|].
    rewrite tally_none in L; [lia|]. intros o Ho. apply not_true_iff_false. intros E. apply X, Exists_exists. eauto. }
  destruct o; try done. eauto.
Qed.
(** Never more than once. *)
Theorem C60_at_most_once c s n : reachable c s -> tally (taken (PSock n)) (log s) + outstanding s (PSock n) <= tally (dones n) (log s).
Proof. intros R. apply (done_once c s n R). Qed.
(** A completion is lost because another source fails; later modify succeeds, wait blocks, nothing is arranged. *)
Theorem C60_refuted :
  exists c s x n i e m l z h1 h2, valid c /\ reachable c s /\ log s = h1 ++ h2 /\ sources s !! x = Some n /\ Fault (PSock n) ∉ log s
    /\ tally (dones n) (log s) = 1 /\ tally (taken (PSock n)) (log s) = 0 /\ outstanding s (PSock n) = 0 /\ requests n s = 0 /\ pending s = []
    /\ Called i (CModify x e m) ∈ h2 /\ Returned i (CModify x e m) (Ok tt) ∈ h2 /\ (forall p, Fault p ∉ h2) /\ waiter s = WBlock l z /\ calls_at_clock (log s) = ∅.
Proof.
  sees (fun s => (log s, waiter s, sources s !! 6%N, pending s, (outstanding s (PSock 1), requests 1 s))) (Config 1) 2 (batch1 ++ batch2) s H R X.
  injection X as X1 X2 X3 X4 X5 X6. eexists (Config 1), s, 6%N, 1, 1, (rd 8), Level, _, _, (take 20 (log s)), (drop 20 (log s)). split; [unfold valid; cbn; lia|]. split; [done|].
  split; [by rewrite take_drop|]. rewrite X1, X2, X3, X4, X5, X6. cbn [take drop]. split; [done|]. split; [not_in_list|]. split; [reflexivity|]. split; [reflexivity|].
  do 3 (split; [done|]). split; [in_list|]. split; [in_list|]. split; [intros p; not_in_list|]. split; [done|]. empty_map.
Qed.

(** ** C61: sockets that were closed *)
(** Only a completion that reports the local close can stop wait() for good.  Missing: that it does not. *)
Theorem C61_only_closed_partial c s d own b : reachable c s -> waiter s = WDead d own b ->
  exists n r e, Done n r e ∈ log s /\ intersects e AFD_LOCAL_CLOSE = true.
Proof. intros R W. apply (dead_reach _ _ R). by rewrite W. Qed.
(** It locks itself out. *)
Theorem C61_deadlock_refuted :
  exists c s own b, valid c /\ reachable c s /\ waiter s = WDead Deadlock own b /\ (forall p, Fault p ∉ log s) /\ calls (log s) = ∅.
Proof.
  sees (fun s => (log s, waiter s)) cfg 2 closed1 s H R X. injection X as X1 X2. eexists cfg, s, _, _. split; [unfold valid; cbn; lia|]. split; [done|].
  rewrite X1, X2. split; [done|]. split; [intros p; not_in_list|]. empty_map.
Qed.
(** It panics while the source is being deleted. *)
Theorem C61_panic_refuted :
  exists c s own b, valid c /\ reachable c s /\ waiter s = WDead Panicked own b /\ forall p, Fault p ∉ log s.
Proof.
  sees (fun s => (log s, waiter s)) cfg 2 closed2 s H R X. injection X as X1 X2. eexists cfg, s, _, _. split; [unfold valid; cbn; lia|]. split; [done|].
  rewrite X1, X2. split; [done|]. intros p; not_in_list.
Qed.
(** It removes the registration that another add made meanwhile. *)
Theorem C61_other_refuted :
  exists c s n n' x, valid c /\ reachable c s /\ n <> n' /\ (forall r e, Done n' r e ∉ log s) /\ Entered (PSock n') x ∈ log s
    /\ (exists i e m, Returned i (CAdd x e m) (Ok tt) ∈ log s /\ Armed (PSock n') e m ∈ log s) /\ Removed (PSock n') ∈ log s /\ Fed (PSock n) None ∈ log s /\ sources s !! x = None
    /\ forall i, Returned i (CDelete x) (Ok tt) ∉ log s.
Proof.
  sees (fun s => (log s, sources s !! 5%N)) cfg 2 closed3 s H R X. injection X as X1 X2. eexists cfg, s, 0, 1, 5%N. split; [unfold valid; cbn; lia|]. split; [done|].
  rewrite X1, X2. split; [done|]. split; [intros r e; not_in_list|]. split; [in_list|]. split; [exists 0, (rd 9), Oneshot; split; in_list|].
  split; [in_list|]. split; [in_list|]. split; [done|]. intros i; not_in_list.
Qed.

(** It does not if AFD reports only what it was asked about and no interest asks about the local close: the
    poller never adds that to what is asked. *)
Theorem C61_asked_only_partial c s d own b : reachable_asked c s ->
  (forall n e m, Armed (PSock n) e m ∈ log s -> intersects (ev_extra e) AFD_LOCAL_CLOSE = false) -> waiter s <> WDead d own b.
Proof. intros R A W. assert (D := alive_asked _ _ R A). by rewrite W in D. Qed.
Example C61_asked_case : exists c s, valid c /\ reachable_asked c s
  /\ (forall n e m, Armed (PSock n) e m ∈ log s -> intersects (ev_extra e) AFD_LOCAL_CLOSE = false)
  /\ Done 0 BDone AFD_RECEIVE ∈ log s /\ Fed (PSock 0) (Some (Ev 7%N true false AFD_RECEIVE)) ∈ log s /\ WaitRet (Ok tt) [(PSock 0, Ev 7%N true false AFD_RECEIVE)] ∈ log s.
Proof.
  sees_asked log cfg 2 (add 0 5 (rd 7) Oneshot ++ block None 10 1 ++ [LDone 0 BDone 1 AFD_RECEIVE; got; w] ++ feed ++ finish) s R X.
  exists cfg, s. split; [unfold valid; cbn; lia|]. split; [done|]. rewrite X. split.
  - intros n e m H. repeat (apply elem_of_cons in H as [H|H]; [first [discriminate H|by injection H as _ -> _]|]). by apply not_elem_of_nil in H.
  - split; [in_list|]. split; in_list.
Qed.

(** ** C62: references *)
(** The count of a packet is the number of references to it: those the system, the poller and the threads
    have, and those that were lost. *)
Theorem C62_exact_count c s p : reachable c s -> count (pmem s) p = occ p (owners s) + occ p (leaks s).
Proof. intros R. apply (rinv_reach _ _ R). Qed.
(** So what the system or anyone refers to is not freed. *)
Theorem C62_no_use_after_free c s p : reachable c s -> p ∈ owners s -> 0 < count (pmem s) p.
Proof. intros R H. rewrite (C62_exact_count _ _ _ R). apply occ_in in H. lia. Qed.
(** References are lost only if the system refused something for the packet, or a waitable was removed. *)
Theorem C62_leaks c s p : reachable c s -> p ∈ leaks s -> Fault p ∈ log s \/ (Removed p ∈ log s /\ exists n, p = PWait n).
Proof. intros R. apply (linv_reach _ _ R). Qed.
(** A packet that nobody refers to is freed, but for these. *)
Theorem C62_freed c s p : reachable c s -> p ∉ owners s -> Fault p ∉ log s -> (forall n, p <> PWait n) -> count (pmem s) p = 0.
Proof.
  intros R H F W. rewrite (C62_exact_count _ _ _ R). destruct (occ p (owners s)) eqn:E1.
  - destruct (occ p (leaks s)) eqn:E2; [done|]. assert (p ∈ leaks s) as [?|[_ [k ?]]]%(C62_leaks _ _ _ R) by (apply occ_pos; lia); [done|by destruct (W k)].
  - destruct H. apply occ_pos. lia.
Qed.

(** ** C64: notifications are not lost *)
Theorem C64_not_lost c s l z : reachable c s -> notify_due (log s) -> no_wait_failed (log s) -> Fault PWake ∉ log s ->
  waiter s = WBlock l z -> PWake ∈ queue (sys s) \/ exists i, threads s !! i = Some (Post CNotify PWake).
Proof. apply due_posted. Qed.

(** ** C65: posted packets *)
(** Between two waits, none of which failed: what was posted was processed once, or is in the port. *)
Theorem C65_exactly_once c s p : reachable c s -> (p = PWake \/ exists n, p = PCustom n) -> no_wait_failed (log s) -> current (log s) = None ->
  tally (posts p) (log s) = tally (taken p) (log s) + occ p (queue (sys s)).
Proof. intros R P. apply (posted_exact c); [done|]. by destruct P as [->|[n ->]]. Qed.
(** At any time. *)
Theorem C65_conserved c s p : reachable c s -> (p = PWake \/ exists n, p = PCustom n) ->
  tally (posts p) (log s) = tally (taken p) (log s) + tally (losses p) (log s) + outstanding s p.
Proof. intros R P. rewrite <- gone_split. apply (balanced_reach _ _ R). by destruct P as [->|[n ->]]. Qed.
(** With the event it was made with; and what was processed is in the container (C19). *)
Theorem C65_value c s n r : reachable c s -> Fed (PCustom n) r ∈ log s -> exists e, r = Some e /\ customs (pmem s) !! n = Some e.
Proof. intros R. apply (values_reach _ _ R). Qed.
Theorem C65_value_kept c s s' n e : reachable c s -> customs (pmem s) !! n = Some e -> later c s s' -> customs (pmem s') !! n = Some e.
Proof. intros R H L. by apply (later_customs _ _ _ R L). Qed.
(** A successful call posts once: the ones posted are those of the calls that returned and of the calls that are about to. *)
Theorem C65_calls c s n : reachable c s ->
  tally (posts (PCustom n)) (log s) = tally (posted_ok n) (log s) + cnt (returning n) (threads s).
Proof. apply post_calls_reach. Qed.

(** ** C81: a call that fails changes nothing *)
(** Missing: failures of the system (see the refutation).  A call in a mode that is not supported: a complete call. *)
Theorem C81_mode_partial c s i cl x e m : threads s !! i = Some Out -> gives cl = Some (x, e, m) -> m <> Oneshot -> m <> Level ->
  exists s', run c s [LThread i (Call cl); LThread i (Go None)] = Some s'
    /\ log s' = log s ++ [Called i cl; Returned i cl (Err (ESimple KInvalidInput))]
    /\ pmem s' = pmem s /\ sys s' = sys s /\ sources s' = sources s /\ waitables s' = waitables s /\ pending s' = pending s
    /\ polling s' = polling s /\ notified s' = notified s /\ waiter s' = waiter s /\ threads s' = threads s /\ leaks s' = leaks s.
Proof.
  intros Hi G M1 M2. pose proof (lookup_lt_Some _ _ _ Hi) as Li. cbn [run step]. rewrite Hi. cbn [mbind option_bind thread_step].
  assert (entry cl = Ret cl invalid_input) as -> by (destruct cl; cbn in G; try done; injection G as -> -> ->; cbn; by destruct m).
  cbn. rewrite list_lookup_insert by done. cbn. eexists. split; [reflexivity|]. cbn. rewrite <- app_assoc, list_insert_insert. split_and!; try done.
  by apply list_insert_id.
Qed.
Lemma count_round m p q : count (drop_ref (clone m p) p) q = count m q.
Proof.
  unfold drop_ref, clone, set_refs, count. cbn. destruct (decide (p = q)) as [->|]; [|by rewrite !lookup_insert_ne by done].
  by rewrite !lookup_insert.
Qed.
(** Adding a source again: a complete call.  No reference to the packet made for it is left (C62). *)
Theorem C81_exists_partial c s i x e m n : reachable c s -> threads s !! i = Some Out -> (m = Oneshot \/ m = Level) -> sources s !! x = Some n ->
  exists s' n', run c s [LThread i (Call (CAdd x e m)); LThread i (Go None); LThread i (Go None); LThread i (Go None)] = Some s'
    /\ log s' = log s ++ [Called i (CAdd x e m); Armed (PSock n') e m; Returned i (CAdd x e m) (Err (ESimple KAlreadyExists))]
    /\ socks (pmem s) !! n' = None /\ (forall p, count (pmem s') p = count (pmem s) p)
    /\ (forall j, j <> n' -> socks (pmem s') !! j = socks (pmem s) !! j) /\ wtbs (pmem s') = wtbs (pmem s) /\ customs (pmem s') = customs (pmem s)
    /\ sys s' = sys s /\ sources s' = sources s /\ waitables s' = waitables s /\ pending s' = pending s
    /\ polling s' = polling s /\ notified s' = notified s /\ waiter s' = waiter s /\ threads s' = threads s /\ leaks s' = leaks s.
Proof.
  intros R Hi M Hx. pose proof (lookup_lt_Some _ _ _ Hi) as Li. cbn [run step]. rewrite Hi. cbn [mbind option_bind thread_step].
  assert (entry (CAdd x e m) = AMake (CAdd x e m)) as -> by (by destruct M as [-> | ->]).
  cbn. rewrite list_lookup_insert by done. cbn. rewrite list_lookup_insert by (rewrite insert_length; done). cbn. rewrite Hx. cbn.
  rewrite list_lookup_insert by (rewrite !insert_length; done). cbn.
  eexists _, (next (pmem s)). split; [reflexivity|]. cbn. rewrite <- !app_assoc, !list_insert_insert. split; [done|].
  assert (Z : socks (pmem s) !! next (pmem s) = None).
  { destruct (socks (pmem s) !! next (pmem s)) eqn:E; [|done]. destruct (t_dom _ (tinv_reach _ _ R)) as [D _]. pose proof (D (next (pmem s)) ltac:(by eexists)). lia. }
  split; [done|]. split; [|].
  - intros p. etransitivity; [apply count_round|done].
  - split; [|split_and!; try done; by apply list_insert_id]. intros j Hj. by rewrite lookup_insert_ne.
Qed.
(** An add fails; the source stays registered: adding it again fails, and nothing is arranged for it. *)
Theorem C81_refuted :
  exists c s x n i e m err l z h1 h2, valid c /\ reachable c s /\ log s = h1 ++ Returned i (CAdd x e m) (Err err) :: h2
    /\ sources s !! x = Some n /\ Returned i (CAdd x e m) (Err (ESimple KAlreadyExists)) ∈ h2
    /\ (forall i m, Returned i (CDelete x) m ∉ log s) /\ (forall i e m, Returned i (CAdd x e m) (Ok tt) ∉ log s) /\ (forall p, Fault p ∉ h2)
    /\ waiter s = WBlock l z /\ calls_at_clock (log s) = ∅ /\ pending s = [] /\ ops (sys s) = [] /\ queue (sys s) = [].
Proof.
  sees (fun s => (log s, waiter s, sources s !! 6%N, pending s, ops (sys s), queue (sys s))) (Config 1) 2 (blamed1 ++ blamed2) s H R X.
  injection X as X1 X2 X3 X4 X5 X6. eexists (Config 1), s, 6%N, 1, 1, (rd 8), Oneshot, _, _, _, [_; _; _; _; _; _; _; _; _], _. split; [unfold valid; cbn; lia|]. split; [done|].
  rewrite X1, X2, X3, X4, X5, X6. split; [reflexivity|]. split; [done|]. split; [in_list|]. split; [intros; not_in_list|]. split; [intros; not_in_list|].
  split; [intros; not_in_list|]. split; [done|]. split; [empty_map|]. split_and!; reflexivity.
Qed.

(** ** C82: a call fails only on its own account *)
(** Missing: that the failure of an add or a modify belongs to the source of the call (see the refutation).  A call fails
    with an error of the system only if the system refused something during the call, or (add) could not make the packet;
    for a delete, a post or a notify it is what the call itself asked for. *)
Theorem C82_refused_partial c s h1 i cl e h2 : reachable c s -> log s = h1 ++ Returned i cl (Err (EOs e)) :: h2 -> (forall x ev m, cl <> CAdd x ev m /\ cl <> CAddW x ev m) ->
  refused_in i cl h1.
Proof. intros R H N. destruct (f_log _ (finv_reach _ _ R) _ _ _ _ _ H) as [X|X]; [|done]. destruct cl; try done; by destruct (N sock e0 m) || by destruct (N h e0 m). Qed.
(** The system refused something for another source, of which this call knows nothing. *)
Theorem C82_refuted :
  exists c s x n i e m err, valid c /\ reachable c s /\ Returned i (CAdd x e m) (Err err) ∈ log s
    /\ (exists n', n' <> n /\ Fault (PSock n') ∈ log s) /\ Fault (PSock n) ∉ log s /\ Entered (PSock n) x ∈ log s /\ Lost (PSock n) ∈ log s
    /\ (forall i e m, Returned i (CAdd x e m) (Ok tt) ∉ log s).
Proof.
  sees log (Config 1) 2 blamed1 s H R X. eexists (Config 1), s, 6%N, 1, 1, (rd 8), Oneshot, _. split; [unfold valid; cbn; lia|]. split; [done|].
  rewrite X. split; [in_list|]. split; [exists 0; split; [done|in_list]|]. split; [not_in_list|]. split; [in_list|]. split; [in_list|]. intros; not_in_list.
Qed.

(** ** C83: a notification that fails does no harm *)
(** Missing: a notification before the next wait() returns (see the refutation).  When wait() returns, the failure is
    forgotten, and a call of notify() posts. *)
Theorem C83_recovers_partial c s l s' evs d : reachable c s -> step c s l = Some s' -> log s' = log s ++ d -> WaitRet (Ok tt) evs ∈ d -> notified s' = false.
Proof.
  intros R H E W. pose proof (tinv_reach _ _ R) as T. destruct (step_cases _ _ _ _ H) as [(i & q & a & _ & Hq & X)|[(a & _ & X)|[(cap & d0 & old & Ew & ->)|X]]].
  - exfalso. destruct (thread_log _ _ _ _ _ _ T Hq X) as (_ & d' & E' & F & _). rewrite E in E'. apply app_inv_head in E' as <-. by apply aside_waitret in W.
  - destruct (wait_flag _ _ _ _ T X) as [(_ & d' & E' & _ & N)|(r & evs' & E' & N)]; rewrite E in E'; apply app_inv_head in E' as ->; [by apply N in W|].
    apply elem_of_list_singleton in W. injection W as W _. destruct N as [[_ ?]|[e ?]]; [done|congruence].
  - exfalso. cbn in E. apply app_inv_head in E as <-. by apply elem_of_list_singleton in W.
  - exfalso. destruct (env_log _ _ _ _ H X) as (_ & _ & _ & _ & _ & d' & E' & F & _). rewrite E in E'. apply app_inv_head in E' as <-. by apply aside_waitret in W.
Qed.
Theorem C83_posts_partial c s i : threads s !! i = Some Out -> notified s = false ->
  exists s', run c s [LThread i (Call CNotify); LThread i (Go None); LThread i (Go None); LThread i (Go None)] = Some s'
    /\ log s' = log s ++ [Called i CNotify; Posted PWake; Returned i CNotify (Ok tt)] /\ queue (sys s') = queue (sys s) ++ [PWake].
Proof.
  intros Hi N. pose proof (lookup_lt_Some _ _ _ Hi) as Li. cbn [run step]. rewrite Hi. cbn. rewrite list_lookup_insert by done. cbn. rewrite N. cbn.
  rewrite list_lookup_insert by (rewrite insert_length; done). cbn. rewrite list_lookup_insert by (rewrite !insert_length; done). cbn.
  eexists. split; [reflexivity|]. cbn. by rewrite <- !app_assoc.
Qed.
(** One failed; the next returned successfully, and the wait that is blocked does not get it. *)
Theorem C83_refuted :
  exists c s i j e l z, valid c /\ reachable c s /\ i <> j /\ Returned i CNotify (Err e) ∈ log s /\ Returned j CNotify (Ok tt) ∈ log s /\ notify_due (log s)
    /\ no_wait_failed (log s) /\ calls (log s) = ∅ /\ waiter s = WBlock l z /\ queue (sys s) = [].
Proof.
  sees (fun s => (log s, waiter s, queue (sys s))) cfg 2 mute s H R X. injection X as X1 X2 X3.
  eexists cfg, s, 0, 1, _, _, _. split; [unfold valid; cbn; lia|]. split; [done|].
  rewrite X1, X2, X3. split; [done|]. split; [in_list|]. split; [in_list|]. split; [done|]. split; [intros e evs; not_in_list|]. split; [empty_map|]. split_and!; reflexivity.
Qed.

(** ** C84: what AFD reports is delivered *)
(** Processing a completion delivers exactly what AFD reported and the interest asks for. *)
Theorem C84_sockets c s n h1 r h2 : reachable c s -> log s = h1 ++ Fed (PSock n) r :: h2 -> told n h1 r.
Proof. intros R E. by apply (told_reach c s n R) in E. Qed.
(** In particular, readability that is asked for and reported is delivered. *)
Theorem C84_readable c s n h1 r h2 i err m flags : reachable c s -> log s = h1 ++ Fed (PSock n) r :: h2 ->
  interest_of (PSock n) h1 = Some (i, err, m) -> last_done n h1 = Some (BDone, flags) -> Removed (PSock n) ∉ h1 ->
  intersects flags AFD_LOCAL_CLOSE = false -> ev_readable i = true ->
  intersects flags (N.lor AFD_RECEIVE (N.lor AFD_ACCEPT (N.lor AFD_DISCONNECT (N.lor AFD_ABORT AFD_CONNECT_FAIL)))) = true ->
  exists e, r = Some e /\ ev_key e = ev_key i /\ ev_readable e = true.
Proof.
  intros R E I D NR NC Ri F. destruct (C84_sockets _ _ _ _ _ _ R E) as (i' & err' & m' & b & fl & I' & D' & _ & _ & _ & T).
  rewrite I in I'. injection I' as <- <- <-. rewrite D in D'. injection D' as <- <-.
  specialize (T NR ltac:(by rewrite NC; intros [_ ?])). unfold tells_r in T. cbn in T. rewrite Ri in T. cbn [andb] in T.
  assert (X : (afd_mask_to_event flags).1 = true).
  { unfold afd_mask_to_event. destruct (intersects flags (N.lor AFD_ABORT AFD_CONNECT_FAIL)) eqn:A; [done|]. cbn [fst].
    rewrite !intersects_lor in *. repeat (apply orb_true_iff in F as [F|F]); rewrite ?F, ?orb_true_r; try done; rewrite F in A; rewrite ?orb_true_r in A; done. }
  rewrite X in T. cbn [orb] in T. eexists. split; [exact T|]. done.
Qed.
Theorem C84_writable c s n h1 r h2 i err m flags : reachable c s -> log s = h1 ++ Fed (PSock n) r :: h2 ->
  interest_of (PSock n) h1 = Some (i, err, m) -> last_done n h1 = Some (BDone, flags) -> Removed (PSock n) ∉ h1 ->
  intersects flags AFD_LOCAL_CLOSE = false -> ev_writable i = true ->
  intersects flags (N.lor AFD_SEND (N.lor AFD_ABORT AFD_CONNECT_FAIL)) = true ->
  exists e, r = Some e /\ ev_key e = ev_key i /\ ev_writable e = true.
Proof.
  intros R E I D NR NC Ri F. destruct (C84_sockets _ _ _ _ _ _ R E) as (i' & err' & m' & b & fl & I' & D' & _ & _ & _ & T).
  rewrite I in I'. injection I' as <- <- <-. rewrite D in D'. injection D' as <- <-.
  specialize (T NR ltac:(by rewrite NC; intros [_ ?])). unfold tells_w in T. cbn in T. rewrite Ri in T. cbn [andb] in T.
  assert (X : (afd_mask_to_event flags).2 = true).
  { unfold afd_mask_to_event. destruct (intersects flags (N.lor AFD_ABORT AFD_CONNECT_FAIL)) eqn:A; [done|]. cbn [snd].
    rewrite !intersects_lor in *. repeat (apply orb_true_iff in F as [F|F]); rewrite ?F, ?orb_true_r; try done; rewrite F in A; rewrite ?orb_true_r in A; done. }
  rewrite X, ?orb_true_r in T. cbn [orb] in T. eexists. split; [exact T|]. done.
Qed.
(** A waitable delivers its interest as it is. *)
Theorem C84_waitables c s n h1 r h2 : reachable c s -> log s = h1 ++ Fed (PWait n) r :: h2 ->
  exists i err m, interest_of (PWait n) h1 = Some (i, err, m) /\ r = Some i.
Proof.
  intros R E. apply (wtold_reach c s n R) in E as (e & -> & E). rewrite given_interest in E.
  destruct (interest_of (PWait n) h1) as [[[i err] m]|]; [|done]. injection E as <-. by exists i, err, m.
Qed.

(** ** C13 and C48 on completion ports *)
Theorem C13_iocp_refuted :
  exists c s d old evs h1 h2 h3 e, valid c /\ reachable c s /\ log s = h1 ++ WaitBegun d old :: h2 ++ WaitRet (Ok tt) evs :: h3
    /\ (forall r evs, WaitRet r evs ∉ h2) /\ e ∈ old /\ e ∉ evs.*2.
Proof.
  sees log cfg 2 old_events s H R X. eexists cfg, s, None, [rd 3], [], [], [_; _; _; _; _], [], (rd 3). split; [unfold valid; cbn; lia|]. split; [done|].
  split; [rewrite X; reflexivity|]. split; [intros r evs; not_in_list|]. split; [in_list|]. apply not_elem_of_nil.
Qed.
(** What holds: the container then has just the events of this wait. *)
Theorem C13_iocp_partial c s h1 evs h2 :
  reachable c s -> log s = h1 ++ WaitRet (Ok tt) evs :: h2 -> exists p, current h1 = Some p /\ evs = pr_events p.
Proof. intros R E. destruct (C19_not_early _ _ _ _ _ R E) as (p & A & B & _). eauto. Qed.
(** A waitable and a posted packet with the reserved key are accepted; the user does not see their events
    (src/lib.rs:881-883). *)
Theorem C48_iocp_refuted :
  exists c s i h n m evs n' j, valid c /\ reachable c s /\ Returned i (CAddW h (rd NOTIFY_KEY) m) (Ok tt) ∈ log s /\ Returned j (CPost n') (Ok tt) ∈ log s
    /\ WaitRet (Ok tt) evs ∈ log s /\ (PWait n, rd NOTIFY_KEY) ∈ evs /\ (PCustom n', rd NOTIFY_KEY) ∈ evs.
Proof.
  sees log cfg 2 hidden s H R X. eexists cfg, s, 0, 5%N, 1, Oneshot, _, 0, 0. split; [unfold valid; cbn; lia|]. split; [done|].
  rewrite X. split; [in_list|]. split; [in_list|]. split; [in_list|]. split; in_list.
Qed.

(** ** Cases that meet the hypotheses *)
Ltac ok := split; [unfold valid; cbn; lia|].

Example C19_not_early_case : exists c s h1 h2 p d, valid c /\ reachable c s /\ log s = h1 ++ WaitRet (Ok tt) [] :: h2 /\ current h1 = Some p
  /\ pr_deadline p = Some d /\ late p /\ pr_notified p = false.
Proof.
  sees log cfg 2 (demo1 ++ demo2 ++ demo3) s H R X. clear H. eexists cfg, s, (take (length (log s) - 1) (log s)), [], _, 30%N. ok. split; [done|]. rewrite X. cbn [length take Nat.sub].
  split; [reflexivity|]. split; [reflexivity|]. split; [reflexivity|]. split; [exists 30%N, 30%N; split_and!; [reflexivity|reflexivity|lia]|reflexivity].
Qed.
Example C19_no_deadline_case : exists c s h1 h2 p, valid c /\ reachable c s /\ log s = h1 ++ WaitRet (Ok tt) [] :: h2 /\ current h1 = Some p /\ pr_deadline p = None.
Proof.
  sees log cfg 2 old_events s H R X. clear H. eexists cfg, s, (take (length (log s) - 1) (log s)), [], _. ok. split; [done|]. rewrite X. cbn [length take Nat.sub].
  split; [reflexivity|]. split; reflexivity.
Qed.
(** Two sources: one request each. *)
Example C52_case : exists c s n n', valid c /\ reachable c s /\ n <> n' /\ requests n s = 1 /\ requests n' s = 1.
Proof. sees (fun s => (requests 1 s, requests 2 s)) cfg 2 (demo1 ++ demo2) s H R X. clear H. injection X as X1 X2. exists cfg, s, 1, 2. ok. done. Qed.
(** A modify that cancels the request. *)
Example C52_buffer_kept_case : exists c s l s' n k d, reachable c s /\ legal s l /\ step c s l = Some s' /\ 0 < requests n s
  /\ socks (pmem s) !! n = Some k /\ log s' = log s ++ d /\ (forall b e, Done n b e ∉ d) /\ ops (sys s) <> ops (sys s').
Proof.
  sees (fun s => (requests 0 s, socks (pmem s) !! 0, ops (sys s), log s)) cfg 2 change s H R X. injection X as X1 X2 X3 X4.
  sees (fun s => (log s, ops (sys s))) cfg 2 (change ++ [t 0]) s' H' R' Y. injection Y as Y1 Y2. apply go_app in H' as (s1 & E1 & E2). assert (s1 = s) as -> by congruence. clear H E1.
  cbn [go] in E2. destruct (legalb s (t 0)) eqn:L; [|done]. destruct (step cfg s (t 0)) as [s2|] eqn:E; [|done]. injection E2 as <-.
  eexists cfg, s, (t 0), s2, 0, _, []. split; [done|]. split; [by apply legalb_sound|]. split; [done|]. split; [rewrite X1; lia|]. split; [exact X2|].
  split; [by rewrite Y1, X4, app_nil_r|]. split; [intros b e; apply not_elem_of_nil|]. by rewrite X3, Y2.
Qed.
Example C53_case : exists c s x n x' n', valid c /\ reachable c s /\ x <> x' /\ sources s !! x = Some n /\ sources s !! x' = Some n' /\ spared (PSock n) (log s) /\ spared (PSock n') (log s)
  /\ PSock n ∈ pending s /\ PSock n' ∉ pending s.
Proof.
  sees (fun s => (log s, sources s !! 5%N, sources s !! 6%N, pending s)) cfg 2 (add 1 6 (wr 8) Level ++ block None 10 1 ++ [LDone 0 BDone 1 AFD_SEND; got; w] ++ feed ++ add 0 5 (rd 7) Oneshot ++ finish ++ [begin None; w; at_ 20; w]) s H R X. clear H.
  injection X as X1 X2 X3 X4. eexists cfg, s, 5%N, _, 6%N, _. ok. split; [done|]. split; [done|]. split; [done|]. split; [done|]. rewrite X1, X4. split; [split; not_in_list|]. split; [split; not_in_list|].
  split; [in_list|not_in_list].
Qed.
Example C53_update_installs_case : exists c s l s' x n, reachable c s /\ legal s l /\ sources s !! x = Some n /\ spared (PSock n) (log s) /\ step c s l = Some s' /\ updates s l (PSock n).
Proof.
  sees (fun s => (log s, sources s !! 5%N, threads s !! 0)) cfg 2 change s H R X. injection X as X1 X2 X3.
  sees log cfg 2 (change ++ [t 0]) s' H' R' Y. apply go_app in H' as (s1 & E1 & E2). assert (s1 = s) as -> by congruence. clear H E1.
  cbn [go] in E2. destruct (legalb s (t 0)) eqn:L; [|done]. destruct (step cfg s (t 0)) as [s2|] eqn:E; [|done]. injection E2 as <-.
  eexists cfg, s, (t 0), s2, 5%N, _. split; [done|]. split; [by apply legalb_sound|]. split; [done|]. rewrite X1. split; [split; not_in_list|]. split; [done|]. left. eexists. exact X3.
Qed.
Example C53_call_arms_case : exists c s h1 i cl h2, reachable c s /\ log s = h1 ++ Returned i cl (Ok tt) :: h2 /\ gives cl <> None /\ exists e evs, WaitRet e evs ∈ h1.
Proof.
  sees log cfg 2 (demo1 ++ demo2) s H R X. clear H. eexists cfg, s, (take 21 (log s)), _, _, _. split; [done|]. rewrite X. cbn [take].
  split; [reflexivity|]. split; [done|]. eexists _, _. in_list.
Qed.
(** Both sources are polled while wait is blocked. *)
Example C54_case : exists c s x n x' n' l z, valid c /\ reachable c s /\ x <> x' /\ sources s !! x = Some n /\ sources s !! x' = Some n' /\ spared (PSock n) (log s)
  /\ waiter s = WBlock l z /\ calls_at_clock (log s) = ∅ /\ length (ops (sys s)) = 2.
Proof.
  sees (fun s => (log s, sources s !! 5%N, sources s !! 6%N, waiter s, length (ops (sys s)))) cfg 2 (demo1 ++ demo2) s H R X. clear H. injection X as X1 X2 X3 X4 X5.
  eexists cfg, s, 5%N, _, 6%N, _, _, _. ok. split; [done|]. split; [done|]. rewrite X1, X2, X3, X4. split; [done|]. split; [done|]. split; [split; not_in_list|]. split; [done|]. split; [empty_map|done].
Qed.
(** Two events of a source in one-shot mode, with a modify in between. *)
Example C55_oneshot_case : exists c s n h1 e1 h2 e2 h3 i err, valid c /\ reachable c s
  /\ log s = h1 ++ Fed (PSock n) (Some e1) :: h2 ++ Fed (PSock n) (Some e2) :: h3 /\ interest_of (PSock n) h1 = Some (i, err, Oneshot) /\ ev_key e1 <> ev_key e2.
Proof.
  sees log cfg 2 (demo1 ++ demo2 ++ demo3) s H R X. clear H. eexists cfg, s, 1, (take 16 (log s)), _, (take 8 (drop 17 (log s))), _, _, _, _. ok. split; [done|]. rewrite X. cbn [take drop].
  split; [reflexivity|]. split; [reflexivity|]. done.
Qed.
(** An event that is writable only because of an error. *)
Example C55_only_asked_case : exists c s n h1 e h2, valid c /\ reachable c s /\ log s = h1 ++ Fed (PSock n) (Some e) :: h2 /\ last_done n h1 = Some (BDone, AFD_ABORT) /\ ev_readable e = false.
Proof.
  sees log cfg 2 demo1 s H R X. clear H. eexists cfg, s, 2, (take 17 (log s)), _, _. ok. split; [done|]. rewrite X. cbn [take]. split; [reflexivity|]. split; reflexivity.
Qed.
Example C58_case : exists c s n h1 e h2, valid c /\ reachable c s /\ log s = h1 ++ Fed (PSock n) (Some e) :: h2.
Proof. destruct C55_only_asked_case as (c & s & n & h1 & e & h2 & V & R & E & _). by exists c, s, n, h1, e, h2. Qed.
(** A source is deleted while its completion is queued; the completion is processed later. *)
Example C56_case : exists c s s' x n d, valid c /\ reachable c s /\ deleted x (log s) /\ (forall i, calls (log s) !! i <> Some (CDelete x)) /\ (forall d own b, waiter s <> WDead d own b)
  /\ Entered (PSock n) x ∈ log s /\ later c s s' /\ log s' = log s ++ d /\ Fed (PSock n) None ∈ d /\ last_done n (log s) = Some (BDone, AFD_RECEIVE).
Proof.
  sees2 (fun s => (log s, waiter s)) log cfg 2 late_delete1 late_delete2 s s' R L X Y. injection X as X1 X2. eexists cfg, s, s', 5%N, 0, [_]. ok. split; [done|].
  rewrite X1, X2, Y. split; [reflexivity|]. split; [intros i; assert (calls (log s) = ∅) as Z by (rewrite X1; empty_map); rewrite X1 in Z; by rewrite Z, lookup_empty|].
  split; [done|]. split; [in_list|]. split; [done|]. split; [reflexivity|]. split; [in_list|reflexivity].
Qed.
Example C56_unknown_case : exists c s i x, valid c /\ reachable c s /\ threads s !! i = Some Out /\ sources s !! x = None /\ deleted x (log s).
Proof.
  sees (fun s => (log s, threads s !! 0, sources s !! 5%N)) cfg 2 late_delete1 s H R X. clear H. injection X as X1 X2 X3. exists cfg, s, 0, 5%N. ok. rewrite X1. done.
Qed.
(** A waitable that delivered an event is removed. *)
Example C57_case : exists c s n e, valid c /\ reachable c s /\ Removed (PWait n) ∈ log s /\ PWait n ∉ owners s /\ Fed (PWait n) (Some e) ∈ log s.
Proof.
  sees (fun s => (log s, owners s)) cfg 2 quiet_removal s H R X. clear H. injection X as X1 X2. eexists cfg, s, 0, _. ok. split; [done|]. rewrite X1, X2. split; [in_list|]. split; [not_in_list|]. in_list.
Qed.
(** Cancelling failed once; the request is in flight, and the next modify updates it. *)
Example C59_case : exists c s l s' n o, reachable c s /\ legal s l /\ o ∈ ops (sys s) /\ op_pk o = n /\ Removed (PSock n) ∉ log s /\ step c s l = Some s' /\ updates s l (PSock n)
  /\ Fault (PSock n) ∈ log s.
Proof.
  sees (fun s => (log s, ops (sys s), threads s !! 0)) cfg 2 refused s H R X. injection X as X1 X2 X3.
  sees log cfg 2 (refused ++ [t 0]) s' H' R' Y. apply go_app in H' as (s1 & E1 & E2). assert (s1 = s) as -> by congruence. clear H E1.
  cbn [go] in E2. destruct (legalb s (t 0)) eqn:L; [|done]. destruct (step cfg s (t 0)) as [s2|] eqn:E; [|done]. injection E2 as <-.
  eexists cfg, s, (t 0), s2, 0, _. split; [done|]. split; [by apply legalb_sound|]. rewrite X1, X2. split; [in_list|]. split; [done|]. split; [not_in_list|]. split; [done|].
  split; [left; eexists; exact X3|in_list].
Qed.
(** Two completions, both processed. *)
Example C60_case : exists c s n n', valid c /\ reachable c s /\ (forall p, Fault p ∉ log s) /\ n <> n' /\ tally (dones n) (log s) = 2 /\ tally (dones n') (log s) = 1.
Proof. sees log cfg 2 (demo1 ++ demo2 ++ demo3) s H R X. clear H. exists cfg, s, 1, 2. ok. split; [done|]. rewrite X. split; [intros p; not_in_list|]. split; [done|]. split; reflexivity. Qed.
Example C62_case : exists c s, valid c /\ reachable c s /\ PSock 1 ∈ system_refs (sys s) /\ PSock 2 ∈ table_refs s /\ PCustom 0 ∈ owners s /\ count (pmem s) (PSock 1) = 2.
Proof.
  sees (fun s => (system_refs (sys s), table_refs s, owners s, count (pmem s) (PSock 1))) cfg 2 (demo1 ++ demo2) s H R X. clear H. injection X as X1 X2 X3 X4. exists cfg, s. ok. split; [done|].
  rewrite X1, X2, X3, X4. split; [in_list|]. split; [in_list|]. split; [in_list|done].
Qed.
(** A reference that is lost. *)
Example C62_leaks_case : exists c s n, valid c /\ reachable c s /\ PWait n ∈ leaks s.
Proof. sees leaks cfg 2 (add_w 0 5 (rd 7) Level ++ block None 10 1 ++ remove_w 0 5) s H R X. clear H. exists cfg, s, 0. ok. split; [done|]. rewrite X. in_list. Qed.
(** A deleted source is freed. *)
Example C62_freed_case : exists c s n x, valid c /\ reachable c s /\ Entered (PSock n) x ∈ log s /\ PSock n ∉ owners s /\ Fault (PSock n) ∉ log s.
Proof.
  sees (fun s => (log s, owners s)) cfg 2 (late_delete1 ++ late_delete2) s H R X. clear H. injection X as X1 X2. exists cfg, s, 0, 5%N. ok. split; [done|].
  rewrite X1, X2. split; [in_list|]. split; [not_in_list|]. not_in_list.
Qed.
Example C64_case : exists c s l z, valid c /\ reachable c s /\ notify_due (log s) /\ no_wait_failed (log s) /\ Fault PWake ∉ log s /\ waiter s = WBlock l z.
Proof.
  sees (fun s => (log s, waiter s)) cfg 2 woken s H R X. clear H. injection X as X1 X2. eexists cfg, s, _, _. ok. split; [done|]. rewrite X1, X2.
  split; [reflexivity|]. split; [intros e evs; not_in_list|]. split; [not_in_list|done].
Qed.
(** A packet is posted twice; one is processed. *)
Example C65_case : exists c s n, valid c /\ reachable c s /\ no_wait_failed (log s) /\ current (log s) = None /\ tally (posts (PCustom n)) (log s) = 2 /\ tally (posted_ok n) (log s) = 2
  /\ occ (PCustom n) (queue (sys s)) = 1.
Proof.
  sees (fun s => (log s, occ (PCustom 0) (queue (sys s)))) cfg 2 (demo1 ++ post 1 0) s H R X. clear H. injection X as X1 X2. exists cfg, s, 0. ok. split; [done|]. rewrite X1, X2.
  split; [intros e evs; not_in_list|]. split_and!; reflexivity.
Qed.
Example C81_mode_case : exists c s i, valid c /\ reachable c s /\ threads s !! i = Some Out /\ exists x n, sources s !! x = Some n.
Proof. sees (fun s => (threads s !! 0, sources s !! 5%N)) cfg 2 demo1 s H R X. clear H. injection X as X1 X2. exists cfg, s, 0. ok. eauto. Qed.
Example C82_case : exists c s h1 i cl e h2, valid c /\ reachable c s /\ log s = h1 ++ Returned i cl (Err (EOs e)) :: h2 /\ (forall x ev m, cl <> CAdd x ev m /\ cl <> CAddW x ev m).
Proof.
  sees log cfg 2 refused s H R X. clear H. eexists cfg, s, (take 9 (log s)), 0, (CModify 5 (wr 7) Level), _, _. ok. split; [done|]. rewrite X. cbn [take]. split; [reflexivity|]. done.
Qed.
Example C82_notify_case : exists c s h1 i e h2, valid c /\ reachable c s /\ log s = h1 ++ Returned i CNotify (Err (EOs e)) :: h2.
Proof. sees log cfg 2 [by_ 0 CNotify; t 0; t_err 0 (EOTHER 5); t 0] s H R X. clear H. eexists cfg, s, [_; _], 0, _, _. ok. split; [done|]. rewrite X. reflexivity. Qed.
(** A failed notification, and then a wait that times out. *)
Example C83_case : exists c s i j e, valid c /\ reachable c s /\ Returned i CNotify (Err e) ∈ log s /\ WaitRet (Ok tt) [] ∈ log s /\ threads s !! j = Some Out /\ notified s = false.
Proof.
  sees (fun s => (log s, threads s !! 0, notified s)) cfg 2 ([by_ 0 CNotify; t 0; t_err 0 (EOTHER 5); t 0] ++ block (Some 10%N) 10 0 ++ [timeout; w; w; w]) s H R X. clear H. injection X as X1 X2 X3.
  eexists cfg, s, 0, 0, _. ok. split; [done|]. rewrite X1. split; [in_list|]. split; [in_list|]. done.
Qed.
Example C84_readable_case : exists c s n h1 r h2 i err m flags, valid c /\ reachable c s /\ log s = h1 ++ Fed (PSock n) r :: h2
  /\ interest_of (PSock n) h1 = Some (i, err, m) /\ last_done n h1 = Some (BDone, flags) /\ Removed (PSock n) ∉ h1
  /\ intersects flags AFD_LOCAL_CLOSE = false /\ ev_readable i = true /\ flags = AFD_RECEIVE.
Proof.
  sees log cfg 2 (demo1 ++ demo2 ++ demo3) s H R X. clear H. eexists cfg, s, 1, (take 25 (log s)), _, _, _, _, _, _. ok. split; [done|]. rewrite X. cbn [take]. split; [reflexivity|]. split; [reflexivity|].
  split; [reflexivity|]. split; [not_in_list|]. split_and!; reflexivity.
Qed.
Example C84_writable_case : exists c s n h1 r h2 i err m flags, valid c /\ reachable c s /\ log s = h1 ++ Fed (PSock n) r :: h2
  /\ interest_of (PSock n) h1 = Some (i, err, m) /\ last_done n h1 = Some (BDone, flags) /\ Removed (PSock n) ∉ h1
  /\ intersects flags AFD_LOCAL_CLOSE = false /\ ev_writable i = true /\ flags = AFD_ABORT.
Proof.
  sees log cfg 2 demo1 s H R X. clear H. eexists cfg, s, 2, (take 17 (log s)), _, _, _, _, _, _. ok. split; [done|]. rewrite X. cbn [take]. split; [reflexivity|]. split; [reflexivity|].
  split; [reflexivity|]. split; [not_in_list|]. split_and!; reflexivity.
Qed.
Example C84_waitables_case : exists c s n h1 r h2, valid c /\ reachable c s /\ log s = h1 ++ Fed (PWait n) r :: h2.
Proof. sees log cfg 2 quiet_removal s H R X. clear H. eexists cfg, s, 0, (take 8 (log s)), _, _. ok. split; [done|]. rewrite X. cbn [take]. reflexivity. Qed.

Print Assumptions C19_not_early.
Print Assumptions C19_no_deadline.
Print Assumptions C52_one_request.
Print Assumptions C52_request_buffer.
Print Assumptions C52_buffer_kept.
Print Assumptions C53_not_forgotten.
Print Assumptions C53_update_installs.
Print Assumptions C53_call_arms.
Print Assumptions C54_blocked_partial.
Print Assumptions C54_refuted.
Print Assumptions C55_only_asked.
Print Assumptions C55_justified.
Print Assumptions C55_oneshot.
Print Assumptions C56_none_after_removal.
Print Assumptions C56_after_delete_partial.
Print Assumptions C56_refuted.
Print Assumptions C56_unknown.
Print Assumptions C57_after_removal_partial.
Print Assumptions C57_refuted.
Print Assumptions C58_sockets_partial.
Print Assumptions C58_refuted.
Print Assumptions C59_cancel_partial.
Print Assumptions C59_refuted.
Print Assumptions C60_processed_partial.
Print Assumptions C60_accounted_partial.
Print Assumptions C60_at_most_once.
Print Assumptions C60_refuted.
Print Assumptions C61_only_closed_partial.
Print Assumptions C61_asked_only_partial.
Print Assumptions C61_deadlock_refuted.
Print Assumptions C61_panic_refuted.
Print Assumptions C61_other_refuted.
Print Assumptions C62_exact_count.
Print Assumptions C62_no_use_after_free.
Print Assumptions C62_leaks.
Print Assumptions C62_freed.
Print Assumptions C64_not_lost.
Print Assumptions C65_exactly_once.
Print Assumptions C65_conserved.
Print Assumptions C65_value.
Print Assumptions C65_value_kept.
Print Assumptions C65_calls.
Print Assumptions C81_mode_partial.
Print Assumptions C81_exists_partial.
Print Assumptions C81_refuted.
Print Assumptions C82_refused_partial.
Print Assumptions C82_refuted.
Print Assumptions C83_recovers_partial.
Print Assumptions C83_posts_partial.
Print Assumptions C83_refuted.
Print Assumptions C84_sockets.
Print Assumptions C84_readable.
Print Assumptions C84_writable.
Print Assumptions C84_waitables.
Print Assumptions C13_iocp_refuted.
Print Assumptions C13_iocp_partial.
Print Assumptions C48_iocp_refuted.
