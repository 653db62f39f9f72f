(** C118 on kqueue: a wait() with a zero timeout returns by itself; one without a timeout returns only with an event. *)
From stdpp Require Import prelude list gmap.
From Verif Require Import Bits Types EventModel KqueueModel KqueueSpec KqueueProofs7 KqueueProps.
Local Open Scope nat_scope.

(** The kernel always has an answer: what there is to report, as far as it fits. *)
Definition to_report (k : kernel) : list kq_filter := List.filter (reportable k) (map_to_list (notes k)).*1.
Lemma answer k max : may_report k max (take max (to_report k)) = true.
Proof.
  assert (ND : NoDup (to_report k)).
  { unfold to_report. apply NoDup_ListNoDup, List.NoDup_filter, NoDup_ListNoDup, NoDup_fst_map_to_list. }
  unfold may_report. rewrite !andb_true_iff. split_and!.
  - apply bool_decide_eq_true. rewrite <- (take_drop max (to_report k)) in ND. by apply NoDup_app in ND as [ND _].
  - apply forallb_forall. intros f Hf. apply elem_of_list_In, elem_of_take in Hf as (i & Hf & _).
    apply elem_of_list_lookup_2, elem_of_list_In in Hf. by apply filter_In in Hf as [_ Hf].
  - apply bool_decide_eq_true. rewrite take_length. lia.
  - apply orb_true_iff. rewrite !bool_decide_eq_true, take_length.
    destruct (decide (max <= length (to_report k))) as [L|L]; [left; lia|right].
    intros f n Hf R. rewrite take_ge by lia. apply elem_of_list_In, filter_In. split; [|done].
    apply elem_of_list_In, elem_of_list_fmap. exists (f, n). split; [done|]. by apply elem_of_map_to_list.
Qed.

(** Arming the notifier again succeeds if the system has no fault of its own. *)
Lemma pair_ok ks k fd : check_receipts (receipts (kevent ks k (pair_changes fd) []).1) = Ok tt.
Proof.
  unfold pair_changes, fd_changes. cbn [kevent head tail default ev_readable ev_writable ev_key].
  assert (A : exists k1, register ks k (Change (FRead fd) (kqueue_change_flags true Oneshot) (key_to_u64 NOTIFY_KEY) 0 false) None = (None, k1)).
  { unfold register. cbn [ch_filter ch_flags ch_trigger ch_udata ch_param].
    replace (intersects (kqueue_change_flags true Oneshot) EV_DELETE) with false by (vm_compute; reflexivity).
    replace (intersects (kqueue_change_flags true Oneshot) EV_ADD) with true by (vm_compute; reflexivity).
    destruct (notes k !! FRead fd); by eexists. }
  destruct A as [k1 ->].
  assert (B : exists a k2, register ks k1 (Change (FWrite fd) (kqueue_change_flags false Oneshot) (key_to_u64 NOTIFY_KEY) 0 false) None = (a, k2)
    /\ (a = None \/ a = Some ENOENT)).
  { unfold register. cbn [ch_filter ch_flags ch_trigger ch_udata ch_param].
    replace (intersects (kqueue_change_flags false Oneshot) EV_DELETE) with true by (vm_compute; reflexivity).
    destruct (notes k1 !! FWrite fd); eauto 10. }
  destruct B as (a & k2 & -> & [->| ->]); vm_compute; reflexivity.
Qed.

(** The rest of the wait(), once the kernel has answered. *)
Lemma rest c s : wait s = (match noti c with UserEvent => WRet | SocketPair _ => WDrain end) ->
  (forall fd, noti c = SocketPair fd -> SFd fd ∈ sources s) ->
  exists n s' d, n <= 4 /\ run c s (repeat (LWaitGo []) n) = Some s' /\ wait s' = Out
    /\ log s' = log s ++ d ++ [WaitOk] /\ (d = [] \/ exists a, d = [Rearmed a]).
Proof.
  intros W I. destruct (noti c) as [|fd] eqn:N.
  - eexists 1, _, []. split; [lia|]. cbn [repeat run step]. unfold wait_step. rewrite W. split; [done|]. split; [done|]. split; [done|]. by left.
  - specialize (I fd eq_refl).
    assert (E1 : exists s1, step c s (LWaitGo []) = Some s1 /\ log s1 = log s /\ wait s1 = WHas /\ sources s1 = sources s).
    { cbn [step]. unfold wait_step. rewrite W, N. by eexists. }
    destruct E1 as (s1 & E1 & L1 & W1 & S1).
    assert (E2 : exists s2, step c s1 (LWaitGo []) = Some s2 /\ log s2 = log s1 /\ wait s2 = WSubmit).
    { cbn [step]. unfold wait_step. rewrite W1, N, decide_True by (by rewrite S1). by eexists. }
    destruct E2 as (s2 & E2 & L2 & W2).
    assert (E3 : exists s3 a, step c s2 (LWaitGo []) = Some s3 /\ log s3 = log s2 ++ [Rearmed a] /\ wait s3 = WRet).
    { cbn [step]. unfold wait_step. rewrite W2, N. pose proof (pair_ok (keeps c) (kern s2) fd) as P.
      destruct (kevent (keeps c) (kern s2) (pair_changes fd) []) as [a k]. cbn [fst] in P. rewrite P. by eexists _, a. }
    destruct E3 as (s3 & a & E3 & L3 & W3).
    assert (E4 : exists s4, step c s3 (LWaitGo []) = Some s4 /\ log s4 = log s3 ++ [WaitOk] /\ wait s4 = Out).
    { cbn [step]. unfold wait_step. rewrite W3. by eexists. }
    destruct E4 as (s4 & E4 & L4 & W4).
    exists 4, s4, [Rearmed a]. split; [lia|]. cbn [repeat run]. rewrite E1, E2, E3, E4. split; [done|]. split; [done|].
    split; [rewrite L4, L3, L2, L1; by rewrite <- app_assoc|]. right. by exists a.
Qed.

(** A wait() with a zero timeout that is started in any state where no other one is running returns Ok after the kernel has answered
    at once and at most four more steps of its own, without anything else having to happen.  The kernel reports what is ready, as far
    as it fits. *)
Theorem C118_kqueue_zero_returns c excl s max :
  reachable c excl s -> wait s = Out ->
  exists fs n s' d b, n <= 4 /\ run c s (LWait false max :: LReport fs :: repeat (LWaitGo []) n) = Some s' /\ wait s' = Out
    /\ log s' = log s ++ WaitBegun :: Reported b :: d ++ [WaitOk] /\ (d = [] \/ exists a, d = [Rearmed a])
    /\ length b = Nat.min max (length (to_report (kern s))).
Proof.
  intros R W. set (fs := take max (to_report (kern s))).
  set (s1 := emit (set_wait s (WPoll false max)) WaitBegun).
  assert (E1 : step c s (LWait false max) = Some s1) by (cbn [step]; by rewrite W).
  set (b := map (fun f => to_event (report_of (kern s) f)) fs).
  set (s2 := emit (set_wait (set_kern s1 (foldl consume (kern s1) fs)) (match noti c with UserEvent => WRet | SocketPair _ => WDrain end)) (Reported b)).
  assert (E2 : step c s1 (LReport fs) = Some s2).
  { cbn [step]. change (wait s1) with (WPoll false max). change (kern s1) with (kern s). cbv iota. unfold fs at 1. rewrite answer. done. }
  destruct (rest c s2) as (n & s' & d & H1 & H2 & H3 & H4 & H5).
  { done. }
  { intros fd N. change (sources s2) with (sources s). by eapply own_inside. }
  exists fs, n, s', d, b. split; [done|]. cbn [run]. rewrite E1, E2. split; [done|]. split; [done|]. split; [|split; [done|]].
  - rewrite H4. change (log s2) with ((log s ++ [WaitBegun]) ++ [Reported b]). by rewrite <- !app_assoc.
  - unfold b, fs. by rewrite map_length, take_length.
Qed.
(** A wait() without a timeout comes back from the kernel only with an event. *)
Theorem C118_kqueue_waits_for_event c s max fs s' b :
  wait s = WPoll true max -> step c s (LReport fs) = Some s' -> log s' = log s ++ [Reported b] -> b <> [].
Proof.
  intros W E L. cbn [step] in E. rewrite W in E. destruct (may_report _ _ _ && _) eqn:M; [|done]. injection E as <-.
  cbn in L. apply app_inv_head in L. injection L as <-. apply andb_true_iff in M as [_ M]. by destruct fs.
Qed.

(** Two sources are ready, no wait() is running. *)
Example C118_kqueue_case : exists c s, reachable c true s /\ wait s = Out /\ length (to_report (kern s)) = 2.
Proof.
  exists freebsd.
  runs freebsd true 1 (do_add 0 10 (ev 7 true false) Level [None] ++ do_add 0 11 (ev 8 true false) Oneshot [None] ++
    [LHappen (FRead 10) (Some 0%N) true; LHappen (FRead 11) (Some 0%N) true]) s Hr Hl E.
  exists s. split; [done|]. gets E wait Out H1. gets E (fun s => length (to_report (kern s))) 2 H2. done.
Qed.
Example C118_kqueue_pair_case : exists s, reachable netbsd true s /\ wait s = Out /\ noti netbsd = SocketPair 5 /\ length (to_report (kern s)) = 1.
Proof.
  runs netbsd true 1 (do_add 0 10 (ev 7 true false) Level [None] ++ [LHappen (FRead 10) (Some 0%N) true]) s Hr Hl E.
  exists s. split; [done|]. gets E wait Out H1. gets E (fun s => length (to_report (kern s))) 1 H2. done.
Qed.
Example C118_kqueue_waits_case : exists c s fs s', reachable c true s /\ wait s = WPoll true 8 /\ step c s (LReport fs) = Some s'.
Proof.
  exists freebsd.
  runs freebsd true 1 (do_add 0 10 (ev 7 true false) Level [None] ++ [LHappen (FRead 10) (Some 0%N) true; LWait true 8]) s Hr Hl E.
  exists s, [FRead 10]. gets E wait (WPoll true 8) H1.
  gets E (fun s => may_report (kern s) 8 [FRead 10]) true H2. eexists. split; [exact Hr|]. split; [exact H1|].
  cbn [step]. rewrite H1, H2. cbn [negb andb]. rewrite bool_decide_false by discriminate. reflexivity.
Qed.

Print Assumptions C118_kqueue_zero_returns.
Print Assumptions C118_kqueue_waits_for_event.
