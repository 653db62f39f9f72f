(** Theorems about notify() and wait() on epoll, kqueue and event ports: C07-C12, C14. *)
From stdpp Require Import prelude list.
From Verif Require Import Pool NotifyModel NotifySpec NotifyProofs NotifyLive.

(** Steps of a concrete schedule reach a reachable state. *)
Lemma run_reachable c s ls s' : reachable c s -> run c s ls = Some s' -> reachable c s'.
Proof.
  revert s. induction ls as [|l ls IH]; simpl; intros s H Hr; [by simplify_eq|].
  destruct (step c s l) eqn:E; [|done]. eapply IH; [|done]. by econstructor.
Qed.
Definition faultless (ls : list label) : bool :=
  forallb (fun l => match l.2 with Fault _ => false | _ => true end) ls.
Lemma run_reachable_ok c s ls s' :
  reachable_ok c s -> faultless ls = true -> run c s ls = Some s' -> reachable_ok c s'.
Proof.
  revert s. induction ls as [|l ls IH]; simpl; intros s H Hf Hr; [by simplify_eq|].
  apply andb_prop in Hf as [Hl Hf].
  destruct (step c s l) eqn:E; [|done]. eapply IH; [|done|done]. econstructor; eauto.
  intros (e & He & _). by rewrite He in Hl.
Qed.
Lemma run_later_ok c s0 s ls s' :
  later_ok c s0 s -> faultless ls = true -> run c s ls = Some s' -> later_ok c s0 s'.
Proof.
  revert s. induction ls as [|l ls IH]; simpl; intros s H Hf Hr; [by simplify_eq|].
  apply andb_prop in Hf as [Hl Hf].
  destruct (step c s l) eqn:E; [|done]. eapply IH; [|done|done]. econstructor; eauto.
  intros (e & He & _). by rewrite He in Hl.
Qed.

Fixpoint run_safe (c : config) (s : state) (ls : list label) : option state :=
  match ls with
  | [] => Some s
  | l :: r =>
      match l.2, threads s !! l.1 with
      | Fault _, Some NSys | Fault _, Some WRearm => None
      | _, _ => match step c s l with Some s' => run_safe c s' r | None => None end
      end
  end.
Lemma run_harmless c s ls s' :
  reachable_ok c s -> run_safe c s ls = Some s' -> reachable_ok c s'.
Proof.
  revert s. induction ls as [|l ls IH]; simpl; intros s H Hr; [by simplify_eq|].
  destruct (step c s l) as [s1|] eqn:E; [|by destruct (l.2), (threads s !! l.1) as [[]|]].
  eapply IH; [|by destruct (l.2), (threads s !! l.1) as [[]|]].
  econstructor; eauto. intros (e & He & [Ht|Ht]); by rewrite He, Ht in Hr.
Qed.

Definition cfg (k : notifier) : config := Config k 3 2.
Lemma cfg_wf k : wf_config (cfg k). Proof. split; simpl; lia. Qed.

(** ** C07 *)
Theorem C07_at_most_one_waiter :
  forall c s i j p q,
    reachable c s -> threads s !! i = Some p -> threads s !! j = Some q ->
    waiting p -> waiting q -> i = j.
Proof.
  intros c s i j p q Hr Hi Hj Hp Hq. apply holds_waiting in Hp, Hq.
  exact (unique_holder c s i j p q Hr Hi Hj Hp Hq).
Qed.
Print Assumptions C07_at_most_one_waiter.

(** A wait that finds another one in progress can only return at once, changing nothing. *)
Theorem C07_contended_wait_returns_at_once :
  forall c s i j p a s',
    reachable c s -> threads s !! j = Some p -> waiting p -> threads s !! i = Some WTry ->
    step c s (i, a) = Some s' ->
    flag s' = flag s /\ tokens s' = tokens s /\ armed s' = armed s /\ lock s' = lock s /\
    threads s' = <[i:=Idle]> (threads s) /\ log s' = log s ++ [WaitContended i].
Proof.
  intros c s i j p a s' Hr Hj Hw Hi Hs.
  rewrite (contended c s i j p (i, a) s' Hr Hj Hw Hi eq_refl Hs). done.
Qed.
Print Assumptions C07_contended_wait_returns_at_once.

(** Conversely, a wait that does not find another one in progress takes the lock. *)
Theorem C07_uncontended_wait_proceeds :
  forall c s i,
    reachable c s -> (forall j p, threads s !! j = Some p -> ~ waiting p) ->
    threads s !! i = Some WTry ->
    exists s', step c s (i, Go) = Some s' /\ threads s' !! i = Some WPre.
Proof. exact uncontended. Qed.
Print Assumptions C07_uncontended_wait_proceeds.

Example C07_nonvacuous :
  exists s, reachable (cfg EpollEventfd) s /\ threads s !! 0 = Some WKern /\
    threads s !! 1 = Some WTry /\
    exists s', step (cfg EpollEventfd) s (1, Go) = Some s' /\ log s' = log s ++ [WaitContended 1].
Proof.
  eexists. split.
  - eapply (run_reachable _ (init 2) [(0,CallWait);(0,Go);(0,Go);(1,CallWait)]);
      [constructor|vm_compute; reflexivity].
  - repeat split. eexists. split; vm_compute; reflexivity.
Qed.

(** ** C08, C09, C10: no lost notification *)
Theorem C08_epoll_notify_not_lost :
  forall c s i, kind_of c = EpollEventfd \/ kind_of c = EpollPipe -> wf_config c ->
    reachable_ok c s -> owed (log s) -> blocked_in_kernel s i ->
    kernel_ready (kind_of c) s = true \/ exists j, about_to_kick s j.
Proof. exact (fun c s i _ => not_lost c s i). Qed.
Print Assumptions C08_epoll_notify_not_lost.

(** The thread still inside notify can always finish waking the kernel; on a full pipe the
    kernel wait is already ready. *)
Theorem C08_kick_can_complete :
  forall c s j, wf_config c -> about_to_kick s j ->
    (exists s', step c s (j, Go) = Some s' /\ 0 < tokens s') \/
    (kind_of c = EpollPipe /\ 0 < tokens s).
Proof. exact kick_progress. Qed.
Print Assumptions C08_kick_can_complete.

(** When the kernel wait is ready it can return the notification. *)
Theorem C08_ready_wait_can_return :
  forall c s i, kernel_ready (kind_of c) s = true -> blocked_in_kernel s i ->
    exists s', step c s (i, KRet 1) = Some s' /\ threads s' !! i = Some (after_kernel (kind_of c)).
Proof. exact ready_returns. Qed.
Print Assumptions C08_ready_wait_can_return.

(** However the calls under way are scheduled, they make a bounded number of steps, and when they can make no more the
    wait that was owed the notification has returned.  (The pipe must have room for one byte per thread: it has 4096 at
    least.) *)
Theorem C08_calls_are_bounded :
  forall c s k s', wf_config c -> going_on c k s s' -> k <= 8 * length (threads s) + tokens s.
Proof. intros c s k s' W G. pose proof (going_bound c k s s' W G). pose proof (work_le (threads s)). lia. Qed.
Print Assumptions C08_calls_are_bounded.
Theorem C08_calls_come_to_rest :
  forall c s, wf_config c -> reachable_ok c s -> (kind_of c = EpollPipe -> length (threads s) < pipe_cap c) ->
    (exists k s', going_on c k s s' /\ at_rest c s') /\
    (forall k s', going_on c k s s' -> at_rest c s' -> forall i p, threads s' !! i = Some p ->
       p = Idle \/ (p = WKern /\ kernel_ready (kind_of c) s' = false)).
Proof.
  intros c s W R C. split; [by apply comes_to_rest|]. intros k s' G A. apply (rest_pcs c s' W); [|by rewrite (going_threads _ _ _ _ G)|done].
  apply reachable_ok_reachable. by eapply going_reach.
Qed.
Print Assumptions C08_calls_come_to_rest.
Theorem C08_notified_wait_returns :
  forall c s i k s', kind_of c = EpollEventfd \/ (kind_of c = EpollPipe /\ length (threads s) < pipe_cap c) -> wf_config c ->
    reachable_ok c s -> owed (log s) -> blocked_in_kernel s i -> going_on c k s s' -> at_rest c s' ->
    exists h, log s' = log s ++ h /\ WaitOk i ∈ h.
Proof. intros c s i k s' K W R. apply (notified_wait_returns c s i k s' W R). intros E. destruct K as [K|[_ K]]; [congruence|done]. Qed.
Print Assumptions C08_notified_wait_returns.
Theorem C09_notified_wait_returns :
  forall c s i k s', kind_of c = KqUser \/ kind_of c = KqPipe -> wf_config c ->
    reachable_ok c s -> owed (log s) -> blocked_in_kernel s i -> going_on c k s s' -> at_rest c s' ->
    exists h, log s' = log s ++ h /\ WaitOk i ∈ h.
Proof. intros c s i k s' K W R. apply (notified_wait_returns c s i k s' W R). intros E. destruct K as [K|K]; congruence. Qed.
Print Assumptions C09_notified_wait_returns.
Theorem C10_notified_wait_returns :
  forall c s i k s', kind_of c = EvPort -> wf_config c ->
    reachable_ok c s -> owed (log s) -> blocked_in_kernel s i -> going_on c k s s' -> at_rest c s' ->
    exists h, log s' = log s ++ h /\ WaitOk i ∈ h.
Proof. intros c s i k s' K W R. apply (notified_wait_returns c s i k s' W R). intros E. congruence. Qed.
Print Assumptions C10_notified_wait_returns.

Theorem C09_kqueue_notify_not_lost :
  forall c s i, kind_of c = KqUser \/ kind_of c = KqPipe -> wf_config c ->
    reachable_ok c s -> owed (log s) -> blocked_in_kernel s i ->
    kernel_ready (kind_of c) s = true \/ exists j, about_to_kick s j.
Proof. exact (fun c s i _ => not_lost c s i). Qed.
Print Assumptions C09_kqueue_notify_not_lost.

Theorem C10_port_notify_not_lost :
  forall c s i, kind_of c = EvPort -> wf_config c ->
    reachable_ok c s -> owed (log s) -> blocked_in_kernel s i ->
    kernel_ready (kind_of c) s = true \/ exists j, about_to_kick s j.
Proof. exact (fun c s i _ => not_lost c s i). Qed.
Print Assumptions C10_port_notify_not_lost.

(** A notify before the wait and one during the wait, on every notifier. *)
Lemma owed_app h i h2 h3 :
  NotifyCall i ∉ h2 -> (forall j, WaitOk j ∉ h2 ++ h3) ->
  owed (h ++ NotifyCall i :: h2 ++ NotifyOk i :: h3).
Proof. intros H1 H2. by exists h, i, h2, h3. Qed.

Example C08_C09_C10_nonvacuous :
  forall k, exists s, reachable_ok (cfg k) s /\ owed (log s) /\ blocked_in_kernel s 1 /\
    kernel_ready k s = true /\ length (log s) = 6.
Proof.
  intros k. eexists. split; [|split; [|split; [|split]]].
  - eapply (run_reachable_ok _ (init 2)
      [(1,CallWait);(1,Go);(1,Go);(0,CallNotify);(0,Go);(0,Go);(0,Go);(0,CallNotify);(0,Go);(0,Go)]);
      [constructor|done|destruct k; vm_compute; reflexivity].
  - simpl. apply (owed_app [WaitCall 1] 0 [Kick 0] [NotifyCall 0; NotifyOk 0]); set_solver.
  - done.
  - by destruct k.
  - done.
Qed.

Example C09_nonvacuous : forall k, k = KqUser \/ k = KqPipe -> exists s, kind_of (cfg k) = k /\ reachable_ok (cfg k) s /\ owed (log s) /\ blocked_in_kernel s 1.
Proof. intros k _. destruct (C08_C09_C10_nonvacuous k) as (s & R & O & B & _). by exists s. Qed.
Example C10_nonvacuous : exists s, kind_of (cfg EvPort) = EvPort /\ reachable_ok (cfg EvPort) s /\ owed (log s) /\ blocked_in_kernel s 1.
Proof. destruct (C08_C09_C10_nonvacuous EvPort) as (s & R & O & B & _). by exists s. Qed.

(** From there some steps lead to rest. *)
Example C08_returns_case :
  forall k, exists s k' s', reachable_ok (cfg k) s /\ owed (log s) /\ blocked_in_kernel s 1 /\ length (threads s) < pipe_cap (cfg k) /\
    going_on (cfg k) (S k') s s' /\ at_rest (cfg k) s'.
Proof.
  intros k.
  destruct (run (cfg k) (init 2) [(1,CallWait);(1,Go);(1,Go);(0,CallNotify);(0,Go);(0,Go);(0,Go);(0,CallNotify);(0,Go);(0,Go)]) as [z|] eqn:E;
    [|destruct k; vm_compute in E; discriminate E].
  assert (Rz : reachable_ok (cfg k) z) by (refine (run_reachable_ok _ _ _ _ _ _ E); [constructor|done]).
  assert (F : (log z, threads z !! 1, length (threads z)) = ([WaitCall 1; NotifyCall 0; Kick 0; NotifyOk 0; NotifyCall 0; NotifyOk 0], Some WKern, 2)).
  { destruct k; vm_compute in E; injection E as <-; reflexivity. }
  injection F as F1 F2 F3. clear E.
  assert (Oz : owed (log z)) by (rewrite F1; apply (owed_app [WaitCall 1] 0 [Kick 0] [NotifyCall 0; NotifyOk 0]); set_solver).
  destruct (comes_to_rest (cfg k) z (cfg_wf k)) as (k2 & z' & G2 & A2).
  exists z. destruct k2 as [|k2].
  - exfalso. inversion G2; subst. assert (Lz : kind_of (cfg k) = EpollPipe -> length (threads z') < pipe_cap (cfg k)) by (intros _; rewrite F3; cbn; lia).
    destruct (notified_wait_returns (cfg k) z' 1 0 z' (cfg_wf k) Rz Lz Oz F2 G2 A2) as (h & H & W).
    apply (f_equal length) in H. rewrite app_length in H. destruct h; [by apply not_elem_of_nil in W|cbn in H; lia].
  - exists k2, z'. split_and!; try done. rewrite F3. cbn. lia.
Qed.

(** ** C11: after a failed notify *)
(** Refuted: port_send failed once (src/port.rs:147); the flag set at src/lib.rs:792 stays
    set, so the next notify() returns Ok without waking anyone, and a wait() stays blocked. *)
Theorem C11_failed_notify_silences_later_refuted :
  exists s, reachable (cfg EvPort) s /\ NotifyErr 0 ∈ log s /\ owed (log s) /\
    blocked_in_kernel s 1 /\ kernel_ready EvPort s = false /\ no_notify_in_progress s.
Proof.
  eexists. split; [|split; [|split; [|split; [|split]]]].
  - eapply (run_reachable _ (init 2)
      [(0,CallNotify);(0,Go);(0,Fault false);(0,Go);(0,CallNotify);(0,Go);(0,Go);
       (1,CallWait);(1,Go);(1,Go)]); [constructor|vm_compute; reflexivity].
  - simpl. set_solver.
  - simpl. apply (owed_app [NotifyCall 0; NotifyErr 0] 0 [] [WaitCall 1]); set_solver.
  - done.
  - done.
  - intros [|[|i]] p Hp; simplify_eq/=; repeat split; done.
Qed.
Print Assumptions C11_failed_notify_silences_later_refuted.

(** The same with a failed EVFILT_USER trigger, whose error src/kqueue.rs:262 discards. *)
Theorem C11_failed_trigger_silences_later_refuted :
  exists s ls s0, run (cfg KqUser) (init 2) ls = Some s /\
    run (cfg KqUser) (init 2) (take 2 ls) = Some s0 /\ about_to_kick s0 0 /\
    ls !! 2 = Some (0, Fault false) /\
    owed (log s) /\ blocked_in_kernel s 1 /\ kernel_ready KqUser s = false /\
    no_notify_in_progress s.
Proof.
  eexists _, [(0,CallNotify);(0,Go);(0,Fault false);(0,Go);(0,CallNotify);(0,Go);(0,Go);
       (1,CallWait);(1,Go);(1,Go)], _.
  split; [vm_compute; reflexivity|]. split; [vm_compute; reflexivity|].
  split; [done|]. split; [done|]. split.
  { simpl. apply (owed_app [NotifyCall 0; NotifyOk 0] 0 [] [WaitCall 1]); set_solver. }
  repeat split; try done; destruct i as [|[|i]]; simplify_eq/=; done.
Qed.
Print Assumptions C11_failed_trigger_silences_later_refuted.

(** What holds: whatever failed before a moment when no call was in progress, once a wait()
    has returned Ok after that moment, notifications are again never lost. *)
Theorem C11_recovers_after_next_wait_partial :
  forall c s0 s i, wf_config c -> reachable c s0 -> quiet s0 -> later_ok c s0 s ->
    waits (log s0) < waits (log s) ->
    owed (log s) -> blocked_in_kernel s i ->
    kernel_ready (kind_of c) s = true \/ exists j, about_to_kick s j.
Proof. exact recovery. Qed.
Print Assumptions C11_recovers_after_next_wait_partial.

Example C11_partial_nonvacuous :
  exists s0 s, reachable (cfg EvPort) s0 /\ NotifyErr 0 ∈ log s0 /\ quiet s0 /\
    later_ok (cfg EvPort) s0 s /\ waits (log s0) < waits (log s) /\ owed (log s) /\
    blocked_in_kernel s 1 /\ kernel_ready EvPort s = true.
Proof.
  eexists _, _. split; [|split; [|split; [|split; [|split; [|split; [|split]]]]]].
  - eapply (run_reachable _ (init 2)
      [(0,CallNotify);(0,Go);(0,Fault false);(0,Go)]); [constructor|vm_compute; reflexivity].
  - simpl. set_solver.
  - intros [|[|i]] p Hp; simplify_eq/=; done.
  - eapply (run_later_ok _ _ _ [(1,CallWait);(1,Go);(1,Go);(1,KRet 0);(1,Go);(1,Go);
       (0,CallNotify);(0,Go);(0,Go);(0,Go);(1,CallWait);(1,Go);(1,Go)]);
      [constructor|done|vm_compute; reflexivity].
  - vm_compute. lia.
  - simpl. apply (owed_app [NotifyCall 0; NotifyErr 0; WaitCall 1; WaitOk 1] 0 [Kick 0]
      [WaitCall 1]); set_solver.
  - done.
  - done.
Qed.

(** ** C12: after a failed wait *)
(** Refuted: re-arming the notifier failed (src/epoll.rs:223-227, src/kqueue.rs:526-530)
    after the notification was consumed; wait() returns the error with the flag still set,
    later notify() calls do nothing. *)
Theorem C12_failed_wait_silences_later_refuted :
  forall k, k = EpollEventfd \/ k = EpollPipe \/ k = KqPipe ->
  exists s, reachable (cfg k) s /\ WaitError 1 ∈ log s /\ owed (log s) /\
    blocked_in_kernel s 1 /\ kernel_ready k s = false /\ no_notify_in_progress s.
Proof.
  intros k Hk. eexists. split; [|split; [|split; [|split; [|split]]]].
  - destruct Hk as [->|[->| ->]].
    + eapply (run_reachable _ (init 2)
        [(0,CallNotify);(0,Go);(0,Go);(0,Go);(1,CallWait);(1,Go);(1,Go);(1,KRet 1);(1,Go);
         (1,Fault false);(1,Go);(0,CallNotify);(0,Go);(0,Go);(1,CallWait);(1,Go);(1,Go)]);
        [constructor|vm_compute; reflexivity].
    + eapply (run_reachable _ (init 2)
        [(0,CallNotify);(0,Go);(0,Go);(0,Go);(1,CallWait);(1,Go);(1,Go);(1,KRet 1);(1,Go);(1,Go);
         (1,Fault false);(1,Go);(0,CallNotify);(0,Go);(0,Go);(1,CallWait);(1,Go);(1,Go)]);
        [constructor|vm_compute; reflexivity].
    + eapply (run_reachable _ (init 2)
        [(0,CallNotify);(0,Go);(0,Go);(0,Go);(1,CallWait);(1,Go);(1,Go);(1,KRet 1);(1,Go);(1,Go);
         (1,Fault false);(1,Go);(0,CallNotify);(0,Go);(0,Go);(1,CallWait);(1,Go);(1,Go)]);
        [constructor|vm_compute; reflexivity].
  - simpl. set_solver.
  - simpl. apply (owed_app [NotifyCall 0; Kick 0; NotifyOk 0; WaitCall 1; WaitError 1] 0 []
      [WaitCall 1]); set_solver.
  - done.
  - by destruct Hk as [->|[->| ->]].
  - intros [|[|i]] p Hp; simplify_eq/=; repeat split; done.
Qed.
Print Assumptions C12_failed_wait_silences_later_refuted.

(** What holds: a wait() that fails in any other way (setting up the timeout, or the kernel
    wait itself) silences nothing. *)
Theorem C12_other_wait_errors_harmless_partial :
  forall c s i j, wf_config c -> reachable_ok c s -> WaitError j ∈ log s ->
    owed (log s) -> blocked_in_kernel s i ->
    kernel_ready (kind_of c) s = true \/ exists j, about_to_kick s j.
Proof. exact (fun c s i j H H0 _ => not_lost c s i H H0). Qed.
Print Assumptions C12_other_wait_errors_harmless_partial.

(** And whatever failed, the next wait() that returns Ok repairs it. *)
Theorem C12_recovers_after_next_wait_partial :
  forall c s0 s i j, wf_config c -> reachable c s0 -> WaitError j ∈ log s0 -> quiet s0 ->
    later_ok c s0 s -> waits (log s0) < waits (log s) ->
    owed (log s) -> blocked_in_kernel s i ->
    kernel_ready (kind_of c) s = true \/ exists j, about_to_kick s j.
Proof. exact (fun c s0 s i j H H0 _ => recovery c s0 s i H H0). Qed.
Print Assumptions C12_recovers_after_next_wait_partial.

Example C12_partial_nonvacuous :
  exists s0 s, reachable (cfg EpollEventfd) s0 /\ WaitError 1 ∈ log s0 /\ quiet s0 /\
    later_ok (cfg EpollEventfd) s0 s /\ waits (log s0) < waits (log s) /\ owed (log s) /\
    blocked_in_kernel s 1 /\ kernel_ready EpollEventfd s = true.
Proof.
  eexists _, _. split; [|split; [|split; [|split; [|split; [|split; [|split]]]]]].
  - eapply (run_reachable _ (init 2)
        [(0,CallNotify);(0,Go);(0,Go);(0,Go);(1,CallWait);(1,Go);(1,Go);(1,KRet 1);(1,Go);
         (1,Fault false);(1,Go)]); [constructor|vm_compute; reflexivity].
  - simpl. set_solver.
  - intros [|[|i]] p Hp; simplify_eq/=; done.
  - eapply (run_later_ok _ _ _ [(1,CallWait);(1,Go);(1,Go);(1,KRet 0);(1,Go);(1,Go);(1,Go);(1,Go);
       (0,CallNotify);(0,Go);(0,Go);(0,Go);(1,CallWait);(1,Go);(1,Go)]);
      [constructor|done|vm_compute; reflexivity].
  - vm_compute. lia.
  - simpl. apply (owed_app [NotifyCall 0; Kick 0; NotifyOk 0; WaitCall 1; WaitError 1;
      WaitCall 1; WaitOk 1] 0 [Kick 0] [WaitCall 1]); set_solver.
  - done.
  - done.
Qed.

Example C12_other_nonvacuous :
  exists s, reachable_ok (cfg EpollPipe) s /\ WaitError 1 ∈ log s /\ owed (log s) /\
    blocked_in_kernel s 1.
Proof.
  eexists. split; [|split; [|split]].
  - eapply (run_harmless _ (init 2) [(1,CallWait);(1,Go);(1,Go);(1,Fault false);(1,Go);
      (0,CallNotify);(0,Go);(0,Go);(0,Go);(1,CallWait);(1,Go);(1,Go)]);
      [constructor|vm_compute; reflexivity].
  - simpl. set_solver.
  - simpl. apply (owed_app [WaitCall 1; WaitError 1] 0 [Kick 0] [WaitCall 1]); set_solver.
  - done.
Qed.

(** ** C14: coalescing *)
(** The platform is woken at most once per completed wait, plus at most two. *)
Theorem C14_wakeups_bounded_by_waits :
  forall c s, reachable c s -> kicks (log s) <= waits (log s) + 2.
Proof. exact coalesce. Qed.
Print Assumptions C14_wakeups_bounded_by_waits.

Theorem C14_wakeups_bounded_when_nobody_waits :
  forall c s, reachable c s -> (forall i p, threads s !! i = Some p -> ~ waiting p) ->
    kicks (log s) <= waits (log s) + 1.
Proof. exact coalesce_no_waiter. Qed.
Print Assumptions C14_wakeups_bounded_when_nobody_waits.

(** Any number of notify() calls between two waits, in any interleaving, leave exactly one
    wake-up pending; the wait() that reports it leaves nothing for the next one. *)
Theorem C14_one_wakeup_pending :
  forall c s0 s, wf_config c -> clean s0 -> only_notifies c s0 s -> quiet s ->
    (exists h i, log s = log s0 ++ h /\ NotifyOk i ∈ h) ->
    flag s = true /\ tokens s = 1 /\ kernel_ready (kind_of c) s = true.
Proof.
  intros c s0 s Hc Hcl Ho Hq Hn.
  destruct (coalesced c s0 s Hc Hcl Ho Hq Hn) as (Hf & Ht & Ha & _).
  repeat split; try done. unfold kernel_ready. by rewrite Ht, Ha.
Qed.
Print Assumptions C14_one_wakeup_pending.

Theorem C14_next_wait_not_woken :
  forall c s0 s i s1 s2, wf_config c -> clean s0 -> only_notifies c s0 s -> quiet s ->
    (exists h j, log s = log s0 ++ h /\ NotifyOk j ∈ h) ->
    step c s (i, CallWait) = Some s1 -> alone c i s1 s2 ->
    log s2 = log s ++ [WaitCall i; WaitOk i] ->
    clean s2 /\ kernel_ready (kind_of c) s2 = false.
Proof.
  intros c s0 s i s1 s2 H1 H2 H3 H4 H5 H6 H7 H8.
  pose proof (wait_alone c s0 s i s1 s2 H1 H2 H3 H4 H5 H6 H7 H8) as Hc.
  split; [done|]. by apply clean_not_ready.
Qed.
Print Assumptions C14_next_wait_not_woken.

Lemma run_only c s0 s ls s' :
  only_notifies c s0 s -> forallb (fun l => match l.2 with CallNotify | Go => true | _ => false end) ls = true ->
  run c s ls = Some s' -> only_notifies c s0 s'.
Proof.
  revert s. induction ls as [|l ls IH]; simpl; intros s H Hf Hr; [by simplify_eq|].
  apply andb_prop in Hf as [Hl Hf].
  destruct (step c s l) eqn:E; [|done]. eapply IH; [|done|done]. destruct l as [i a].
  econstructor; eauto. simpl in Hl.
  destruct a; auto; done.
Qed.

Example C14_nonvacuous :
  forall k, exists s, clean (init 3) /\ only_notifies (cfg k) (init 3) s /\ quiet s /\
    (exists h i, log s = log (init 3) ++ h /\ NotifyOk i ∈ h).
Proof.
  intros k. eexists. split; [|split; [|split]].
  - repeat split. intros [|[|[|i]]] p Hp; simplify_eq/=; done.
  - eapply (run_only _ _ (init 3)
      [(0,CallNotify);(1,CallNotify);(1,Go);(0,Go);(2,CallNotify);(0,Go);(1,Go);(1,Go);(2,Go);(2,Go)]);
      [constructor|done|destruct k; vm_compute; reflexivity].
  - intros [|[|[|i]]] p Hp; simplify_eq/=; done.
  - simpl. eexists _, 0. split; [done|]. set_solver.
Qed.
