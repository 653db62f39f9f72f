(** Calls around a completion port return: C94 and the second half of C64. *)
From stdpp Require Import prelude list gmap.
From Verif Require Import Bits Types EventModel Pool IocpModel IocpSpec IocpProofs10 IocpLiveSpec IocpLive IocpRuns.
Local Open Scope nat_scope.

(** ** C94: every call returns *)
(** In every history with [n] threads and one that waits: at most 4 n + 36 steps of calls for each thing that comes
    from outside. *)
Theorem C94_bounded c n a e s : valid c -> goes c (init n) a e s -> a <= (4 * n + 36) * e.
Proof.
  intros V G. destruct (goes_work _ _ _ _ _ V (reach_init _ _) G) as [_ W].
  assert (Z : forall N, sum_list_with (t_work N true) (replicate n Out) = 0) by (intros N; clear; induction n; [done|by cbn]).
  assert (Z2 : work (init n) = 0) by (unfold work, work_of; cbn -[w_queue w_pend replicate]; rewrite Z; cbn; lia).
  rewrite Z2 in W. cbn [threads init] in W. rewrite replicate_length in W. unfold grant, w_queue, w_batch, w_upd, w_pend in W. lia.
Qed.
(** From any moment on, if nothing more comes from outside: the calls make a bounded number of steps, in whatever order, and
    one of them can always make one until all have returned, except for a wait() that waits at an empty port. *)
Theorem C94_calls_return c s : valid c -> reachable c s ->
  exists b, forall a s', goes c s a 0 s' -> a <= b /\ (resting s' \/ exists l s2, own l = true /\ legal s' l /\ step c s' l = Some s2).
Proof.
  intros V R. exists (work s). intros a s' G. destruct (goes_work _ _ _ _ _ V R G) as [_ W]. split; [lia|]. apply rests_or_goes. by eapply goes_reachable.
Qed.
Theorem C94_comes_to_rest c s : valid c -> reachable c s -> exists a s', goes c s a 0 s' /\ resting s'.
Proof. apply comes_to_rest. Qed.
(** ** C64: a notified wait() returns *)
(** When a notification is due (C64_not_lost) to a running wait(), and the calls have come to rest, it has returned; unless
    posting the notification was refused (C83) or AFD has reported the local close (C61). *)
Theorem C64_notified_wait_returns c s a e s' : reachable c s -> waiter s <> WOut -> notify_due (log s) -> no_wait_failed (log s) ->
  goes c s a e s' -> resting s' -> Fault PWake ∉ log s' ->
  (exists r evs d, log s' = log s ++ d /\ WaitRet r evs ∈ d) \/ exists n b e, Done n b e ∈ log s' /\ intersects e AFD_LOCAL_CLOSE = true.
Proof. apply due_returns. Qed.

(** Cases: two threads register sockets while the queue of updates is full, and a notification ends the wait. *)
Fixpoint count_own (ls : list label) : nat := match ls with [] => 0 | l :: r => (if own l then 1 else 0) + count_own r end.
Fixpoint count_out (ls : list label) : nat := match ls with [] => 0 | l :: r => (if own l then 0 else 1) + count_out r end.
Lemma go_goes c ls : forall s s1 a e s', goes c s a e s1 -> go c s1 ls = Some s' -> goes c s (a + count_own ls) (e + count_out ls) s'.
Proof.
  induction ls as [|l ls IH]; intros s s1 a e s' G H; cbn [go] in H.
  - injection H as <-. by rewrite !Nat.add_0_r.
  - destruct (legalb s1 l) eqn:L; [|done]. destruct (step c s1 l) as [s2|] eqn:E; [|done]. cbn [count_own count_out]. apply legalb_sound in L.
    destruct (own l) eqn:O.
    + replace (a + (1 + count_own ls)) with (S a + count_own ls) by lia. eapply IH; [|done]. by eapply goes_own.
    + replace (e + (1 + count_out ls)) with (S e + count_out ls) by lia. eapply IH; [|done]. by eapply goes_out.
Qed.
(** A thread has to make room in the queue of updates, which holds one. *)
Definition filling : list label := add 0 5 (rd 7) Oneshot ++ [by_ 1 (CAdd 6 (rd 8) Oneshot); t 1; t 1; t 1; t 1; t 1].
Example C94_case : exists c s, valid c /\ goes c (init 2) 10 2 s /\ reachable c s /\ threads s = [Out; Upd (CAdd 6 (rd 8) Oneshot) (PSock 1) (UDrainDo 0 (PSock 0))].
Proof.
  sees threads (Config 1) 2 filling s H R X. exists (Config 1), s. split; [unfold valid; cbn; lia|]. split; [|by split].
  exact (go_goes _ _ _ _ _ _ _ (goes_not _ _) H).
Qed.
Lemma goes_two {A B} (f : state -> A) (g : state -> B) c n l1 l2 x y :
  seen f c n l1 = Some x -> seen g c n (l1 ++ l2) = Some y ->
  exists s s', reachable c s /\ goes c s (count_own l2) (count_out l2) s' /\ f s = x /\ g s' = y.
Proof.
  intros H1 H2. apply seen_reach in H1 as (s & E & R & Hx). apply seen_reach in H2 as (s' & E' & _ & Hy).
  apply go_app in E' as (s1 & E1 & E2). assert (s1 = s) as -> by congruence. exists s, s'. split_and!; try done. exact (go_goes _ _ _ _ _ _ _ (goes_not _ _) E2).
Qed.
(** The wait that a notification ends (C64_case), with the steps it makes until it has returned. *)
Definition woken_end : list label := [got; w] ++ feed_plain ++ finish.
Example C64_returns_case : exists c s s', valid c /\ reachable c s /\ waiter s <> WOut /\ notify_due (log s) /\ no_wait_failed (log s) /\
  goes c s 6 0 s' /\ resting s' /\ Fault PWake ∉ log s'.
Proof.
  let x := eval vm_compute in (seen (fun s => (waiter s, log s)) cfg 2 woken) in
  let y := eval vm_compute in (seen (fun s => (waiter s, log s, threads s)) cfg 2 (woken ++ woken_end)) in
  match x with Some ?h => match y with Some ?h' =>
    destruct (goes_two (fun s => (waiter s, log s)) (fun s => (waiter s, log s, threads s)) cfg 2 woken woken_end h h') as (s & s' & R & G & X & Y); [vm_compute; reflexivity|vm_compute; reflexivity|]
  end end.
  injection X as X1 X2. injection Y as Y1 Y2 Y3.
  exists cfg, s, s'. split; [unfold valid; cbn; lia|]. split; [done|]. rewrite X1, X2. split; [done|]. split; [reflexivity|]. split; [intros e evs; not_in_list|].
  split; [exact G|]. unfold resting. rewrite Y1, Y2, Y3. split; [split; [|done]|not_in_list].
  intros [|[|i]] q H; cbn in H; by simplify_eq.
Qed.
Print Assumptions C94_bounded.
Print Assumptions C94_calls_return.
Print Assumptions C94_comes_to_rest.
Print Assumptions C64_notified_wait_returns.
