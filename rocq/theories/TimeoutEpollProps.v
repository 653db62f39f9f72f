(** C118: on epoll a wait() with a zero timeout returns by itself; one that has to wait returns only with an event. *)
From stdpp Require Import prelude list gmap.
From Verif Require Import Bits Types EventModel EventSpec EventProofs EpollModel EpollSpec EpollProofs EpollProps.
Local Open Scope nat_scope.

(** The steps of the wait() that is running, each of which succeeds. *)
Definition by_itself (n : nat) : list label := repeat LGo n.

Lemma rearm_returns c s b : wf_config c -> reachable c s -> wait s = WRearm b ->
  exists s', run c s (by_itself 1) = Some s' /\ wait s' = Out /\ log s' = log s ++ [WaitOk].
Proof.
  intros Hc Hr W. destruct (iv_notifier _ _ (inv_reachable _ _ Hc Hr)) as (it & Hi & _).
  unfold by_itself. cbn [repeat run step]. rewrite W. unfold sys_modify, ctl_mod. rewrite Hi. eexists. by split.
Qed.
Lemma clear_returns c s b : wf_config c -> reachable c s -> wait s = WClear b ->
  exists s', run c s (by_itself 2) = Some s' /\ wait s' = Out /\ log s' = log s ++ [WaitOk].
Proof.
  intros Hc Hr W. assert (E : exists s1, step c s LGo = Some s1 /\ wait s1 = WRearm b /\ log s1 = log s).
  { cbn [step]. rewrite W. by eexists. }
  destruct E as (s1 & E & W1 & L1).
  assert (R1 : reachable c s1) by (by eapply reach_step; [exact Hr| |exact E]).
  destruct (rearm_returns c s1 b Hc R1 W1) as (s' & E' & W' & L'). exists s'. rewrite <- L1.
  split; [|done]. unfold by_itself in *. cbn [repeat run] in *. by rewrite E.
Qed.
Lemma poll_returns c s t max : wf_config c -> reachable c s -> wait s = WPoll t max ->
  t = Some false \/ t = Some true /\ timer c = None ->
  exists s' b, run c s (by_itself 3) = Some s' /\ wait s' = Out /\ log s' = log s ++ [Reported b; WaitOk].
Proof.
  intros Hc Hr W T. assert (E : exists s1 b, step c s LGo = Some s1 /\ wait s1 = WClear b /\ log s1 = log s ++ [Reported (map to_event b)]).
  { cbn [step]. rewrite W. destruct (epoll_wait (kern s) max) as [b k].
    assert (S : sleeps c t = false) by (by destruct T as [->|[-> T]]; unfold sleeps; [|rewrite T]).
    rewrite S. by eexists _, b. }
  destruct E as (s1 & b & E & W1 & L1).
  assert (R1 : reachable c s1) by (by eapply reach_step; [exact Hr| |exact E]).
  destruct (clear_returns c s1 b Hc R1 W1) as (s' & E' & W' & L'). exists s', (map to_event b).
  rewrite L1, <- app_assoc in L'. split; [|done]. unfold by_itself in *. cbn [repeat run] in *. by rewrite E.
Qed.
Lemma timer_returns c s t max fd : wf_config c -> reachable c s -> wait s = WTimer t max -> timer c = Some fd -> t = Some false ->
  exists s' b, run c s (by_itself 4) = Some s' /\ wait s' = Out /\ log s' = log s ++ [Reported b; WaitOk].
Proof.
  intros Hc Hr W F T. assert (E : exists s1, step c s LGo = Some s1 /\ wait s1 = WPoll t max /\ log s1 = log s).
  { destruct (iv_timer _ _ (inv_reachable _ _ Hc Hr) _ F) as (it & e & Hi & _).
    cbn [step]. rewrite W, F. unfold sys_modify, ctl_mod. rewrite Hi. by eexists. }
  destruct E as (s1 & E & W1 & L1).
  assert (R1 : reachable c s1) by (by eapply reach_step; [exact Hr| |exact E]).
  destruct (poll_returns c s1 t max Hc R1 W1) as (s' & b & E' & W' & L'); [by left|]. exists s', b. rewrite <- L1.
  split; [|done]. unfold by_itself in *. cbn [repeat run] in *. by rewrite E.
Qed.
Lemma set_returns c s t max fd : wf_config c -> reachable c s -> wait s = WSet t max -> timer c = Some fd -> t = Some false ->
  exists s' b, run c s (by_itself 5) = Some s' /\ wait s' = Out /\ log s' = log s ++ [TimerSet t; Reported b; WaitOk].
Proof.
  intros Hc Hr W F T. assert (E : exists s1, step c s LGo = Some s1 /\ wait s1 = WTimer t max /\ log s1 = log s ++ [TimerSet t]).
  { cbn [step]. rewrite W, F. by eexists. }
  destruct E as (s1 & E & W1 & L1).
  assert (R1 : reachable c s1) by (by eapply reach_step; [exact Hr| |exact E]).
  destruct (timer_returns c s1 t max fd Hc R1 W1 F T) as (s' & b & E' & W' & L'). exists s', b.
  rewrite L1, <- app_assoc in L'. split; [|done]. unfold by_itself in *. cbn [repeat run] in *. by rewrite E.
Qed.

(** A wait() with a zero timeout that is started in any state where no other one is running returns Ok after its own system calls,
    at most five, without anything else having to happen. *)
Theorem C118_zero_returns c s max :
  wf_config c -> reachable c s -> wait s = Out -> 0 < max ->
  exists n s' d b, n <= 5 /\ run c s (LWait (Some false) max :: by_itself n) = Some s' /\ wait s' = Out
    /\ log s' = log s ++ WaitBegun (Some false) :: d ++ [Reported b; WaitOk].
Proof.
  intros Hc Hr W M. cbn [run]. destruct (step c s (LWait (Some false) max)) as [s1|] eqn:E; [|cbn [step] in E; by rewrite W in E].
  assert (R1 : reachable c s1) by (by eapply reach_step; [exact Hr| |exact E]).
  cbn [step] in E. rewrite W in E. destruct (timer c) as [fd|] eqn:F; injection E as <-.
  - destruct (set_returns _ _ (Some false) max fd Hc R1 eq_refl F eq_refl) as (s' & b & E' & W' & L').
    exists 5, s', [TimerSet (Some false)], b. split; [lia|]. split; [done|]. split; [done|]. rewrite L'. cbn. by rewrite <- app_assoc.
  - destruct (poll_returns _ _ (Some false) max Hc R1 eq_refl) as (s' & b & E' & W' & L'); [by left|].
    exists 3, s', [], b. split; [lia|]. split; [done|]. split; [done|]. rewrite L'. cbn. by rewrite <- app_assoc.
Qed.
(** Where there is no timerfd the kernel is given the timeout: it can return at any time, also without an event. *)
Theorem C118_kernel_timeout c s max :
  wf_config c -> reachable c s -> wait s = WPoll (Some true) max -> timer c = None ->
  exists s' b, run c s (by_itself 3) = Some s' /\ wait s' = Out /\ log s' = log s ++ [Reported b; WaitOk].
Proof. intros Hc Hr W F. apply (poll_returns c s (Some true) max Hc Hr W). by right. Qed.
(** A wait() with no timeout, and one whose timeout is left to a timerfd, comes back from the kernel only with an event. *)
Theorem C118_waits_for_event c s t max s' b :
  wait s = WPoll t max -> t = None \/ t = Some true /\ timer c <> None ->
  step c s LGo = Some s' -> log s' = log s ++ [Reported b] -> b <> [].
Proof.
  intros W T E L. cbn [step] in E. rewrite W in E. destruct (epoll_wait (kern s) max) as [b' k].
  assert (S : sleeps c t = true) by (destruct T as [->|[-> T]]; unfold sleeps; by destruct (timer c)).
  rewrite S in E. cbn [andb] in E. case_bool_decide as D; [done|]. injection E as <-. cbn in L.
  apply app_inv_head in L. injection L as <-. destruct b'; [done|]. by cbn.
Qed.

(** With and without a timerfd. *)
Example C118_zero_case : wf_config demo /\ reachable demo (demo_state 21) /\ wait (demo_state 21) = Out
  /\ registered 10 (log (demo_state 21)) = Some (ev 7, Level).
Proof. split; [discriminate|]. split; [apply demo_reachable|]. split; vm_compute; reflexivity. Qed.
Example C118_kernel_case : let c := Config 3 None in
  exists s, wf_config c /\ reachable c s /\ wait s = WPoll (Some true) 4 /\ timer c = None /\ Reported [] ∉ log s.
Proof.
  cbv zeta. eexists. split; [done|]. split.
  - eapply reach_step; [apply reach_init| |].
    2: { assert (E : step (Config 3 None) (init (Config 3 None)) (LWait (Some true) 4) = Some (emit (set_wait (init (Config 3 None)) (WPoll (Some true) 4)) (WaitBegun (Some true)))) by done. exact E. }
    cbn. lia.
  - split; [done|]. split; [done|]. cbn. by intros ?%elem_of_list_singleton.
Qed.
Lemma poll_reports c s t max s' : wait s = WPoll t max -> step c s LGo = Some s' -> exists b, log s' = log s ++ [Reported b].
Proof.
  intros W E. cbn [step] in E. rewrite W in E. destruct (epoll_wait _ _) as [b k]. destruct (_ && _); [done|]. injection E as <-. by eexists.
Qed.
Lemma waits_step : is_Some (step demo (demo_state 11) LGo).
Proof. vm_compute. by eexists. Qed.
Example C118_waits_case : exists s' b, wait (demo_state 11) = WPoll (Some true) 2 /\ timer demo <> None
  /\ step demo (demo_state 11) LGo = Some s' /\ log s' = log (demo_state 11) ++ [Reported b].
Proof.
  assert (W : wait (demo_state 11) = WPoll (Some true) 2) by (vm_compute; reflexivity).
  destruct waits_step as [s' E]. destruct (poll_reports _ _ _ _ _ W E) as [b L].
  exists s', b. split; [exact W|]. split; [discriminate|]. split; [exact E|exact L].
Qed.

Print Assumptions C118_zero_returns.
Print Assumptions C118_kernel_timeout.
Print Assumptions C118_waits_for_event.
