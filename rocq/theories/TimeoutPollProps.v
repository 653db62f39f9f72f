(** C118 on the poll backend: what timeouts wait() gives to poll(2). *)
From stdpp Require Import prelude list gmap.
From Verif Require Import Bits Types TimeModel EventModel LibModel PollModel PollSpec PollProofs PollWait.
From Verif Require TimeSpec TimeProofs PollProps.
Local Open Scope nat_scope.

(** No clock reading of the wait() is before [t]. *)
Definition not_before (t : instant) (evs : list wait_event) : Prop :=
  forall now ans flag order, WPoll now ans flag order ∈ evs -> (t <= now)%Z.

Lemma timeouts_at (Q : Z -> Prop) dl evs : forall s,
  (forall now ans flag order, WPoll now ans flag order ∈ evs -> Q (poll_timeout_ms dl now)) ->
  Forall Q (pw_timeouts (poll_wait_loop dl evs s)).
Proof.
  induction evs as [|e evs IH]; intros s H; [constructor|]. destruct e as [r|now ans flag order|s']; cbn [poll_wait_loop].
  - constructor.
  - assert (Q1 : Q (poll_timeout_ms dl now)) by (eapply H; left).
    destruct (poll_turn s ans flag order) as [[|e|e|] s1]; cbn [pw_timeouts]; repeat constructor; try done.
    apply IH. intros ????. intros ?. eapply H. right. done.
  - apply IH. intros ????. intros ?. eapply H. right. done.
Qed.

(** With a zero timeout no call of poll(2) is allowed to wait; this is so for every number of turns, for every answer of the system,
    and whatever other threads change in between. *)
Theorem C118_poll_zero_never_waits t0 evs s c r c' s' ts :
  (0 <= t0 <= unix_instant_max)%Z -> not_before t0 evs ->
  poll_wait unix_instant_max t0 (Some (Dur 0 0)) evs s c = (r, c', s', ts) -> Forall (fun t => t = 0%Z) ts.
Proof.
  intros B N E. assert (X : pw_timeouts (poll_wait_loop (deadline_of unix_instant_max t0 (Some (Dur 0 0))) evs s) = ts) by (unfold poll_wait in E; congruence). rewrite <- X.
  assert (D : deadline_of unix_instant_max t0 (Some (Dur 0 0)) = Some t0).
  { unfold deadline_of, checked_add, dur_nanos. cbn [secs nanos]. replace (t0 + (0 * 1000000000 + 0))%Z with t0 by lia.
    destruct (Z.leb_spec t0 unix_instant_max); [done|lia]. }
  rewrite D. apply timeouts_at. intros now ans flag order H. apply N in H. apply TimeProofs.poll_ms_zero; [|exact H].
  eapply (TimeProofs.wf_since t0 (Dur 0 0) t0 now); [lia|lia| |exact D]. unfold wf_duration. cbn. unfold u64_max. lia.
Qed.
(** Once the deadline has passed no call of poll(2) is allowed to wait. *)
Theorem C118_poll_passed_deadline t0 d dl evs s c r c' s' ts :
  (0 <= t0)%Z -> wf_duration d -> deadline_of unix_instant_max t0 (Some d) = Some dl -> (0 <= dl)%Z -> not_before dl evs ->
  poll_wait unix_instant_max t0 (Some d) evs s c = (r, c', s', ts) -> Forall (fun t => t = 0%Z) ts.
Proof.
  intros B W D P N E. assert (X : pw_timeouts (poll_wait_loop (deadline_of unix_instant_max t0 (Some d)) evs s) = ts) by (unfold poll_wait in E; congruence). rewrite <- X. rewrite D. apply timeouts_at.
  intros now ans flag order H. apply N in H. apply TimeProofs.poll_ms_zero; [|exact H].
  by eapply (TimeProofs.wf_since t0 d dl now); [lia|lia| |].
Qed.
(** Without a timeout every call of poll(2) waits until something happens. *)
Theorem C118_poll_no_timeout t0 evs s c r c' s' ts :
  poll_wait unix_instant_max t0 None evs s c = (r, c', s', ts) -> Forall (fun t => t = (-1)%Z) ts.
Proof. intros E. assert (X : pw_timeouts (poll_wait_loop (deadline_of unix_instant_max t0 None) evs s) = ts) by (unfold poll_wait in E; congruence). rewrite <- X. by apply timeouts_at. Qed.

(** Two turns: the first sees only a byte of the notification channel, the second a source that is ready. *)
Definition two_turns : list wait_event :=
  [WPoll 20%Z (PollRet [1; 0; 0; 0]%N 1) false []; WPoll 30%Z (PollRet [0; 1; 0; 0]%N 1) false [12; 10; 11]%Z].
Example C118_poll_case : not_before 10%Z two_turns
  /\ (poll_wait unix_instant_max 10%Z (Some (Dur 0 0)) two_turns PollProps.s_ab []).2 = [0; 0]%Z
  /\ deadline_of unix_instant_max 10%Z (Some (Dur 0 5)) = Some 15%Z /\ not_before 15%Z two_turns
  /\ (poll_wait unix_instant_max 10%Z None two_turns PollProps.s_ab []).2 = [-1; -1]%Z.
Proof.
  assert (A : forall t : Z, (t <= 20)%Z -> not_before t two_turns).
  { intros t Ht now ans flag order H. repeat (apply elem_of_cons in H as [H|H]; [injection H as -> _ _ _; lia|]). by apply not_elem_of_nil in H. }
  split; [apply A; lia|]. split; [vm_compute; reflexivity|]. split; [vm_compute; reflexivity|]. split; [apply A; lia|vm_compute; reflexivity].
Qed.
Print Assumptions C118_poll_zero_never_waits.
Print Assumptions C118_poll_passed_deadline.
Print Assumptions C118_poll_no_timeout.
