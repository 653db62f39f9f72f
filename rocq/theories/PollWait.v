(** The timeouts of the poll(2) calls of one wait. *)
From stdpp Require Import prelude list gmap.
From Verif Require Import Bits Types TimeModel EventModel LibModel PollModel PollSpec PollProofs.
From Verif Require TimeSpec TimeProofs.
Local Open Scope nat_scope.

Lemma deadline_some imax start d :
  (start + TimeSpec.ns d <= imax)%Z -> deadline_of imax start (Some d) = Some (start + TimeSpec.ns d)%Z.
Proof.
  intros H. unfold deadline_of, checked_add.
  change (dur_nanos d) with (TimeSpec.ns d).
  apply Z.leb_le in H. rewrite H. reflexivity.
Qed.

Lemma poll_timeouts_exact start d evs s i now t :
  wf_duration d -> (0 <= start)%Z -> (start + TimeSpec.ns d <= unix_instant_max)%Z ->
  pw_timeouts (poll_wait_loop (deadline_of unix_instant_max start (Some d)) evs s) !! i = Some t ->
  readings evs !! i = Some now -> (0 <= now)%Z ->
  exists ms, ((ms - 1) * 1000000 < Z.max 0 (start + TimeSpec.ns d - now) <= ms * 1000000)%Z /\
    t = Z.min ms i32_max.
Proof.
  intros Hd Hs Hle Ht Hn Hnow.
  pose proof (deadline_some _ _ _ Hle) as E. set (dl := (start + TimeSpec.ns d)%Z) in E.
  rewrite E in Ht.
  destruct (timeouts_prefix (Some dl) evs s) as [k Hk]. rewrite Hk in Ht.
  rewrite list_lookup_fmap in Ht.
  apply fmap_Some in Ht as (now' & Et & ->).
  apply lookup_take_Some in Et as [Et _]. pose proof (eq_trans (eq_sym Hn) Et) as Ee. injection Ee as <-.
  pose proof (TimeProofs.wf_since start d dl now Hs Hnow Hd E) as Hwf.
  destruct (TimeProofs.ceil_ms_exists _ Hwf) as [ms Hms]. exists ms. split.
  - destruct (TimeProofs.time_left_exact unix_instant_max start d dl now Hd E) as (l & El & Hl).
    cbn [time_left] in El. injection El as <-. unfold TimeSpec.ceil_ms in Hms.
    rewrite Hl in Hms. exact Hms.
  - by apply TimeProofs.poll_ms_ceil.
Qed.


Lemma loop_replaces o dl evs : forall s, wf_own o -> reachable o s -> conforming o s evs ->
  forall r, pw_res (poll_wait_loop dl evs s) = Some r ->
  (pw_events (poll_wait_loop dl evs s) = [] /\ (r <> Ok tt \/ WNotified r ∈ evs)) \/
  (r = Ok tt /\ exists s1 now rs num flag order, WPoll now (PollRet rs num) flag order ∈ evs /\ reachable o s1 /\
     posix_answer s1 (PollRet rs num) /\ holds_exactly s1 rs (map snd (pw_events (poll_wait_loop dl evs s)))).
Proof.
  induction evs as [|[r'|now ans flag order|z] evs IH]; intros s W R C r; cbn [poll_wait_loop pw_res pw_events].
  - discriminate.
  - intros [= <-]. left. split; [done|right; left].
  - cbn [conforming] in C. destruct C as (P & O & C). pose proof (reach_turn o s ans flag order R P O) as R2.
    destruct (poll_turn s ans flag order) as [t s1] eqn:E. cbn [snd] in R2. destruct t as [|es|e|]; cbn [pw_res pw_events].
    + intros Hr. destruct (IH s1 W R2 C r Hr) as [[E1 [N|N]]|(-> & z & x & rs & num & f & od & I & Q)].
      * left. split; [done|by left].
      * left. split; [done|right; by right].
      * right. split; [done|]. exists z, x, rs, num, f, od. split; [by right|exact Q].
    + intros [= <-]. right. split; [done|]. destruct ans as [e|rs num]; [discriminate E|].
      * exists s, now, rs, num, flag, order. split_and!; [left|done|done|]. exists es. split; [done|].
        exact (turn_events o s rs num flag order es s1 (reachable_wf o s R) W P O E).
    + intros [= <-]. left. split; [done|by left].
    + intros [= <-]. left. split; [done|by left].
  - destruct C as [R2 C]. intros Hr. destruct (IH z W R2 C r Hr) as [[E1 [N|N]]|(-> & y & x & rs & num & f & od & I & Q)].
    + left. split; [done|by left].
    + left. split; [done|right; by right].
    + right. split; [done|]. exists y, x, rs, num, f, od. split; [by right|exact Q].
Qed.

Lemma wait_replaces o imax start timeout evs s c r c' s' ts :
  wf_own o -> reachable o s -> conforming o s evs -> ends imax start timeout evs s ->
  poll_wait imax start timeout evs s c = (r, c', s', ts) ->
  (c' = [] /\ (r <> Ok tt \/ WNotified r ∈ evs)) \/
  (r = Ok tt /\ exists s1 now rs num flag order, WPoll now (PollRet rs num) flag order ∈ evs /\ reachable o s1 /\
     posix_answer s1 (PollRet rs num) /\ holds_exactly s1 rs c').
Proof.
  intros W R C N. unfold ends in N. unfold poll_wait.
  destruct (pw_res (poll_wait_loop (deadline_of imax start timeout) evs s)) as [q|] eqn:E; [|done]. intros H.
  apply pair_equal_spec in H as [H _]. apply pair_equal_spec in H as [H _]. apply pair_equal_spec in H as [<- <-].
  unfold ev_clear. rewrite app_nil_l.
  destruct (loop_replaces o _ evs s W R C q E) as [[-> K]|K]; [left; by split|by right].
Qed.
