(** Waiting no less and not much more than was asked for. *)
From Coq Require Import ZArith Lia List.
From Verif Require Import Types TimeModel TimeSpec TimeProofs LibModel LibSpec LibProofs TimedModel TimedSpec.
Import ListNotations.
Open Scope Z_scope.

Lemma ms_limit_nonneg ms : 0 <= ms -> ms_limit ms = Within (ms * 1000000).
Proof. intros H. unfold ms_limit. destruct (ms <? 0) eqn:E; [apply Z.ltb_lt in E; lia|reflexivity]. Qed.
Lemma ns_wf d : wf_duration d -> 0 <= ns d.
Proof. intros [[A _] [B _]]. unfold ns. lia. Qed.
(** What the system is told is at least what is left of the timeout at the last reading of the clock, unless it is cut off;
    and at most a millisecond more. *)
Definition left_at {X} (b : wait_backend) (l : duration) (x : turn X) : Z :=
  match b with Poll | Iocp => Z.max 0 (t_start x + ns l - t_read x) | _ => ns l end.
Lemma ceil_bounds l c : ceil_ms l c -> 0 <= ns l -> 0 <= c /\ ns l <= c * 1000000 < ns l + 1000000.
Proof. unfold ceil_ms. lia. Qed.
Lemma since_ns dl now : ns (saturating_duration_since dl now) = Z.max 0 (dl - now).
Proof.
  unfold saturating_duration_since. destruct (now <=? dl) eqn:E.
  - apply Z.leb_le in E. rewrite dur_of_nanos_ns. lia.
  - apply Z.leb_gt in E. unfold ns. cbn. lia.
Qed.
Lemma told_bounds {X} b l (x : turn X) n : wf_duration l -> secs l <= i64_max -> 0 <= t_start x -> 0 <= t_read x ->
  told unix_instant_max b (Some l) x = Within n ->
  0 <= n /\ n < left_at b l x + 1000000 /\ (fits b l -> t_start x <= t_read x -> left_at b l x <= n).
Proof.
  intros W I S R H. pose proof (ns_wf _ W) as N. destruct b; cbn [told] in H; cbn [left_at fits].
  - destruct (ceil_ms_exists _ W) as [c C]. pose proof (epoll_ms_ceil _ _ W C) as E. pose proof (ceil_bounds _ _ C N).
    rewrite ms_limit_nonneg in H by (pose proof (epoll_ms_nonneg l W); lia). rewrite E in H. assert (n = Z.min c i32_max * 1000000) as -> by congruence. unfold i32_max in *. lia.
  - destruct (epoll_timeout_ms true (Some l) =? 0) eqn:E.
    + injection H as <-. apply Z.eqb_eq in E. apply epoll_ms_zero in E; [|exact W]. lia.
    + destruct (timerfd_exact l W I) as [_ X1]. unfold ts_limit in H. rewrite X1 in H. assert (n = ns l) as -> by congruence. lia.
  - injection H as <-. cbn [fst snd]. unfold as_i64, i64_max in *. destruct W as [[W1 W2] W3].
    rewrite Z.mod_small by (unfold u64_max in *; lia). destruct (secs l <=? 9223372036854775807) eqn:E; [|apply Z.leb_gt in E; lia]. unfold ns in *. lia.
  - injection H as <-. cbn [fst snd]. unfold as_i64, i64_max in *. destruct W as [[W1 W2] W3].
    rewrite Z.mod_small by (unfold u64_max in *; lia). destruct (secs l <=? 9223372036854775807) eqn:E; [|apply Z.leb_gt in E; lia]. unfold ns in *. lia.
  - destruct (deadline_of unix_instant_max (t_start x) (Some l)) as [dl|] eqn:D; [|discriminate].
    pose proof (wf_since _ _ _ _ S R W D) as W1. destruct (ceil_ms_exists _ W1) as [c C]. pose proof (poll_ms_ceil _ _ _ W1 C) as E.
    pose proof (since_ns dl (t_read x)) as N1. pose proof (ceil_bounds _ _ C (ns_wf _ W1)) as B.
    assert (Edl : dl = t_start x + ns l).
    { unfold deadline_of, checked_add in D. destruct (t_start x + dur_nanos l <=? unix_instant_max); [|discriminate]. injection D as <-. reflexivity. }
    rewrite E in H. rewrite ms_limit_nonneg in H by (unfold i32_max; lia). assert (n = Z.min c i32_max * 1000000) as -> by congruence. unfold i32_max in *. lia.
  - destruct (deadline_of unix_instant_max (t_start x) (Some l)) as [dl|] eqn:D; [|discriminate].
    pose proof (wf_since _ _ _ _ S R W D) as W1. destruct (ceil_ms_exists _ W1) as [c C]. pose proof (dur2timeout_ceil _ _ W1 C) as E.
    pose proof (since_ns dl (t_read x)) as N1. pose proof (ceil_bounds _ _ C (ns_wf _ W1)) as B.
    assert (Edl : dl = t_start x + ns l).
    { unfold deadline_of, checked_add in D. destruct (t_start x + dur_nanos l <=? unix_instant_max); [|discriminate]. injection D as <-. reflexivity. }
    cbv zeta in H. unfold iocp_timeout in H. rewrite E in H. destruct (c <? u32_max) eqn:F.
    + destruct (c =? INFINITE); [discriminate|]. assert (n = c * 1000000) as -> by congruence. lia.
    + rewrite Z.eqb_refl in H. discriminate.
Qed.

(** The turn that decides. *)
Lemma wait_last {X} dl (ts : list (turn X)) : forall c nf n,
  wo_res (wait_loop dl (map attempt_of ts) c nf) = Some (Ok n) ->
  exists i x t, S i = length (wo_timeouts (wait_loop dl (map attempt_of ts) c nf)) /\ nth_error ts i = Some x
    /\ nth_error (wo_timeouts (wait_loop dl (map attempt_of ts) c nf)) i = Some t /\ (t_end x = TimeUp \/ exists l, t_end x = Woken l).
Proof.
  induction ts as [|x ts IH]; intros c nf n; cbn; [discriminate|].
  destruct (t_end x) as [|l| |e] eqn:E; cbn.
  - intros _. exists 0%nat, x. eexists. cbn. eauto.
  - intros _. exists 0%nat, x. eexists. cbn. eauto 6.
  - intros H. destruct (IH _ _ _ H) as (i & y & t & A & B & C & D). exists (S i), y, t. cbn. auto.
  - destruct (is_interrupted e); cbn; [|discriminate]. intros H. destruct (IH _ _ _ H) as (i & y & t & A & B & C & D). exists (S i), y, t. cbn. auto.
Qed.
Lemma left_wf {X} start d (ts : list (turn X)) c nf i l x : 0 <= start -> wf_duration d -> 0 <= t_now x -> nth_error ts i = Some x ->
  nth_error (wo_timeouts (lib_wait unix_instant_max false start (Some d) (map attempt_of ts) c nf)) i = Some (Some l) ->
  wf_duration l /\ secs l <= i64_max /\ ns l = Z.max 0 (start + ns d - t_now x).
Proof.
  intros S W N E H. unfold lib_wait in H. destruct (wait_timeouts _ _ _ _ _ _ H) as (a & Ha & Ht).
  rewrite nth_error_map, E in Ha. injection Ha as <-. cbn [at_now attempt_of] in Ht.
  destruct (deadline_of unix_instant_max start (Some d)) as [dl|] eqn:D; [|discriminate].
  destruct (time_left_wf _ _ _ (t_now x) S N W D) as (l' & L1 & L2 & L3). rewrite L1 in Ht. injection Ht as ->. split; [exact L2|]. split; [exact L3|].
  destruct (time_left_exact _ _ _ _ (t_now x) W D) as (l2 & L4 & L5). rewrite L1 in L4. injection L4 as <-. exact L5.
Qed.
Lemma not_early {X} b start d (ts : list (turn X)) c nf i t x : 0 <= start -> wf_duration d -> fits b d -> nth_error ts i = Some x ->
  nth_error (wo_timeouts (lib_wait unix_instant_max false start (Some d) (map attempt_of ts) c nf)) i = Some t ->
  honest (told unix_instant_max b t x) x -> start <= t_now x -> t_end x = TimeUp -> start + ns d <= t_back x.
Proof.
  intros S W F E H (A1 & A2 & A3 & A4) G U. destruct (A4 U) as (n & T & B). destruct t as [l|].
  - destruct (left_wf _ _ _ _ _ _ _ _ S W (proj1 A1) E H) as (L1 & L2 & L3).
    destruct (told_bounds b l x n L1 L2) as (B1 & B2 & B3); [lia|lia|exact T|].
    pose proof (ns_wf _ W) as Nd. assert (F' : fits b l) by (destruct b; cbn [fits] in *; try exact I; lia). specialize (B3 F' (proj1 A2)). destruct b; cbn [left_at] in *; lia.
  - destruct b; discriminate T.
Qed.
Lemma not_late {X} b start d (ts : list (turn X)) c nf i t x slack : 0 <= start -> wf_duration d -> nth_error ts i = Some x ->
  t_at x + ns d <= unix_instant_max -> start + ns d <= unix_instant_max -> (b = Iocp -> ns d < u32_max * 1000000 - 1000000) ->
  nth_error (wo_timeouts (lib_wait unix_instant_max false start (Some d) (map attempt_of ts) c nf)) i = Some t ->
  honest (told unix_instant_max b t x) x -> start <= t_now x -> prompt slack (told unix_instant_max b t x) x ->
  t_back x < Z.max (start + ns d) (t_now x) + 1000000 + (t_at x - t_now x) + slack.
Proof.
  intros S W E M M0 IO H (A1 & A2 & A3 & _) G P. pose proof (ns_wf _ W) as Nd. destruct t as [l|].
  - destruct (left_wf _ _ _ _ _ _ _ _ S W (proj1 A1) E H) as (L1 & L2 & L3).
    destruct (told unix_instant_max b (Some l) x) as [|n] eqn:T.
    + exfalso. assert (D : deadline_of unix_instant_max (t_start x) (Some l) = Some (t_start x + ns l)).
      { unfold deadline_of, checked_add. change (dur_nanos l) with (ns l). destruct (t_start x + ns l <=? unix_instant_max) eqn:D; [reflexivity|]. apply Z.leb_gt in D. lia. }
      destruct b; cbn [told] in T; try discriminate.
      * rewrite ms_limit_nonneg in T; [discriminate|]. apply (epoll_ms_nonneg l L1).
      * destruct (epoll_timeout_ms true (Some l) =? 0); discriminate.
      * rewrite D in T. assert (W1 : wf_duration (saturating_duration_since (t_start x + ns l) (t_read x))) by (eapply wf_since; [| |exact L1|exact D]; lia).
        destruct (ceil_ms_exists _ W1) as [k C]. match type of T with ms_limit ?z = _ => assert (Q : z = Z.min k i32_max) by exact (poll_ms_ceil _ _ _ W1 C); rewrite Q in T end. pose proof (ceil_bounds _ _ C (ns_wf _ W1)).
        rewrite ms_limit_nonneg in T by (unfold i32_max; lia). discriminate.
      * rewrite D in T. assert (W1 : wf_duration (saturating_duration_since (t_start x + ns l) (t_read x))) by (eapply wf_since; [| |exact L1|exact D]; lia).
        destruct (ceil_ms_exists _ W1) as [k C]. pose proof (ceil_bounds _ _ C (ns_wf _ W1)) as B. pose proof (since_ns (t_start x + ns l) (t_read x)) as N1.
        cbv zeta in T. unfold iocp_timeout in T. rewrite (dur2timeout_ceil _ _ W1 C) in T. specialize (IO eq_refl).
        assert (K : k < u32_max) by (unfold u32_max in *; lia). apply Z.ltb_lt in K as K1. rewrite K1 in T. destruct (k =? INFINITE) eqn:Q; [|discriminate]. apply Z.eqb_eq in Q. unfold INFINITE in Q. lia.
    + destruct (told_bounds b l x n L1 L2) as (B1 & B2 & B3); [lia|lia|exact T|]. specialize (P n eq_refl). destruct b; cbn [left_at] in *; lia.
  - exfalso. unfold lib_wait in H. destruct (wait_timeouts _ _ _ _ _ _ H) as (a & Ha & Ht).
    unfold deadline_of, checked_add in Ht. change (dur_nanos d) with (ns d) in Ht. destruct (start + ns d <=? unix_instant_max) eqn:Q; [discriminate|]. apply Z.leb_gt in Q. lia.
Qed.
