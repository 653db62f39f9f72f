(** Proofs about [TimeModel]. *)
From Coq Require Import ZArith Bool Lia ZifyBool.
From Verif Require Import Types TimeModel TimeSpec.
Open Scope Z_scope.
Ltac Zify.zify_post_hook ::= Z.to_euclidean_division_equations.

Lemma ceil_ms_unique d a b : ceil_ms d a -> ceil_ms d b -> a = b.
Proof. unfold ceil_ms. lia. Qed.

Lemma ceil_ms_exists d : wf_duration d -> exists c, ceil_ms d c.
Proof.
  intros [H1 H2]. unfold ceil_ms.
  exists ((ns d + 999999) / 1000000). unfold ns. lia.
Qed.

Lemma dur_ltb_ns a b :
  0 <= nanos a < 1000000000 -> 0 <= nanos b < 1000000000 -> dur_ltb a b = (ns a <? ns b).
Proof. unfold dur_ltb, ns. intros. lia. Qed.

Lemma dur_eqb_ns a b :
  0 <= nanos a < 1000000000 -> 0 <= nanos b < 1000000000 -> dur_eqb a b = (ns a =? ns b).
Proof. unfold dur_eqb, ns. intros. lia. Qed.

Lemma from_millis_ns ms : ns (from_millis ms) = ms * 1000000.
Proof. unfold ns, from_millis; cbn [secs nanos]. lia. Qed.

Lemma from_millis_nanos ms : 0 <= nanos (from_millis ms) < 1000000000.
Proof. unfold from_millis; cbn [secs nanos]. lia. Qed.

Lemma as_millis_floor d :
  0 <= nanos d < 1000000000 ->
  as_millis d * 1000000 <= ns d < (as_millis d + 1) * 1000000.
Proof. unfold as_millis, ns. intros. lia. Qed.

Lemma epoll_ms_ceil d c :
  wf_duration d -> ceil_ms d c -> epoll_timeout_ms false (Some d) = Z.min c i32_max.
Proof.
  intros [H1 H2] Hc. unfold ceil_ms in Hc.
  unfold epoll_timeout_ms. rewrite dur_eqb_ns by (cbn; lia).
  pose proof (as_millis_floor d H2) as Hf.
  rewrite dur_ltb_ns by (try apply from_millis_nanos; lia).
  rewrite from_millis_ns.
  assert (0 <= ns d) by (unfold ns; lia).
  change (ns (Dur 0 0)) with 0.
  generalize dependent (as_millis d). generalize dependent (ns d). clear. intros N H1 H2 m H3.
  unfold try_into, sat_add1, i32_max.
  destruct (N =? 0) eqn:E0; [lia|].
  destruct ((- (2147483647) - 1 <=? m) && (m <=? 2147483647)) eqn:E1; cbn [unwrap_or].
  - destruct (m * 1000000 <? N) eqn:E2; [destruct (m <? 2147483647) eqn:E3|]; lia.
  - destruct (2147483647 * 1000000 <? N) eqn:E2; [rewrite Z.ltb_irrefl|]; lia.
Qed.

Lemma epoll_ms_nonneg d : wf_duration d -> 0 <= epoll_timeout_ms false (Some d) <= i32_max.
Proof.
  intros H. destruct (ceil_ms_exists d H) as [c Hc].
  rewrite (epoll_ms_ceil d c H Hc).
  destruct H as [H1 H2]. unfold ceil_ms, ns, i32_max in *. lia.
Qed.

Lemma epoll_ms_zero d tf :
  wf_duration d -> epoll_timeout_ms tf (Some d) = 0 <-> ns d = 0.
Proof.
  intros H. destruct tf.
  - unfold epoll_timeout_ms, dur_eqb, ns. destruct H as [H1 H2].
    destruct d as [s n]; cbn [secs nanos] in *. destruct ((s =? 0) && (n =? 0)) eqn:E; lia.
  - destruct (ceil_ms_exists d H) as [c Hc].
    rewrite (epoll_ms_ceil d c H Hc).
    destruct H as [H1 H2]. unfold ceil_ms, ns, i32_max in *. lia.
Qed.

Lemma dur_of_nanos_ns n : ns (dur_of_nanos n) = n.
Proof. unfold ns, dur_of_nanos; cbn [secs nanos]. lia. Qed.

Lemma time_left_exact imax t0 d dl now :
  wf_duration d ->
  deadline_of imax t0 (Some d) = Some dl ->
  exists l, time_left (Some dl) now = Some l /\ ns l = Z.max 0 (t0 + ns d - now).
Proof.
  intros _ Hd. unfold deadline_of, checked_add in Hd.
  destruct (t0 + dur_nanos d <=? imax) eqn:E; [|discriminate].
  injection Hd as <-. exists (saturating_duration_since (t0 + dur_nanos d) now).
  split; [reflexivity|]. unfold saturating_duration_since.
  change (dur_nanos d) with (ns d).
  destruct (now <=? t0 + ns d) eqn:E1.
  - rewrite dur_of_nanos_ns. lia.
  - unfold ns at 1. cbn [secs nanos]. lia.
Qed.

Lemma time_left_wf t0 d dl now :
  0 <= t0 -> 0 <= now -> wf_duration d ->
  deadline_of unix_instant_max t0 (Some d) = Some dl ->
  exists l, time_left (Some dl) now = Some l /\ wf_duration l /\ secs l <= i64_max.
Proof.
  intros Ht0 Hnow Hd Hdl. unfold deadline_of, checked_add in Hdl.
  destruct (t0 + dur_nanos d <=? unix_instant_max) eqn:E; [|discriminate].
  injection Hdl as <-.
  exists (saturating_duration_since (t0 + dur_nanos d) now). split; [reflexivity|].
  unfold wf_duration in *.
  unfold saturating_duration_since, unix_instant_max, i64_max, u64_max in *.
  destruct (now <=? t0 + dur_nanos d) eqn:E1.
  - unfold dur_of_nanos, dur_nanos in *. destruct d as [s n]; cbn [secs nanos] in *. lia.
  - cbn [secs nanos]. lia.
Qed.

Lemma timerfd_exact d :
  wf_duration d -> secs d <= i64_max ->
  timer_accepts (epoll_timerfd_value (Some d)) /\
  fst (epoll_timerfd_value (Some d)) * 1000000000 + snd (epoll_timerfd_value (Some d)) = ns d.
Proof.
  intros [H1 H2] H3. unfold timer_accepts, epoll_timerfd_value, as_i64, ns, u64_max, i64_max in *.
  destruct d as [s n]; cbn [secs nanos fst snd] in *.
  rewrite (Z.mod_small s) by lia.
  destruct (s <=? 9223372036854775807) eqn:E; lia.
Qed.

Lemma as_i64_big x : i64_max < x <= u64_max -> as_i64 x < 0.
Proof.
  unfold as_i64, i64_max, u64_max. intros H. rewrite (Z.mod_small x) by lia.
  destruct (x <=? 9223372036854775807) eqn:E; lia.
Qed.

Lemma timerfd_huge_rejected d :
  wf_duration d -> i64_max < secs d -> ~ timer_accepts (epoll_timerfd_value (Some d)).
Proof.
  intros [H1 H2] H3. unfold timer_accepts, epoll_timerfd_value. cbn [fst snd].
  pose proof (as_i64_big (secs d) (conj H3 (proj2 H1))). lia.
Qed.

Lemma timerfd_nonzero d :
  wf_duration d -> secs d <= i64_max -> ns d <> 0 ->
  timer_expires_after (epoll_timerfd_value (Some d)) d /\ epoll_timeout_ms true (Some d) = -1.
Proof.
  intros H1 H2 H3. destruct (timerfd_exact d H1 H2) as [Ha Hb].
  split.
  - split; [exact Hb|]. intros E. rewrite E in Hb. cbn in Hb. lia.
  - unfold epoll_timeout_ms, dur_eqb. unfold ns in H3.
    destruct H1 as [H1 H1']. destruct d as [s n]; cbn [secs nanos] in *.
    destruct ((s =? 0) && (n =? 0)) eqn:E; [lia|reflexivity].
Qed.

Lemma timerfd_zero d :
  wf_duration d -> ns d = 0 ->
  timer_disarmed (epoll_timerfd_value (Some d)) /\ epoll_timeout_ms true (Some d) = 0.
Proof.
  intros [H1 H2] H3. unfold ns in H3. destruct d as [s n]; cbn [secs nanos] in *.
  assert (s = 0) by lia. assert (n = 0) by lia. subst. split; reflexivity.
Qed.

Lemma wf_since t0 d dl now :
  0 <= t0 -> 0 <= now -> wf_duration d ->
  deadline_of unix_instant_max t0 (Some d) = Some dl ->
  wf_duration (saturating_duration_since dl now).
Proof.
  intros H1 H2 H3 H4. destruct (time_left_wf t0 d dl now H1 H2 H3 H4) as (l & Hl & Hw & _).
  cbn in Hl. injection Hl as <-. exact Hw.
Qed.

Lemma poll_ms_ceil dl now c :
  wf_duration (saturating_duration_since dl now) ->
  ceil_ms (saturating_duration_since dl now) c ->
  poll_timeout_ms (Some dl) now = Z.min c i32_max.
Proof.
  unfold poll_timeout_ms. generalize (saturating_duration_since dl now). clear dl now.
  intros d [H1 H2] Hc. unfold ceil_ms in Hc.
  pose proof (as_millis_floor d H2) as Hf.
  rewrite dur_ltb_ns by (try apply from_millis_nanos; lia).
  rewrite from_millis_ns.
  assert (0 <= ns d) by (unfold ns; lia).
  generalize dependent (as_millis d). generalize dependent (ns d). clear. intros N H1 H2 m H3.
  unfold try_into, sat_add1, i32_max, u64_max.
  destruct ((0 <=? m) && (m <=? 18446744073709551615)) eqn:E1; cbn [unwrap_or].
  - destruct (m * 1000000 <? N) eqn:E2; [destruct (m <? 18446744073709551615) eqn:E3|];
    match goal with |- context [if ?b then _ else _] => destruct b eqn:E4 end;
    cbn [unwrap_or]; lia.
  - destruct (18446744073709551615 * 1000000 <? N) eqn:E2; cbn; lia.
Qed.

Lemma poll_ms_none dl now :
  (forall d, dl = Some d -> wf_duration (saturating_duration_since d now)) ->
  poll_timeout_ms dl now = -1 <-> dl = None.
Proof.
  intros Hw. destruct dl as [d|]; [|split; reflexivity].
  split; [|discriminate]. intros H. exfalso.
  destruct (ceil_ms_exists _ (Hw d eq_refl)) as [c Hc].
  rewrite (poll_ms_ceil d now c (Hw d eq_refl) Hc) in H.
  specialize (Hw d eq_refl). destruct Hw as [H1 H2].
  unfold ceil_ms, ns, i32_max in *. lia.
Qed.

Lemma poll_ms_zero d now :
  wf_duration (saturating_duration_since d now) ->
  poll_timeout_ms (Some d) now = 0 <-> d <= now.
Proof.
  intros Hw. destruct (ceil_ms_exists _ Hw) as [c Hc].
  rewrite (poll_ms_ceil d now c Hw Hc).
  unfold ceil_ms in Hc. unfold saturating_duration_since in Hc.
  destruct (now <=? d) eqn:E.
  - rewrite dur_of_nanos_ns in Hc. unfold i32_max. lia.
  - unfold ns in Hc. cbn [secs nanos] in Hc. unfold i32_max. lia.
Qed.

Lemma dur2timeout_ceil d c :
  wf_duration d -> ceil_ms d c ->
  dur2timeout d = if c <? u32_max then c else INFINITE.
Proof.
  intros [H1 H2] Hc. unfold ceil_ms in Hc.
  assert (Hn : ns d = secs d * 1000000000 + (nanos d / 1000000) * 1000000 + nanos d mod 1000000)
    by (unfold ns; lia).
  assert (Hq : 0 <= nanos d / 1000000 < 1000) by lia.
  assert (Hr : 0 <= nanos d mod 1000000 < 1000000) by lia.
  unfold dur2timeout, checked_mul_u64, checked_add_u64, try_into, INFINITE, u32_max, u64_max in *.
  generalize dependent (nanos d / 1000000). generalize dependent (nanos d mod 1000000).
  generalize dependent (ns d). generalize dependent (secs d). clear.
  intros s Hs N Hc r Hr q HN Hq.
  destruct ((0 <=? s * 1000) && (s * 1000 <=? 18446744073709551615)) eqn:E1;
    cbn [and_then unwrap_or]; [|destruct (c <? 4294967295) eqn:E; lia].
  destruct ((0 <=? s * 1000 + q) && (s * 1000 + q <=? 18446744073709551615)) eqn:E2;
    cbn [and_then unwrap_or]; [|destruct (c <? 4294967295) eqn:E; lia].
  destruct (0 <? r) eqn:E3.
  - destruct ((0 <=? s * 1000 + q + 1) && (s * 1000 + q + 1 <=? 18446744073709551615)) eqn:E4;
      cbn [and_then unwrap_or]; [|destruct (c <? 4294967295) eqn:E; lia].
    destruct ((0 <=? s * 1000 + q + 1) && (s * 1000 + q + 1 <=? 4294967295)) eqn:E5;
      cbn [unwrap_or]; destruct (c <? 4294967295) eqn:E; lia.
  - cbn [and_then unwrap_or].
    destruct ((0 <=? s * 1000 + q) && (s * 1000 + q <=? 4294967295)) eqn:E5;
      cbn [unwrap_or]; destruct (c <? 4294967295) eqn:E; lia.
Qed.
