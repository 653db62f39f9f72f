(** Theorems about timeouts: C15-C18. *)
From Coq Require Import ZArith Lia.
From Verif Require Import Types TimeModel TimeSpec TimeProofs.
Open Scope Z_scope.

(** C15: without a timerfd the epoll timeout is the ceiling in milliseconds, saturated. *)
Theorem C15_epoll_timeout_is_ceiling :
  forall d ms, wf_duration d -> ceil_ms d ms ->
    epoll_timeout_ms false (Some d) = Z.min ms i32_max.
Proof. exact epoll_ms_ceil. Qed.
Print Assumptions C15_epoll_timeout_is_ceiling.

(** Every duration has such a ceiling, so the previous theorem applies to all of them. *)
Theorem C15_ceiling_exists : forall d, wf_duration d -> exists ms, ceil_ms d ms.
Proof. exact ceil_ms_exists. Qed.
Print Assumptions C15_ceiling_exists.

Theorem C15_ceiling_unique : forall d a b, ceil_ms d a -> ceil_ms d b -> a = b.
Proof. exact ceil_ms_unique. Qed.
Print Assumptions C15_ceiling_unique.

Theorem C15_epoll_timeout_in_range :
  forall d, wf_duration d -> 0 <= epoll_timeout_ms false (Some d) <= i32_max.
Proof. exact epoll_ms_nonneg. Qed.
Print Assumptions C15_epoll_timeout_in_range.

Theorem C15_epoll_timeout_zero_iff :
  forall d timerfd, wf_duration d -> (epoll_timeout_ms timerfd (Some d) = 0 <-> ns d = 0).
Proof. exact epoll_ms_zero. Qed.
Print Assumptions C15_epoll_timeout_zero_iff.

Theorem C15_epoll_no_timeout_is_infinite : forall timerfd, epoll_timeout_ms timerfd None = -1.
Proof. exact (fun tf => match tf with true => eq_refl | false => eq_refl end). Qed.
Print Assumptions C15_epoll_no_timeout_is_infinite.

Example C15_nonvacuous :
  wf_duration (Dur 1 500000001) /\ ceil_ms (Dur 1 500000001) 1501 /\
  epoll_timeout_ms false (Some (Dur 1 500000001)) = 1501 /\
  wf_duration (Dur u64_max 999999999) /\
  epoll_timeout_ms false (Some (Dur u64_max 999999999)) = i32_max.
Proof. unfold wf_duration, ceil_ms, ns, u64_max; cbn. repeat split; lia. Qed.

(** C16: with a timerfd the timer is programmed with exactly the timeout. *)
Theorem C16_timerfd_exact :
  forall d, wf_duration d -> secs d <= i64_max -> ns d <> 0 ->
    timer_expires_after (epoll_timerfd_value (Some d)) d /\ epoll_timeout_ms true (Some d) = -1.
Proof. exact timerfd_nonzero. Qed.
Print Assumptions C16_timerfd_exact.

Theorem C16_timerfd_zero_disarms :
  forall d, wf_duration d -> ns d = 0 ->
    timer_disarmed (epoll_timerfd_value (Some d)) /\ epoll_timeout_ms true (Some d) = 0.
Proof. exact timerfd_zero. Qed.
Print Assumptions C16_timerfd_zero_disarms.

Theorem C16_timerfd_none_disarms :
  timer_disarmed (epoll_timerfd_value None) /\ epoll_timeout_ms true None = -1.
Proof. exact (conj eq_refl eq_refl). Qed.
Print Assumptions C16_timerfd_none_disarms.

(** Every value the public wait can hand down (time left until a representable deadline) is
    accepted by the timer. *)
Theorem C16_public_timeouts_accepted :
  forall t0 d dl now, 0 <= t0 -> 0 <= now -> wf_duration d ->
    deadline_of unix_instant_max t0 (Some d) = Some dl ->
    exists l, time_left (Some dl) now = Some l /\ wf_duration l /\ secs l <= i64_max.
Proof. exact time_left_wf. Qed.
Print Assumptions C16_public_timeouts_accepted.

Theorem C16_accepted :
  forall d, wf_duration d -> secs d <= i64_max ->
    timer_accepts (epoll_timerfd_value (Some d)) /\
    fst (epoll_timerfd_value (Some d)) * 1000000000 + snd (epoll_timerfd_value (Some d)) = ns d.
Proof. exact timerfd_exact. Qed.
Print Assumptions C16_accepted.

(** The bound on the seconds is needed: beyond it the kernel would reject the timer. *)
Theorem C16_huge_timeouts_would_be_rejected :
  forall d, wf_duration d -> i64_max < secs d -> ~ timer_accepts (epoll_timerfd_value (Some d)).
Proof. exact timerfd_huge_rejected. Qed.
Print Assumptions C16_huge_timeouts_would_be_rejected.

Example C16_nonvacuous :
  wf_duration (Dur 3 7) /\ secs (Dur 3 7) <= i64_max /\ ns (Dur 3 7) <> 0 /\
  epoll_timerfd_value (Some (Dur 3 7)) = (3, 7) /\
  deadline_of unix_instant_max 5 (Some (Dur 3 7)) = Some 3000000012 /\
  time_left (Some 3000000012) 2000000012 = Some (Dur 1 0).
Proof. unfold wf_duration, ns, u64_max, i64_max; cbn. repeat split; lia. Qed.

(** C17 *)
Theorem C17_poll_timeout_is_ceiling :
  forall dl now ms,
    wf_duration (saturating_duration_since dl now) ->
    ceil_ms (saturating_duration_since dl now) ms ->
    poll_timeout_ms (Some dl) now = Z.min ms i32_max.
Proof. exact poll_ms_ceil. Qed.
Print Assumptions C17_poll_timeout_is_ceiling.

(** Every deadline the backend computes meets the first hypothesis above. *)
Theorem C17_deadlines_are_wellformed :
  forall t0 d dl now, 0 <= t0 -> 0 <= now -> wf_duration d ->
    deadline_of unix_instant_max t0 (Some d) = Some dl ->
    wf_duration (saturating_duration_since dl now).
Proof. exact wf_since. Qed.
Print Assumptions C17_deadlines_are_wellformed.

Theorem C17_poll_infinite_iff_no_deadline :
  forall dl now,
    (forall d, dl = Some d -> wf_duration (saturating_duration_since d now)) ->
    (poll_timeout_ms dl now = -1 <-> dl = None).
Proof. exact poll_ms_none. Qed.
Print Assumptions C17_poll_infinite_iff_no_deadline.

Theorem C17_poll_zero_iff_deadline_passed :
  forall dl now, wf_duration (saturating_duration_since dl now) ->
    (poll_timeout_ms (Some dl) now = 0 <-> dl <= now).
Proof. exact poll_ms_zero. Qed.
Print Assumptions C17_poll_zero_iff_deadline_passed.

Example C17_nonvacuous :
  deadline_of unix_instant_max 10 (Some (Dur 0 1500000)) = Some 1500010 /\
  poll_timeout_ms (Some 1500010) 10 = 2 /\ poll_timeout_ms (Some 1500010) 1500009 = 1 /\
  poll_timeout_ms (Some 1500010) 1500010 = 0 /\ poll_timeout_ms (Some 1500010) 2000000 = 0.
Proof. repeat split. Qed.

(** C18 *)
Theorem C18_iocp_timeout_is_ceiling_or_infinite :
  forall d ms, wf_duration d -> ceil_ms d ms ->
    iocp_timeout (Some d) = if ms <? u32_max then ms else INFINITE.
Proof. exact dur2timeout_ceil. Qed.
Print Assumptions C18_iocp_timeout_is_ceiling_or_infinite.

Theorem C18_iocp_no_timeout_is_infinite : iocp_timeout None = INFINITE.
Proof. exact eq_refl. Qed.
Print Assumptions C18_iocp_no_timeout_is_infinite.

Example C18_nonvacuous :
  wf_duration (Dur 4294967 294000001) /\ ceil_ms (Dur 4294967 294000001) 4294967295 /\
  iocp_timeout (Some (Dur 4294967 294000001)) = INFINITE /\
  iocp_timeout (Some (Dur 4294967 294000000)) = 4294967294 /\
  iocp_timeout (Some (Dur 0 1)) = 1 /\ iocp_timeout (Some (Dur u64_max 999999999)) = INFINITE.
Proof. unfold wf_duration, ceil_ms, ns, u64_max; cbn. repeat split; lia. Qed.
