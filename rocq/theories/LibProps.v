(** Theorems about src/lib.rs: C01-C06. *)
From Coq Require Import NArith ZArith Bool List Lia.
From Verif Require Import Types TimeModel TimeSpec LibModel LibSpec LibProofs.
Import ListNotations.

(** ** C01 *)
Theorem C01_reserved_key_rejected :
  forall (S F X : Type) (b : backend S F X) s src e mode, reserved (ev_key e) ->
    exists er, lib_add_with_mode b s src e mode = (Err er, s) /\ kind er = KInvalidInput /\
      lib_modify_with_mode b s src e mode = (Err er, s) /\
      lib_add b s src e = (Err er, s) /\ lib_modify b s src e = (Err er, s).
Proof. exact @add_reserved. Qed.
Print Assumptions C01_reserved_key_rejected.

Theorem C01_other_keys_forwarded :
  forall (S F X : Type) (b : backend S F X) s src e mode, ~ reserved (ev_key e) ->
    lib_add_with_mode b s src e mode = b_add b s src e mode /\
    lib_modify_with_mode b s src e mode = b_modify b s src e mode /\
    lib_add b s src e = b_add b s src e Oneshot /\
    lib_modify b s src e = b_modify b s src e Oneshot /\
    lib_delete b s src = b_delete b s src.
Proof. exact @add_forward. Qed.
Print Assumptions C01_other_keys_forwarded.

Example C01_nonvacuous :
  reserved 18446744073709551615%N /\ ~ reserved 18446744073709551614%N.
Proof. split; [reflexivity|discriminate]. Qed.

(** ** C02 *)
Theorem C02_iter_shows_exactly_user_events :
  forall (X : Type) (c l : list (event X)), ev_iter c = l <-> seen c l.
Proof. exact @iter_iff. Qed.
Print Assumptions C02_iter_shows_exactly_user_events.

Theorem C02_iter_membership :
  forall (X : Type) (c : list (event X)) e,
    In e (ev_iter c) <-> In e c /\ ~ reserved (ev_key e).
Proof. exact (fun X c => seen_in c (ev_iter c) (iter_seen c)). Qed.
Print Assumptions C02_iter_membership.

Theorem C02_len :
  forall (X : Type) (c l : list (event X)), seen c l -> ev_len c = N.of_nat (length l).
Proof. exact @len_seen. Qed.
Print Assumptions C02_len.

Theorem C02_is_empty :
  forall (X : Type) (c : list (event X)), ev_is_empty c = true <-> seen c [].
Proof. exact @empty_seen. Qed.
Print Assumptions C02_is_empty.

Theorem C02_clear : forall (X : Type) (c : list (event X)), seen (ev_clear c) [].
Proof. exact (fun X c => seen_nil). Qed.
Print Assumptions C02_clear.

Example C02_nonvacuous :
  let c := [Ev 1 true false tt; Ev usize_max true false tt; Ev 2 false true tt] in
  seen c [Ev 1%N true false tt; Ev 2%N false true tt] /\ ev_len c = 2%N.
Proof.
  split; [|reflexivity]. apply seen_user; [discriminate|]. apply seen_marker; [reflexivity|].
  apply seen_user; [discriminate|]. constructor.
Qed.

(** ** C03 *)
Theorem C03_wait_counts_events :
  forall (X : Type) imax start timeout (ats : list (attempt X)) c notified n,
    let o := lib_wait imax false start timeout ats c notified in
    wo_res o = Some (Ok n) ->
    exists l, seen (wo_events o) l /\ n = N.of_nat (length l) /\ wo_notified o = false.
Proof.
  intros X imax start timeout ats c notified n o H.
  destruct (wait_returns_len (deadline_of imax start timeout) ats c notified n H) as [E F].
  exists (ev_iter (wo_events o)). split; [apply iter_seen|]. split; [|exact F].
  rewrite E. apply len_seen, iter_seen.
Qed.
Print Assumptions C03_wait_counts_events.

Theorem C03_contended_wait_is_inert :
  forall (X : Type) imax start timeout (ats : list (attempt X)) c notified,
    lib_wait imax true start timeout ats c notified = WaitOut (Some (Ok 0%N)) c notified [].
Proof. exact (fun X imax start timeout ats c notified => eq_refl). Qed.
Print Assumptions C03_contended_wait_is_inert.

Definition ok_attempt (now : instant) (evs : list (event unit)) : attempt unit :=
  Attempt now (fun _ _ => (Ok tt, evs)).
Definition eintr_attempt (now : instant) : attempt unit :=
  Attempt now (fun c _ => (Err (EOs EINTR), Ev 9 true true tt :: c)).
Definition fail_attempt (now : instant) : attempt unit :=
  Attempt now (fun c _ => (Err (EOs EBADF), c)).

Example C03_nonvacuous :
  let o := lib_wait unix_instant_max false 0%Z (Some (Dur 1%Z 0%Z))
             [eintr_attempt 5%Z; ok_attempt 7%Z [Ev 1 true false tt; Ev usize_max true false tt]]
             [Ev 3 true true tt] true in
  wo_res o = Some (Ok 1%N) /\ wo_events o = [Ev 1%N true false tt; Ev usize_max true false tt].
Proof. split; reflexivity. Qed.

(** ** C04 *)
Theorem C04_interruptions_are_skipped :
  forall (X : Type) imax start timeout (ints rest : list (attempt X)) c notified,
    (forall a, In a ints -> interrupted a) ->
    let dl := deadline_of imax start timeout in
    let c0 := match ints with [] => c | _ => [] end in
    let o := lib_wait imax false start timeout (ints ++ rest) c notified in
    let o' := lib_wait imax false start timeout rest c0 notified in
    wo_res o = wo_res o' /\ wo_events o = wo_events o' /\ wo_notified o = wo_notified o' /\
    wo_timeouts o = map (fun a => time_left dl (at_now a)) ints ++ wo_timeouts o'.
Proof.
  exact (fun X imax start timeout ints rest c nf =>
    wait_skips_interruptions (deadline_of imax start timeout) ints rest c nf).
Qed.
Print Assumptions C04_interruptions_are_skipped.

Theorem C04_first_uninterrupted_attempt_decides :
  forall (X : Type) imax start timeout (ints : list (attempt X)) a rest c notified r c',
    (forall x, In x ints -> interrupted x) ->
    at_run a (match ints with [] => c | _ => [] end)
      (time_left (deadline_of imax start timeout) (at_now a)) = (r, c') ->
    (forall e, r = Err e -> kind e <> KInterrupted) ->
    let o := lib_wait imax false start timeout (ints ++ a :: rest) c notified in
    wo_events o = c' /\
    match r with
    | Ok _ => wo_res o = Some (Ok (ev_len c')) /\ wo_notified o = false
    | Err e => wo_res o = Some (Err e) /\ wo_notified o = notified
    | Panic => wo_res o = Some Panic
    end.
Proof.
  exact (fun X imax start timeout ints a rest c nf r c' =>
    wait_decided (deadline_of imax start timeout) ints a rest c nf r c').
Qed.
Print Assumptions C04_first_uninterrupted_attempt_decides.

Example C04_nonvacuous :
  interrupted (eintr_attempt 5%Z) /\
  wo_res (lib_wait unix_instant_max false 0%Z None
            [eintr_attempt 5%Z; eintr_attempt 6%Z; ok_attempt 7%Z []] [Ev 3%N true true tt] true)
    = Some (Ok 0%N).
Proof. split; [intros c t; eexists; eexists; split; reflexivity|reflexivity]. Qed.

(** ** C05 *)
Theorem C05_one_deadline :
  forall (X : Type) imax start d (ats : list (attempt X)) c notified i t,
    wf_duration d ->
    nth_error (wo_timeouts (lib_wait imax false start (Some d) ats c notified)) i = Some t ->
    exists a, nth_error ats i = Some a /\
      match t with
      | None => (imax < start + ns d)%Z
      | Some l => ns l = remaining start d (at_now a)
      end.
Proof. exact @wait_one_deadline. Qed.
Print Assumptions C05_one_deadline.

Theorem C05_no_timeout_is_unbounded :
  forall (X : Type) imax start (ats : list (attempt X)) c notified i t,
    nth_error (wo_timeouts (lib_wait imax false start None ats c notified)) i = Some t -> t = None.
Proof. exact @wait_no_timeout. Qed.
Print Assumptions C05_no_timeout_is_unbounded.

Theorem C05_timeouts_never_grow :
  forall (X : Type) imax start d (ats : list (attempt X)) c notified i j ti tj,
    wf_duration d -> clock_ok start ats -> (i <= j)%nat ->
    nth_error (wo_timeouts (lib_wait imax false start (Some d) ats c notified)) i
      = Some (Some ti) ->
    nth_error (wo_timeouts (lib_wait imax false start (Some d) ats c notified)) j
      = Some (Some tj) ->
    (ns tj <= ns ti <= ns d)%Z.
Proof. exact @wait_timeouts_shrink. Qed.
Print Assumptions C05_timeouts_never_grow.

Example C05_nonvacuous :
  let ats := [eintr_attempt 400000000%Z; eintr_attempt 999999999%Z; ok_attempt 3000000000%Z []] in
  clock_ok 100%Z ats /\
  wo_timeouts (lib_wait unix_instant_max false 100%Z (Some (Dur 1%Z 0%Z)) ats [] false)
    = [Some (Dur 0%Z 600000100%Z); Some (Dur 0%Z 101%Z); Some (Dur 0%Z 0%Z)].
Proof. split; [cbn; lia|reflexivity]. Qed.

(** ** C06 *)
Theorem C06_errors_reported_flag_kept :
  forall (X : Type) imax start timeout (ats : list (attempt X)) c notified e,
    let o := lib_wait imax false start timeout ats c notified in
    wo_res o = Some (Err e) -> kind e <> KInterrupted /\ wo_notified o = notified.
Proof.
  exact (fun X imax start timeout => wait_never_interrupted (deadline_of imax start timeout)).
Qed.
Print Assumptions C06_errors_reported_flag_kept.

(** The error is the one of an attempt, which also left the container as it is returned. *)
Theorem C06_error_is_the_platforms :
  forall (X : Type) imax start timeout (ats : list (attempt X)) c notified e,
    let o := lib_wait imax false start timeout ats c notified in
    wo_res o = Some (Err e) ->
    exists before a after c0, ats = before ++ a :: after /\
      at_run a c0 (time_left (deadline_of imax start timeout) (at_now a)) = (Err e, wo_events o) /\
      (before = [] -> c0 = c) /\ (before <> [] -> seen c0 []).
Proof. exact (fun X imax start timeout => wait_error_from (deadline_of imax start timeout)). Qed.
Print Assumptions C06_error_is_the_platforms.

Example C06_nonvacuous :
  let o := lib_wait unix_instant_max false 0%Z None [eintr_attempt 1%Z; fail_attempt 2%Z] [] true in
  wo_res o = Some (Err (EOs EBADF)) /\ wo_notified o = true.
Proof. split; reflexivity. Qed.
