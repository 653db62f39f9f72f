(** Theorems about the poll backend: C13 (poll), C26-C30, C67. *)
From stdpp Require Import prelude list gmap.
From Verif Require Import Bits Types TimeModel EventModel LibModel PollModel PollSpec PollProofs PollWait.
From Verif Require TimeSpec.
Local Open Scope nat_scope.

(** A pipe notifier and a small history used by the examples below. *)
Definition o34 : own_fds := Own 3 [3; 4]%Z POLLRDNORM.
Definition rd (k : N) : event N := Ev k true false 0%N.
Definition rw (k : N) : event N := Ev k true true 0%N.
Definition s_ab : fds :=
  (do_call o34 (do_call o34 (do_call o34 (poll_new o34)
     (CAdd 10 (rd 1) Oneshot)).2 (CAdd 11 (rw 2) Level)).2 (CAdd 12 (rd 3) Oneshot)).2.
Lemma o34_wf : wf_own o34. Proof. unfold wf_own. simpl. set_solver. Qed.
Lemma s_ab_reachable : reachable o34 s_ab.
Proof. unfold s_ab. repeat constructor. Qed.
Lemma s_ab_order : hash_order s_ab [12; 10; 11]%Z.
Proof.
  split; [apply (bool_decide_unpack _); vm_compute; exact I|]. intros fd.
  assert (E : fd_data s_ab = <[12%Z := FdData 3 3 true]> (<[11%Z := FdData 2 2 false]>
                (<[10%Z := FdData 1 1 true]> ∅))) by reflexivity.
  rewrite E, !elem_of_cons, elem_of_nil, !lookup_insert_is_Some, lookup_empty.
  split.
  - intros [->|[->|[->|[]]]]; [by left|right|right]; (split; [done|]).
    + right. split; [done|]. by left.
    + by left.
  - intros [H|[_ [H|[_ [H|[_ H]]]]]]; subst; [by left|by right; right; left|by right; left|].
    by destruct H.
Qed.

(** ** C26 *)
Theorem C26_table_is_notifier_then_registrations :
  forall o s, wf_own o -> reachable o s ->
    exists notifier rest, poll_fds s = notifier :: rest /\ pfd_fd notifier = own_poll o /\
      pfd_events notifier = own_flags o /\
      NoDup (map pfd_fd rest) /\
      (forall fd, fd ∈ map pfd_fd rest <-> is_registered s fd) /\
      (forall fd, is_registered s fd -> fd ∉ own_all o).
Proof. exact table_shape. Qed.
Print Assumptions C26_table_is_notifier_then_registrations.

Theorem C26_calls_never_panic :
  forall o s c, reachable o s -> (do_call o s c).1 <> Panic.
Proof.
  intros o s c Hr. destruct (do_call o s c) as [r s'] eqn:E.
  exact (proj1 (call_wf o s c r s' (reachable_wf o s Hr) E)).
Qed.
Print Assumptions C26_calls_never_panic.

Theorem C26_wait_never_panics :
  forall o s ans flag order, reachable o s -> posix_answer s ans -> hash_order s order ->
    (poll_turn s ans flag order).1 <> TPanic.
Proof.
  intros o s ans flag order Hr Ha Ho. destruct (poll_turn s ans flag order) as [t s'] eqn:E.
  exact (proj1 (turn_wf o s ans flag order t s' (reachable_wf o s Hr) Ha Ho E)).
Qed.
Print Assumptions C26_wait_never_panics.

Example C26_nonvacuous :
  reachable o34 (do_call o34 s_ab (CDelete 10)).2 /\
  map pfd_fd (poll_fds (do_call o34 s_ab (CDelete 10)).2) = [3; 12; 11]%Z.
Proof. split; [constructor; apply s_ab_reachable|reflexivity]. Qed.

(** ** C27 *)
Theorem C27_call_results :
  forall o s c r, reachable o s -> ((do_call o s c).1 = r <-> outcome o s c r).
Proof. exact (fun o s c r H => outcome_iff o s c r (reachable_wf o s H)). Qed.
Print Assumptions C27_call_results.

Theorem C27_successful_calls_update_one_registration :
  forall o s c s', reachable o s -> do_call o s c = (Ok tt, s') ->
    (forall r, registered s' (call_fd c) r <-> wanted c r) /\
    (forall fd, fd <> call_fd c -> same_reg s s' fd).
Proof. exact (fun o s c s' H => call_effect o s c s' (reachable_wf o s H)). Qed.
Print Assumptions C27_successful_calls_update_one_registration.

Theorem C27_other_registrations_never_touched :
  forall o s c fd, reachable o s -> call_fd c <> fd -> same_reg s (do_call o s c).2 fd.
Proof. exact (fun o s c fd H => call_other o s c fd (reachable_wf o s H)). Qed.
Print Assumptions C27_other_registrations_never_touched.

Example C27_nonvacuous :
  do_call o34 s_ab (CAdd 11 (rd 9) Level) = (Err (ESimple KAlreadyExists), s_ab) /\
  do_call o34 s_ab (CDelete 99) = (Err (ESimple KNotFound), s_ab) /\
  do_call o34 s_ab (CAdd 4 (rd 9) Level) = (Err (ESimple KInvalidInput), s_ab) /\
  (do_call o34 s_ab (CDelete 10)).1 = Ok tt /\
  registered s_ab 12 (Reg 3 3 true).
Proof.
  repeat split; try reflexivity. exists (FdData 3 3 true), (Pfd 12 3 0). repeat split; reflexivity.
Qed.

(** ** C28 *)
(** Refuted: modify with an edge mode fails with Unsupported, but has already replaced the
    key and the interest (src/poll.rs:158-168). *)
Theorem C28_failed_modify_has_effect_refuted :
  exists o s c e fd r, wf_own o /\ reachable o s /\ (do_call o s c).1 = Err e /\
    registered s fd r /\ ~ registered (do_call o s c).2 fd r.
Proof.
  exists o34, s_ab, (CModify 11 (rd 7) Edge), (ESimple KUnsupported), 11%Z, (Reg 2 519 false).
  split; [apply o34_wf|]. split; [apply s_ab_reachable|]. split; [reflexivity|]. split.
  - exists (FdData 2 2 false), (Pfd 11 519 0). repeat split; reflexivity.
  - intros (d & pf & Hd & _ & _ & E). vm_compute in Hd. injection Hd as <-. discriminate E.
Qed.
Print Assumptions C28_failed_modify_has_effect_refuted.

(** Every other failing call changes nothing at all, and this one touches only its own
    descriptor. *)
Theorem C28_other_failures_change_nothing_partial :
  forall o s c e s', reachable o s -> do_call o s c = (Err e, s') ->
    s' = s \/ (exists fd ev m, c = CModify fd ev m /\ edge_mode m /\ e = ESimple KUnsupported /\
               (forall fd', fd' <> fd -> same_reg s s' fd')).
Proof. exact (fun o s c e s' H => call_error o s c e s' (reachable_wf o s H)). Qed.
Print Assumptions C28_other_failures_change_nothing_partial.

Example C28_partial_nonvacuous :
  reachable o34 s_ab /\ do_call o34 s_ab (CAdd 20 (rd 7) Edge) = (Err (ESimple KUnsupported), s_ab).
Proof. split; [apply s_ab_reachable|reflexivity]. Qed.

(** ** C29 *)
Theorem C29_wait_delivers_exactly_what_poll_returned :
  forall o s rs num flag order evs s',
    wf_own o -> reachable o s -> posix_answer s (PollRet rs num) -> hash_order s order ->
    poll_turn s (PollRet rs num) flag order = (TDone evs, s') ->
    NoDup (map fst evs) /\
    (forall fd e, (fd, e) ∈ evs <->
       exists r f, registered s fd r /\ returned s rs fd f /\ f <> 0%N /\
         e = poll_to_event (reg_key r) f).
Proof.
  exact (fun o s rs num flag order evs s' Ho Hr =>
    turn_events o s rs num flag order evs s' (reachable_wf o s Hr) Ho).
Qed.
Print Assumptions C29_wait_delivers_exactly_what_poll_returned.

(** One-shot registrations that were reported lose their interest; nothing else changes. *)
Theorem C29_wait_disarms_only_reported_oneshots :
  forall o s rs num flag order t s',
    wf_own o -> reachable o s -> posix_answer s (PollRet rs num) -> hash_order s order ->
    poll_turn s (PollRet rs num) flag order = (t, s') ->
    forall fd r', registered s' fd r' <-> exists r, registered s fd r /\
      ((reg_oneshot r = true /\ (exists f, returned s rs fd f /\ f <> 0%N) /\
          r' = Reg (reg_key r) 0 true) \/
       ((reg_oneshot r = false \/ returned s rs fd 0%N) /\ r' = r)).
Proof.
  exact (fun o s rs num flag order t s' Ho Hr =>
    turn_regs o s rs num flag order t s' (reachable_wf o s Hr) Ho).
Qed.
Print Assumptions C29_wait_disarms_only_reported_oneshots.

(** wait goes back to sleep only when the notifier was all that was reported and the user has
    not called notify(). *)
Theorem C29_wait_repeats_only_for_internal_wakeups :
  forall o s rs num flag order s',
    wf_own o -> reachable o s -> posix_answer s (PollRet rs num) -> hash_order s order ->
    poll_turn s (PollRet rs num) flag order = (TAgain, s') ->
    flag = false /\ (exists f, rs !! 0 = Some f /\ f <> 0%N) /\
    (forall fd r f, registered s fd r -> returned s rs fd f -> f = 0%N) /\
    (forall fd, same_reg s s' fd).
Proof. exact turn_again. Qed.
Print Assumptions C29_wait_repeats_only_for_internal_wakeups.

(** A failing poll(2) call leaves the table alone and its error is returned. *)
Theorem C29_poll_error_returned :
  forall s e flag order, poll_turn s (PollErr e) flag order = (TErr e, s).
Proof. reflexivity. Qed.
Print Assumptions C29_poll_error_returned.

Example C29_nonvacuous :
  posix_answer s_ab (PollRet [0; 1; 16; 0]%N 2) /\ hash_order s_ab [12; 10; 11]%Z /\
  exists s', poll_turn s_ab (PollRet [0; 1; 16; 0]%N 2) false [12; 10; 11]%Z
    = (TDone [(10%Z, Ev 1%N true false 1%N); (11%Z, Ev 2%N true true 16%N)], s') /\
    registered s' 10 (Reg 1 0 true).
Proof.
  split; [done|]. split; [apply s_ab_order|]. eexists. split; [vm_compute; reflexivity|].
  exists (FdData 1 1 true), (Pfd 10 0 0). repeat split; reflexivity.
Qed.

(** ** C30 *)
(** Refuted: the interest of a reported one-shot descriptor is cleared, but it stays in the
    table, and poll(2) returns POLLHUP, POLLERR and POLLNVAL whatever the interest; the next
    wait() delivers a second event without modify() or add(). *)
Theorem C30_oneshot_delivered_twice_refuted :
  exists o s rs num order evs s' rs' num' evs' s'' fd e e' r,
    wf_own o /\ reachable o s /\ registered s fd r /\ reg_oneshot r = true /\
    posix_answer s (PollRet rs num) /\ posix_flags s (PollRet rs num) /\ hash_order s order /\
    poll_turn s (PollRet rs num) false order = (TDone evs, s') /\ (fd, e) ∈ evs /\
    posix_answer s' (PollRet rs' num') /\ posix_flags s' (PollRet rs' num') /\ hash_order s' order /\
    poll_turn s' (PollRet rs' num') false order = (TDone evs', s'') /\ (fd, e') ∈ evs'.
Proof.
  exists o34, s_ab, [0; 17; 0; 0]%N, 1, [12; 10; 11]%Z, [(10%Z, Ev 1%N true true 17%N)].
  eexists. exists [0; 16; 0; 0]%N, 1, [(10%Z, Ev 1%N true true 16%N)]. eexists.
  exists 10%Z, (Ev 1%N true true 17%N), (Ev 1%N true true 16%N), (Reg 1 3 true).
  split; [apply o34_wf|]. split; [apply s_ab_reachable|].
  split; [exists (FdData 1 1 true), (Pfd 10 3 0); repeat split; reflexivity|].
  split; [done|]. split; [done|]. split.
  { intros [|[|[|[|i]]]] pf f Hp Hf; vm_compute in Hp, Hf; simplify_eq; reflexivity. }
  split; [apply s_ab_order|]. split; [vm_compute; reflexivity|]. split; [left|].
  split; [done|]. split.
  { intros [|[|[|[|i]]]] pf f Hp Hf; vm_compute in Hp, Hf; simplify_eq; reflexivity. }
  split; [apply s_ab_order|]. split; [vm_compute; reflexivity|]. left.
Qed.
Print Assumptions C30_oneshot_delivered_twice_refuted.

(** Proved: as long as poll(2) returns for the descriptor only flags that were asked for (no
    hang-up, error or invalid descriptor), no further event is delivered for it until a call
    names it again, whatever happens to other descriptors and however many waits run. *)
Theorem C30_oneshot_once_unless_hup_partial :
  forall o s fd r e rs num flag order evs s0 s1 ans flag' order' evs' s',
    wf_own o -> reachable o s -> registered s fd r -> reg_oneshot r = true ->
    posix_answer s (PollRet rs num) -> hash_order s order ->
    poll_turn s (PollRet rs num) flag order = (TDone evs, s0) -> (fd, e) ∈ evs ->
    meanwhile o fd s0 s1 ->
    posix_answer s1 ans -> hash_order s1 order' -> only_requested s1 fd ans ->
    poll_turn s1 ans flag' order' = (TDone evs', s') ->
    forall e', (fd, e') ∉ evs'.
Proof.
  intros o s fd r e rs num flag order evs s0 s1 ans flag' order' evs' s' Ho Hr H1 H2 H3 H4 H5 H6 H7
    H8 H9 H10 H11.
  exact (oneshot_once o s fd r e rs num flag order evs s0 ans flag' order' evs' s'
    Hr Ho H1 H2 H3 H4 H5 H6 s1 H7 H8 H9 H10 H11).
Qed.
Print Assumptions C30_oneshot_once_unless_hup_partial.

Example C30_partial_nonvacuous :
  exists evs s0 s1 evs' s', poll_turn s_ab (PollRet [0; 1; 0; 0]%N 1) false [12; 10; 11]%Z = (TDone evs, s0) /\
    (10%Z, Ev 1%N true false 1%N) ∈ evs /\
    s1 = (do_call o34 s0 (CDelete 11)).2 /\ meanwhile o34 10 s0 s1 /\
    only_requested s1 10 (PollRet [0; 0; 1]%N 1) /\
    poll_turn s1 (PollRet [0; 0; 1]%N 1) false [10; 12]%Z = (TDone evs', s') /\ length evs' = 1.
Proof.
  eexists _, _, _, _, _. split; [vm_compute; reflexivity|]. split; [left|]. split; [reflexivity|].
  split; [apply mean_call; [constructor|done]|]. split.
  { intros [|[|[|i]]] pf f Hp Hfd Hf; vm_compute in Hp, Hf; simplify_eq; reflexivity. }
  split; [vm_compute; reflexivity|reflexivity].
Qed.

(** ** C13, poll backend *)
(** Refuted: the events that were in the container are gone after a successful wait. *)
Theorem C13_poll_wait_does_not_append_refuted :
  exists s start timeout evs c e,
    reachable o34 s /\ e ∈ c /\
    let '(r, c', _, _) := poll_wait unix_instant_max start timeout evs s c in
    r = Ok tt /\ c' <> [] /\ e ∉ c'.
Proof.
  exists s_ab, 0%Z, None, [WPoll 5%Z (PollRet [0; 1; 0; 0]%N 1) false [12; 10; 11]%Z], [rd 77], (rd 77).
  split; [apply s_ab_reachable|]. split; [left|]. vm_compute. split; [done|]. split; [done|].
  intros H. inversion H as [|? ? ? H']; subst. inversion H'.
Qed.
Print Assumptions C13_poll_wait_does_not_append_refuted.

(** What holds: after a wait the container holds exactly what the last poll(2) call of this wait returned, or nothing
    when the wait gave way to a notification before calling poll(2), or failed. *)
Theorem C13_poll_wait_replaces_partial :
  forall o imax start timeout evs s c r c' s' ts,
    wf_own o -> reachable o s -> conforming o s evs -> ends imax start timeout evs s ->
    poll_wait imax start timeout evs s c = (r, c', s', ts) ->
    (c' = [] /\ (r <> Ok tt \/ WNotified r ∈ evs)) \/
    (r = Ok tt /\ exists s1 now rs num flag order, WPoll now (PollRet rs num) flag order ∈ evs /\ reachable o s1 /\
       posix_answer s1 (PollRet rs num) /\ holds_exactly s1 rs c').
Proof. exact wait_replaces. Qed.
Print Assumptions C13_poll_wait_replaces_partial.
(** The notifier wakes the first poll(2) call, another thread adds a descriptor, the second call reports one. *)
Example C13_poll_replaces_case :
  let evs := [WPoll 5%Z (PollRet [1; 0; 0; 0]%N 1) false [12; 10; 11]%Z;
              WPoll 6%Z (PollRet [0; 1; 0; 0]%N 1) false [12; 10; 11]%Z] in
  conforming o34 s_ab evs /\ ends unix_instant_max 0 None evs s_ab /\
  (poll_wait unix_instant_max 0%Z None evs s_ab [rd 77]).1.1 = (Ok tt, [Ev 1%N true false 1%N]).
Proof.
  intros evs. assert (H : hash_order s_ab [12; 10; 11]%Z) by apply C29_nonvacuous.
  split_and!; [|by vm_compute|by vm_compute]. unfold evs. cbn [conforming]. split_and!; [by vm_compute|exact H|].
  destruct (poll_turn s_ab (PollRet [1; 0; 0; 0]%N 1) false [12; 10; 11]%Z) as [t z] eqn:E. vm_compute in E. injection E as <- <-.
  split_and!; [by vm_compute| |by vm_compute]. destruct H as [H1 H2]. split; [exact H1|]. intros fd. rewrite H2. by vm_compute.
Qed.

(** ** C67 *)
(** However often other threads interrupt a wait to change the table, each poll(2) call gets
    the milliseconds left until the one deadline fixed at the start, rounded up. *)
Theorem C67_poll_timeouts_from_one_deadline :
  forall start d evs s i now t,
    wf_duration d -> (0 <= start)%Z -> (start + TimeSpec.ns d <= unix_instant_max)%Z ->
    pw_timeouts (poll_wait_loop (deadline_of unix_instant_max start (Some d)) evs s) !! i = Some t ->
    readings evs !! i = Some now -> (0 <= now)%Z ->
    exists ms, ((ms - 1) * 1000000 < Z.max 0 (start + TimeSpec.ns d - now) <= ms * 1000000)%Z /\
      t = Z.min ms i32_max.
Proof. exact poll_timeouts_exact. Qed.
Print Assumptions C67_poll_timeouts_from_one_deadline.

Example C67_nonvacuous :
  let evs := [WPoll 0%Z (PollRet [64; 0; 0; 0]%N 1) false [12; 10; 11]%Z; WChange s_ab;
              WPoll 3500000%Z (PollRet [0; 0; 0; 0]%N 0) false [12; 10; 11]%Z] in
  pw_timeouts (poll_wait_loop (deadline_of unix_instant_max 0%Z (Some (Dur 0 5000000))) evs s_ab)
    = [5; 2]%Z /\
  pw_res (poll_wait_loop (deadline_of unix_instant_max 0%Z (Some (Dur 0 5000000))) evs s_ab)
    = Some (Ok tt).
Proof. split; vm_compute; reflexivity. Qed.
