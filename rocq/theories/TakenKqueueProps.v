(** C119 on kqueue: a wait() that has taken events from the system returns Ok. *)
From stdpp Require Import prelude list gmap.
From Verif Require Import Bits Types EventModel KqueueModel KqueueSpec KqueueProofs7 KqueueProps.
Local Open Scope nat_scope.

(** The system has reported to a wait() that has not returned Ok since. *)
Definition holds_step (x : bool) (o : obs) : bool :=
  match o with Reported _ => true | WaitOk => false | _ => x end.
Definition holds_events (h : list obs) : bool := fold_left holds_step h false.
Lemma holds_snoc h o : holds_events (h ++ [o]) = holds_step (holds_events h) o.
Proof. unfold holds_events. by rewrite fold_left_app. Qed.

Definition fails_empty (h : list obs) : Prop := forall h1 e h2, h = h1 ++ WaitErr e :: h2 -> holds_events h1 = false.
Lemma fails_snoc h o : fails_empty h -> (forall e, o = WaitErr e -> holds_events h = false) -> fails_empty (h ++ [o]).
Proof.
  intros F H h1 e h2 E. destruct h2 as [|x h2 _] using rev_ind.
  - apply app_inj_tail in E as [-> ->]. by eapply H.
  - rewrite app_comm_cons, app_assoc in E. apply app_inj_tail in E as [-> _]. by eapply F.
Qed.
Record uinv (s : state) : Prop := {
  u_wait : wait s = Out \/ (exists b m, wait s = WPoll b m) \/ wait s = WRet;
  u_open : holds_events (log s) = true -> wait s = WRet;
  u_fail : fails_empty (log s)
}.
Lemma uinv_quiet s s' d : uinv s -> wait s' = wait s -> log s' = log s ++ d ->
  match d with [] => True | [o] => match o with Reported _ | WaitOk | WaitErr _ => False | _ => True end | _ => False end -> uinv s'.
Proof.
  intros [U1 U2 U3] W L D. destruct d as [|o [|]]; [|destruct o; try done|done].
  all: split; rewrite ?W, ?L, ?app_nil_r, ?holds_snoc; try done; by apply fails_snoc.
Qed.
Lemma uinv_thread c s i p a s' : uinv s -> thread_step c s i p a = Some s' -> uinv s'.
Proof.
  intros U H. destruct p, a; cbn in H; try done; repeat case_match; simplify_eq;
    first [by apply (uinv_quiet s _ [] U); [done|by rewrite app_nil_r|] | by eapply (uinv_quiet s _ [_] U)].
Qed.
Lemma uinv_step c s l s' : noti c = UserEvent -> uinv s -> step c s l = Some s' -> uinv s'.
Proof.
  intros N U H. pose proof U as [U1 U2 U3]. destruct l; cbn [step] in H.
  - destruct (threads s !! i); [|done]. by eapply uinv_thread.
  - simplify_eq. by eapply (uinv_quiet s _ [_] U).
  - simplify_eq. by eapply (uinv_quiet s _ [_] U).
  - destruct (wait s) eqn:W; simplify_eq. split; cbn [wait emit set_wait log].
    + right. left. eauto.
    + rewrite holds_snoc. cbn. intros X. by apply U2 in X.
    + by apply fails_snoc.
  - destruct (wait s) eqn:W; try done. destruct (_ && _); [|done]. rewrite N in H. simplify_eq. split; cbn [wait emit set_wait set_kern log].
    + auto.
    + done.
    + by apply fails_snoc.
  - assert (X : holds_events (log s) = true -> False) by (intros X; apply U2 in X; rewrite X in H; done).
    apply not_true_iff_false in X. destruct (wait s) eqn:W; try done.
    destruct e; simplify_eq; try exact U.
    all: split; cbn [wait emit set_wait log]; [by left|rewrite holds_snoc; cbn; congruence|apply fails_snoc; [done|by intros ? _]].
  - unfold wait_step in H. destruct U1 as [W|[(b & m & W)|W]]; rewrite W in H; [done..|]. simplify_eq.
    split; cbn [wait emit set_wait log]; [by left|by rewrite holds_snoc|by apply fails_snoc].
Qed.
Lemma uinv_reach c excl s : noti c = UserEvent -> reachable c excl s -> uinv s.
Proof.
  intros N. induction 1 as [n|s l s' Hr IH L H]; [|by eapply uinv_step]. unfold init. rewrite N.
  split; [by left|done|]. intros h1 e h2. by destruct h1.
Qed.

(** Where the notifier is a user event a wait() fails only if it has taken nothing from the system.  Missing: the other systems. *)
Theorem C119_kqueue_user_partial c excl s h1 e h2 :
  noti c = UserEvent -> reachable c excl s -> log s = h1 ++ WaitErr e :: h2 -> holds_events h1 = false.
Proof. intros N R. apply (u_fail _ (uinv_reach _ _ _ N R)). Qed.
(** The running wait() has been given events. *)
Definition taken_step (x : bool) (o : obs) : bool :=
  match o with Reported _ => true | WaitBegun | WaitOk | WaitErr _ => false | _ => x end.
Definition taken (h : list obs) : bool := fold_left taken_step h false.
(** What the system answered when the running wait() armed the notifier again. *)
Definition rearm_step (x : option (list (option errno))) (o : obs) : option (list (option errno)) :=
  match o with Rearmed a => Some a | WaitBegun | WaitOk | WaitErr _ => None | _ => x end.
Definition rearm_answer (h : list obs) : option (list (option errno)) := fold_left rearm_step h None.
Definition refuses (h : list obs) (e : io_error) : Prop :=
  exists a x, rearm_answer h = Some a /\ Some x ∈ a /\ x <> ENOENT /\ x <> EPIPE /\ e = EOs x.

Lemma taken_snoc h o : taken (h ++ [o]) = taken_step (taken h) o.
Proof. unfold taken. by rewrite fold_left_app. Qed.
Lemma rearm_snoc h o : rearm_answer (h ++ [o]) = rearm_step (rearm_answer h) o.
Proof. unfold rearm_answer. by rewrite fold_left_app. Qed.
Lemma receipts_err a e : check_receipts (receipts a) = Err e -> exists x, Some x ∈ a /\ x <> ENOENT /\ x <> EPIPE /\ e = EOs x.
Proof.
  induction a as [|o a IH]; [done|]. unfold receipts. cbn [map check_receipts]. unfold serious at 1. cbn [rc_flags rc_data].
  replace (contains EV_ERROR EV_ERROR) with true by reflexivity. intros H.
  destruct o as [x|]; [destruct x|].
  all: first [(injection H as <-; eexists; split; [left|]; by split_and!) | (apply IH in H as (x & H & R); exists x; split; [by right|done])].
Qed.
Definition fails_refused (h : list obs) : Prop :=
  forall h1 e h2, h = h1 ++ WaitErr e :: h2 -> taken h1 = true -> refuses h1 e.
Lemma frefused_snoc h o : fails_refused h -> (forall e, o = WaitErr e -> taken h = true -> refuses h e) -> fails_refused (h ++ [o]).
Proof.
  intros F H h1 e h2 E. destruct h2 as [|x h2 _] using rev_ind.
  - apply app_inj_tail in E as [-> ->]. by eapply H.
  - rewrite app_comm_cons, app_assoc in E. apply app_inj_tail in E as [-> _]. by eapply F.
Qed.
Record pinv (s : state) : Prop := {
  p_fail : forall e, wait s = WFail e -> refuses (log s) e;
  p_open : taken (log s) = true -> match wait s with Out | WPoll _ _ => False | _ => True end;
  p_log : fails_refused (log s)
}.
Lemma pinv_quiet s s' d : pinv s -> wait s' = wait s -> log s' = log s ++ d ->
  match d with [] => True | [o] => match o with Reported _ | WaitBegun | Rearmed _ | WaitOk | WaitErr _ => False | _ => True end | _ => False end -> pinv s'.
Proof.
  intros [U1 U2 U3] W L D. destruct d as [|o [|]]; [|destruct o; try done|done].
  all: split; unfold refuses; rewrite ?W, ?L, ?app_nil_r, ?taken_snoc, ?rearm_snoc; try done; by apply frefused_snoc.
Qed.
Lemma pinv_thread c s i p a s' : pinv s -> thread_step c s i p a = Some s' -> pinv s'.
Proof.
  intros U H. destruct p, a; cbn in H; try done; repeat case_match; simplify_eq;
    first [by apply (pinv_quiet s _ [] U); [done|by rewrite app_nil_r|] | by eapply (pinv_quiet s _ [_] U)].
Qed.
Lemma pinv_step c s l s' : (forall fd, noti c = SocketPair fd -> SFd fd ∈ sources s) -> pinv s -> step c s l = Some s' -> pinv s'.
Proof.
  intros N U H. pose proof U as [U1 U2 U3]. destruct l; cbn [step] in H.
  - destruct (threads s !! i); [|done]. by eapply pinv_thread.
  - simplify_eq. by eapply (pinv_quiet s _ [_] U).
  - simplify_eq. by eapply (pinv_quiet s _ [_] U).
  - destruct (wait s) eqn:W; simplify_eq. split; cbn [wait emit set_wait log]; [done|by rewrite taken_snoc|by apply frefused_snoc].
  - destruct (wait s) eqn:W; try done. destruct (_ && _); [|done]. simplify_eq. split; cbn [wait emit set_wait set_kern log].
    + intros e. by destruct (noti c).
    + by destruct (noti c).
    + by apply frefused_snoc.
  - destruct (wait s) eqn:W; try done. destruct e; simplify_eq; try exact U.
    all: split; cbn [wait emit set_wait log]; [done|by rewrite taken_snoc|apply frefused_snoc; [done|intros ? _ X; destruct (U2 X)]].
  - unfold wait_step in H. destruct (wait s) eqn:W; try done.
    + destruct (noti c) eqn:E; [done|]. simplify_eq. split; cbn [wait emit set_wait set_kern log]; done.
    + destruct (noti c) eqn:E; [done|]. rewrite decide_True in H by auto. simplify_eq. split; cbn [wait emit set_wait set_kern log]; done.
    + destruct (noti c) eqn:E; [done|]. destruct (kevent _ _ _ _) as [a k]. destruct (check_receipts (receipts a)) eqn:R; simplify_eq.
      all: split; cbn [wait emit set_wait set_kern log]; [|done|by apply frefused_snoc].
      all: intros e0 X; simplify_eq. apply receipts_err in R as (x & R). exists a, x. by rewrite rearm_snoc.
    + simplify_eq. split; cbn [wait emit set_wait log]; [done|by rewrite taken_snoc|apply frefused_snoc; [done|]].
      intros e0 X _. simplify_eq. by apply U1.
    + simplify_eq. split; cbn [wait emit set_wait log]; [done|by rewrite taken_snoc|by apply frefused_snoc].
Qed.
Lemma pinv_reach c excl s : reachable c excl s -> pinv s.
Proof.
  induction 1 as [n|s l s' Hr IH L H]; [|eapply pinv_step; [by eapply own_inside|done|done]]. unfold init.
  destruct (noti c); split; try done; intros h1 e h2; by destruct h1.
Qed.

(** On every system a wait() that has taken events fails only with the error with which the system refused to arm the notifier
    again; that the filter was not there (ENOENT) or the peer is gone (EPIPE) does not count.  Missing: that it does not fail then. *)
Theorem C119_kqueue_partial c excl s h1 e h2 :
  reachable c excl s -> log s = h1 ++ WaitErr e :: h2 -> taken h1 = true -> refuses h1 e.
Proof. intros R. apply (p_log _ (pinv_reach _ _ _ R)). Qed.
(** Where it is a socket pair, a wait() that has taken the event of a one-shot source fails because the system has no memory to
    arm the notifier again: the source is disarmed. *)
Theorem C119_kqueue_refuted : exists c s h fd e b,
  reachable c true s /\ log s = h ++ [WaitErr e] /\ holds_events h = true /\ Reported b ∈ h
  /\ (exists ev, (FRead fd, ev) ∈ b) /\ WaitOk ∉ h /\ (exists i, Returned i (CAdd fd (ev 7 true false) Oneshot) (Ok tt) ∈ h)
  /\ notes (kern s) !! FRead fd = None.
Proof.
  runs netbsd true 1 (do_add 0 10 (ev 7 true false) Oneshot [None] ++
    [LHappen (FRead 10) (Some 0%N) true; LWait true 8; LReport [FRead 10]; LWaitGo []; LWaitGo []; LWaitGo [Some ENOMEM]; LWaitGo []]) s Hr Hl E.
  eexists netbsd, s, (take (length (log s) - 1) (log s)), 10%N, _, _. split; [done|]. gets E (fun s => notes (kern s) !! FRead 10) (@None knote) H.
  rewrite H, Hl. cbn [length take Nat.sub]. split; [reflexivity|]. split; [reflexivity|]. split; [do 5 right; left|].
  split; [eexists; left|]. split; [|split; [exists 0; do 2 right; left|done]].
  intros X. repeat (apply elem_of_cons in X as [X|X]; [discriminate X|]). by apply not_elem_of_nil in X.
Qed.

(** A wait() that fails where the notifier is a user event. *)
Example C119_kqueue_case : exists s h1 e h2, noti freebsd = UserEvent /\ reachable freebsd true s /\ log s = h1 ++ WaitErr e :: h2 /\ (exists b, Reported b ∈ h1).
Proof.
  runs freebsd true 1 (do_add 0 10 (ev 7 true false) Level [None] ++
    [LHappen (FRead 10) (Some 0%N) true; LWait true 8; LReport [FRead 10]; LWaitGo []; LWait true 8; LWaitFail ENOMEM]) s Hr Hl E.
  eexists s, (take (length (log s) - 1) (log s)), _, []. split; [done|]. split; [done|]. rewrite Hl. cbn [length take Nat.sub].
  split; [reflexivity|]. eexists. do 5 right. left.
Qed.
(** A wait() that fails after taking events. *)
Example C119_kqueue_pair_case : exists s h1 e h2, reachable netbsd true s /\ log s = h1 ++ WaitErr e :: h2 /\ taken h1 = true.
Proof.
  runs netbsd true 1 (do_add 0 10 (ev 7 true false) Oneshot [None] ++
    [LHappen (FRead 10) (Some 0%N) true; LWait true 8; LReport [FRead 10]; LWaitGo []; LWaitGo []; LWaitGo [Some ENOMEM]; LWaitGo []]) s Hr Hl E.
  eexists s, (take (length (log s) - 1) (log s)), _, []. split; [done|]. rewrite Hl. cbn [length take Nat.sub]. by split.
Qed.
Print Assumptions C119_kqueue_user_partial.
Print Assumptions C119_kqueue_partial.
Print Assumptions C119_kqueue_refuted.
