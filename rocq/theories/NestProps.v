(** C112 on epoll: the descriptor of a poller tells whether a wait would return.  [c] is the
    poller's configuration (with or without a timerfd), [reachable c s] ranges over all histories
    of calls, readiness changes, notifications, timer expiries, waits and failures. *)
From stdpp Require Import prelude list gmap.
From Verif Require Import Bits Types EventModel EventSpec EventProofs EpollModel EpollSpec
  EpollProofs EpollProofs2 EpollProofs3 EpollProofs4 EpollProps NestSpec NestProofs.
Local Open Scope nat_scope.

(** A source that a wait would report makes the poller's descriptor readable. *)
Theorem C112_epoll_source c s fd e m n :
  wf_config c -> reachable c s -> user_fd c fd ->
  registered fd (log s) = Some (e, m) -> ~ mode_edge m -> ~ spent fd (log s) ->
  watched e n -> bit (readiness fd (log s)) n -> epoll_readable (kern s).
Proof.
  intros Hc Hr Hu R Hm Hsp Hw Hb. rewrite <- (ready_log c) in Hb by done.
  destruct (level_queued c s fd e m n Hc Hr Hu R Hm Hsp Hw Hb) as (it & Hit & _ & _ & _ & Hne & Hq).
  exists fd, it. split; [done|]. split; [done|]. by apply poll_nonzero.
Qed.
(** So does an edge-triggered one with news that was not reported yet. *)
Theorem C112_epoll_news c s l s1 s2 fd e m n :
  wf_config c -> reachable c s -> legal c s l -> step c s l = Some s1 -> user_fd c fd ->
  registered fd (log s1) = Some (e, m) -> ~ spent fd (log s1) -> news fd e s s1 ->
  undisturbed c fd s1 s2 -> watched e n -> bit (readiness fd (log s2)) n -> epoll_readable (kern s2).
Proof.
  intros Hc Hr Hl Hs Hu R Hsp Hn Hud Hw Hb.
  by apply (news_readable c s l s1 s2 fd e m n).
Qed.
(** So does a notification. *)
Theorem C112_epoll_notified c s h h' :
  wf_config c -> reachable c s -> log s = h ++ Notified :: h' -> returning h = false ->
  Forall (fun o => forall b, o <> Reported b) h' -> wait_broken (log s) = false ->
  epoll_readable (kern s).
Proof.
  intros Hc Hr El Hret HF Hbr. pose proof (inv_reachable _ _ Hc Hr) as Hi.
  destruct (signalled_since _ _ _ _ Hc Hr El Hret HF) as [Hsig Hrt].
  destruct (noti_reachable _ _ Hc Hr) as (N1 & N2 & N3).
  destruct (N3 Hrt Hbr) as (it & Hit & Hev). rewrite Hsig in N2.
  assert (Hne : is_empty (item_poll (kern s) (notifier c) it) = false).
  { destruct (is_empty _) eqn:E; [|done]. exfalso. eapply poll_ready in E; [|done|done]. apply E. rewrite N2. done. }
  exists (notifier c), it. split; [|split; [done|by apply poll_nonzero]].
  apply (kv_queue _ (iv_kern _ _ Hi) _ it Hit); [|done]. rewrite Hev. vm_compute. reflexivity.
Qed.
(** There is no other reason, but the deadline of an earlier wait. *)
Theorem C112_epoll_reason c s :
  wf_config c -> reachable c s -> wait s = Out -> epoll_readable (kern s) ->
  (exists fd e m n, user_fd c fd /\ registered fd (log s) = Some (e, m) /\ ~ spent fd (log s) /\
     watched e n /\ bit (readiness fd (log s)) n) \/
  unanswered (log s) \/ overdue (log s).
Proof. exact (readable_reason c s). Qed.
(** What a wait would return at once makes the descriptor readable. *)
Theorem C112_epoll_complete c s max :
  wf_config c -> reachable c s -> wait s = Out -> 0 < max -> returns_at_once c s max ->
  epoll_readable (kern s).
Proof. exact (returns_readable c s max). Qed.
(** And if the descriptor is readable a wait returns at once.  Missing: when the timer was left
    running by an earlier wait and has expired; there it is false, as shown next. *)
Theorem C112_epoll_sound_partial c s max :
  wf_config c -> reachable c s -> wait s = Out -> 0 < max -> ~ overdue (log s) ->
  epoll_readable (kern s) -> returns_at_once c s max.
Proof. intros. by apply readable_returns. Qed.
(** Without a timerfd nothing is missing. *)
Theorem C112_epoll_sound_no_timerfd c s max :
  wf_config c -> timer c = None -> reachable c s -> wait s = Out -> 0 < max ->
  epoll_readable (kern s) -> returns_at_once c s max.
Proof.
  intros Hc Ht Hr Hw Hm Hrd. apply readable_returns; try done.
  intros (h1 & h2 & El & _). clear Hrd Hw. revert h2 El. induction Hr as [|s l s' Hr IH Hl Hs]; intros h2 El.
  { unfold init in El. by destruct h1. }
  destruct (log_grows _ _ _ _ Hs) as [E|[o E]]; [rewrite E in El; by eapply IH|].
  rewrite E in El. apply snoc_split in El as [(-> & El & ->)|(h3 & -> & El)]; [|by eapply IH].
  clear -Hs E Ht. destruct l; cbn [step] in Hs; rewrite ?Ht in Hs; repeat case_match; simplify_eq;
    cbn [log emit set_wait set_kern] in E;
    first [apply app_inv_head in E; done | apply (f_equal length) in E; rewrite app_length in E; cbn in E; lia].
Qed.

(** A wait with a timeout is ended by a source; the source is then no longer ready, and the
    deadline, which was for the first wait only, passes.  The descriptor is readable although a
    wait made now would sleep. *)
Definition late : list label :=
  [LAdd 10 (ev 7) Level None; LHappen 10 EPOLLIN EPOLLIN; LWait (Some true) 8; LGo; LGo; LGo; LGo; LGo;
   LHappen 10 0 0; LExpire].
Definition late_state (n : nat) : state := default (init demo) (run demo (init demo) (take n late)).
Local Ltac user := split; intros H; vm_compute in H; discriminate H.
Lemma late_legal : Forall (fun l => forall s, legal demo s l) late.
Proof.
  repeat (apply Forall_cons; split; [intros s;
    first [exact I | (simpl; lia) | user | (split; [user|by apply usable_new]) | (apply happen_legal; user)
          | (split; [user|split; intros ? Hb; exfalso; by apply bit_0 in Hb])]|]).
  by apply Forall_nil.
Qed.
Lemma late_reachable n : reachable demo (late_state n).
Proof.
  unfold late_state. destruct (run demo (init demo) (take n late)) as [s|] eqn:E; simpl; [|apply reach_init].
  eapply run_reachable; [apply reach_init| |done]. apply Forall_take, late_legal.
Qed.
Theorem C112_epoll_refuted : exists c s,
  wf_config c /\ reachable c s /\ wait s = Out /\ epoll_readable (kern s) /\
  (forall fd e m n, registered fd (log s) = Some (e, m) -> watched e n -> ~ bit (readiness fd (log s)) n) /\
  Notified ∉ log s /\ (forall max, 0 < max -> ~ returns_at_once c s max).
Proof.
  exists demo, (late_state 10). split; [apply demo_wf|]. split; [apply late_reachable|].
  split; [vm_compute; reflexivity|]. split; [|split; [|split]].
  - exists 4%Z. eexists. split; [|split; [vm_compute; reflexivity|by vm_compute]].
    vm_compute. right. left.
  - intros fd e m n R _ Hb. destruct (decide (fd = 10%Z)) as [->|D].
    + revert Hb. replace (readiness 10 (log (late_state 10))) with 0%N by (vm_compute; reflexivity). apply bit_0.
    + assert (registered fd (log (late_state 10)) = if decide (10%Z = fd) then Some (ev 7, Level) else None) as E.
      { let l := eval vm_compute in (log (late_state 10)) in change (log (late_state 10)) with l.
        cbn. case_decide; done. }
      rewrite E, decide_False in R by congruence. done.
  - intros H. let l := eval vm_compute in (log (late_state 10)) in change (log (late_state 10)) with l in H.
    repeat (apply elem_of_cons in H as [H|H]; [discriminate H|]). by apply elem_of_nil in H.
  - intros max Hm (s' & h & b & E & _). destruct max as [|max]; [lia|]. vm_compute in E. discriminate E.
Qed.

(** ** The hypotheses are met *)
(** A level-triggered and an edge-triggered source are ready, and a notification is pending. *)
Example C112_epoll_nonvacuous :
  registered 10 (log (demo_state 7)) = Some (ev 7, Level) /\ watched (ev 7) b_in /\
  bit (readiness 10 (log (demo_state 7))) b_in /\ user_fd demo 10 /\
  (exists h h', log (demo_state 7) = h ++ Notified :: h' /\ returning h = false /\
     Forall (fun o => forall b, o <> Reported b) h') /\
  wait_broken (log (demo_state 7)) = false /\ wait (demo_state 7) = Out /\
  ~ overdue (log (demo_state 7)) /\ returns_at_once demo (demo_state 7) 8.
Proof.
  split; [vm_compute; reflexivity|]. split; [left; split; [done|by left]|].
  split; [vm_compute; reflexivity|]. split; [user|]. split.
  { exists (take 6 (log (demo_state 7))), []. split; [vm_compute; reflexivity|]. split; [vm_compute; reflexivity|by apply Forall_nil]. }
  split; [vm_compute; reflexivity|]. split; [vm_compute; reflexivity|].
  assert (Ho : ~ overdue (log (demo_state 7))).
  { rewrite overdue_iff. vm_compute. discriminate. }
  split; [done|]. apply C112_epoll_sound_partial; [apply demo_wf|apply demo_reachable|vm_compute; reflexivity|lia|done|].
  apply (C112_epoll_source demo _ 10 (ev 7) Level b_in); [apply demo_wf|apply demo_reachable|user|vm_compute; reflexivity| | | |].
  - by intros [|].
  - apply (level_unspent 10 _ (ev 7) Level); [vm_compute; reflexivity|by intros [|]].
  - left. split; [done|by left].
  - vm_compute. reflexivity.
Qed.
(** The source 12, edge-triggered, becomes ready. *)
Example C112_epoll_news_nonvacuous :
  step demo (demo_state 5) (LHappen 12 EPOLLIN EPOLLIN) = Some (demo_state 6) /\
  registered 12 (log (demo_state 6)) = Some (ev 9, Edge) /\ ~ spent 12 (log (demo_state 6)) /\
  news 12 (ev 9) (demo_state 5) (demo_state 6) /\ epoll_readable (kern (demo_state 6)).
Proof.
  assert (H1 : step demo (demo_state 5) (LHappen 12 EPOLLIN EPOLLIN) = Some (demo_state 6)) by (vm_compute; reflexivity).
  assert (H2 : registered 12 (log (demo_state 6)) = Some (ev 9, Edge)) by (vm_compute; reflexivity).
  assert (H3 : ~ spent 12 (log (demo_state 6))).
  { apply (level_unspent 12 _ (ev 9) Edge); [done|by intros [|]]. }
  assert (H4 : news 12 (ev 9) (demo_state 5) (demo_state 6)).
  { left. exists EPOLLIN, EPOLLIN, b_in. split; [vm_compute; reflexivity|]. split; [left; split; [done|by left]|].
    vm_compute. reflexivity. }
  split; [done|]. split; [done|]. split; [done|]. split; [done|].
  apply (C112_epoll_news demo (demo_state 5) (LHappen 12 EPOLLIN EPOLLIN) (demo_state 6) (demo_state 6) 12 (ev 9) Edge b_in);
    [apply demo_wf|apply demo_reachable|apply happen_legal; user|exact H1|user|exact H2|exact H3|exact H4|constructor
    |left; split; [done|by left]|vm_compute; reflexivity].
Qed.
(** Without a timerfd, and a notification. *)
Example C112_epoll_no_timerfd_nonvacuous :
  exists s, reachable (Config 3 None) s /\ wait s = Out /\ epoll_readable (kern s).
Proof.
  destruct (step (Config 3 None) (init (Config 3 None)) LNotify) as [s|] eqn:E; [|by vm_compute in E].
  assert (Hr : reachable (Config 3 None) s) by exact (reach_step _ _ LNotify s (reach_init _) I E).
  exists s. split; [done|]. cbn [step] in E. injection E as <-. split; [done|].
  apply (C112_epoll_notified (Config 3 None) _ [] []); [done|done|done|done|by apply Forall_nil|done].
Qed.

Print Assumptions C112_epoll_source.
Print Assumptions C112_epoll_news.
Print Assumptions C112_epoll_notified.
Print Assumptions C112_epoll_reason.
Print Assumptions C112_epoll_complete.
Print Assumptions C112_epoll_sound_partial.
Print Assumptions C112_epoll_sound_no_timerfd.
Print Assumptions C112_epoll_refuted.
