(** C112 on kqueue: what a wait would report makes the descriptor of the poller readable.
    [reachable c excl s] ranges over all histories of calls, readiness changes, notifications,
    waits and failures.  The other direction is not stated: see [kqueue_readable]. *)
From stdpp Require Import prelude list gmap.
From Verif Require Import Bits Types EventModel EventSpec EventProofs LibModel KqueueModel KqueueSpec KqueueProofs
  KqueueProofs2 KqueueProofs3 KqueueProofs4 KqueueProofs7 KqueueProps NestSpec.
Local Open Scope nat_scope.

Lemma due_readable c excl s f k m fl : reachable c excl s -> ~ own_filter c f -> is_fd_filter f ->
  armed (keeps c) f (log s) = Some (k, m) -> due f (kern s) -> readiness f (log s) = Some fl ->
  kqueue_readable (kern s).
Proof.
  intros Hr Hf Hfd Ha Hd Hrd. pose proof (inv_reach _ _ _ Hr) as Hi.
  pose proof (iv_note _ _ Hi f Hf) as Hok. rewrite Ha in Hok. destruct Hok as (n & Hn & _).
  pose proof (iv_pend _ _ Hi f Hf Hfd) as Hp. rewrite Hrd in Hp.
  assert (Hpd : is_pending (kern s) f = true) by (apply is_pending_iff; rewrite Hp; eauto).
  exists f, n. auto.
Qed.
(** A source that is ready and watched in a mode that is not edge-triggered. *)
Theorem C112_kqueue_source c excl s f k m fl :
  reachable c excl s -> ~ own_filter c f -> is_fd_filter f ->
  armed (keeps c) f (log s) = Some (k, m) -> ~ mode_edge m -> readiness f (log s) = Some fl ->
  kqueue_readable (kern s).
Proof. intros. eapply due_readable; eauto. by eapply level_due. Qed.
(** A source with news: just registered, or just become ready. *)
Theorem C112_kqueue_news c excl s l s' f k m fl :
  reachable c excl s -> legal c excl s l -> step c s l = Some s' -> ~ own_filter c f -> is_fd_filter f ->
  news f s s' -> armed (keeps c) f (log s') = Some (k, m) -> readiness f (log s') = Some fl ->
  kqueue_readable (kern s').
Proof.
  intros Hr Hl Hs Hf Hfd Hn Ha Hrd. eapply (due_readable c excl s'); eauto; [by eapply reach_step|].
  eapply (news_due c excl s); eauto. by eapply inv_reach.
Qed.
(** A notification, while nobody is on the way back from the kernel. *)
Theorem C112_kqueue_notified c excl s :
  reachable c excl s -> wait s = Out \/ (exists sl max, wait s = WPoll sl max) -> owed (log s) = true ->
  (noti c = UserEvent \/ rearmed (log s) = true) -> kqueue_readable (kern s).
Proof.
  intros Hr Hw Ho Hre. destruct (ninv_reach _ _ _ Hr) as (H1 & H2 & H3 & H4).
  assert (Hp : is_pending (kern s) (noti_filter c) = true) by (apply H3; eauto).
  assert (exists n, notes (kern s) !! noti_filter c = Some n) as [n Hn].
  { destruct (noti c) as [|fd] eqn:En; [destruct H4 as ((n & Hn & _) & _); eauto|].
    destruct Hre as [?|Hre]; [done|]. destruct H4 as (_ & H5 & _).
    destruct Hw as [Hw|(sl & max & Hw)]; apply H5; rewrite ?Hw; done. }
  exists (noti_filter c), n. auto.
Qed.

(** A level-triggered source is ready, and a notification was sent. *)
Example C112_kqueue_nonvacuous : exists s, reachable freebsd true s /\
  armed true (FRead 10) (log s) = Some (7%N, Level) /\ readiness (FRead 10) (log s) = Some 0%N /\
  owed (log s) = true /\ wait s = Out /\ kqueue_readable (kern s).
Proof.
  runs freebsd true 1 (do_add 0 10 (ev 7 true false) Level [] ++
    [LHappen (FRead 10) (Some 0%N) true; LThread 0 CallNotify; LThread 0 (Kernel_ok []); go 0]) s Hr Hl E.
  assert (A : armed true (FRead 10) (log s) = Some (7%N, Level)) by (rewrite Hl; vm_compute; reflexivity).
  assert (R : readiness (FRead 10) (log s) = Some 0%N) by (rewrite Hl; vm_compute; reflexivity).
  exists s. split; [done|]. split; [done|]. split; [done|]. split; [rewrite Hl; vm_compute; reflexivity|].
  gets E wait Out H. split; [done|]. clear E.
  apply (C112_kqueue_source freebsd true s (FRead 10) 7 Level 0%N); [done|intros X; vm_compute in X; discriminate X| |done| |done].
  - exists 10%N. by left.
  - by intros [|].
Qed.

Print Assumptions C112_kqueue_source.
Print Assumptions C112_kqueue_news.
Print Assumptions C112_kqueue_notified.
