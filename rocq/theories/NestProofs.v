(** Lemmas for the descriptor of a poller inside another poller (epoll part). *)
From stdpp Require Import prelude list gmap.
From Verif Require Import Bits Types EventModel EventSpec EventProofs EpollModel EpollSpec
  EpollProofs EpollProofs2 EpollProofs3 EpollProofs4 NestSpec.
Local Open Scope nat_scope.

Lemma poll_nonzero k fd it : item_poll k fd it <> 0%N <-> is_empty (item_poll k fd it) = false.
Proof. unfold is_empty. by rewrite N.eqb_neq. Qed.

Lemma overdue_iff h : overdue h <-> fold_left texp h false = true.
Proof.
  induction h as [|o h IH] using rev_ind.
  { split; [|done]. intros (h1 & h2 & E & _). by destruct h1. }
  rewrite texp_snoc. split.
  - intros (h1 & h2 & E & HF). apply snoc_split in E as [(-> & -> & ->)|(h3 & -> & ->)]; [done|].
    apply Forall_app in HF as [HF Ho]. apply Forall_cons in Ho as [Ho _].
    assert (fold_left texp (h1 ++ Expired :: h3) false = true) as Hx by (apply IH; exists h1, h3; auto).
    rewrite Hx. destruct o; try done. by destruct (Ho t).
  - intros H.
    assert (Hk : fold_left texp h false = true -> (forall t, o <> TimerSet t) -> overdue (h ++ [o])).
    { intros (h1 & h2 & -> & HF)%IH Ho. exists h1, (h2 ++ [o]). rewrite <- app_assoc. split; [done|].
      apply Forall_app. split; [done|]. by apply Forall_cons. }
    destruct o; try (by apply Hk; [exact H|]). 1: exists h, []; done. done.
Qed.

(** The timer's descriptor is readable from its expiry until it is set again. *)
Lemma timer_mask c s fd : wf_config c -> reachable c s -> timer c = Some fd ->
  ready (kern s) fd = if fold_left texp (log s) false then EPOLLIN else 0%N.
Proof.
  intros Hc Hr Ht. induction Hr as [|s l s' Hr IH Hl Hs].
  { unfold init. rewrite Ht. unfold sys_add, ctl_add. repeat case_match; simplify_eq; done. }
  assert (Hnt : fd <> notifier c) by (intros ->; by apply Hc).
  destruct l as [g e m f|g e m f|g f|g|g m key| | |t max| |e]; cbn [step legal] in Hs, Hl.
  - destruct (sys_add _ _ _ _ _) as [r k] eqn:E. injection Hs as <-. cbn [log kern emit set_kern]. rewrite texp_snoc.
    cbn [texp]. rewrite <- IH. apply add_cases in E as [(_ & _ & _ & ->)|(x & _ & -> & _)]; done.
  - destruct (sys_modify _ _ _ _ _) as [r k] eqn:E. injection Hs as <-. cbn [log kern emit set_kern]. rewrite texp_snoc.
    cbn [texp]. rewrite <- IH. apply modify_cases in E as [(_ & _ & _ & ->)|(x & _ & -> & _)]; done.
  - destruct (sys_delete _ _ _) as [r k] eqn:E. injection Hs as <-. cbn [log kern emit set_kern]. rewrite texp_snoc.
    cbn [texp]. rewrite <- IH. apply delete_cases in E as [(_ & _ & _ & ->)|(x & _ & -> & _)]; done.
  - destruct Hl as [Hu1 Hu2]. injection Hs as <-. cbn [log kern emit set_kern]. rewrite texp_snoc.
    cbn [texp]. rewrite <- IH, ready_set, decide_False by congruence. done.
  - destruct Hl as [[Hu1 Hu2] _]. injection Hs as <-. cbn [log kern emit set_kern]. rewrite texp_snoc.
    cbn [texp]. rewrite <- IH. by destruct (wake_other (kern s) g m key fd) as (_ & I2 & _); [congruence|].
  - injection Hs as <-. cbn [log kern emit]. rewrite texp_snoc.
    cbn [texp]. rewrite <- IH. by destruct (wake_other (kern s) (notifier c) EPOLLIN EPOLLIN fd) as (_ & I2 & _).
  - rewrite Ht in Hs. destruct (clock s); [|done]. injection Hs as <-. cbn [log kern emit]. rewrite texp_snoc.
    cbn [texp]. unfold ready at 1. rewrite wake_masks. fold (ready (set_ready (kern s) fd EPOLLIN) fd).
    by rewrite ready_set, decide_True.
  - destruct (wait s); try done. injection Hs as <-. cbn [log kern emit set_wait]. by rewrite texp_snoc.
  - destruct (wait s) as [|t max|t max|t max|b|b] eqn:Hw; try done.
    + rewrite Ht in Hs. injection Hs as <-. cbn [log kern]. by rewrite texp_snoc, ready_set, decide_True.
    + rewrite Ht in Hs. destruct (sys_modify _ _ _ _ _) as [r k] eqn:E.
      apply modify_cases in E as [(-> & _ & Hn & ->)|(x & -> & -> & _)]; injection Hs as <-;
        cbn [log kern emit set_wait set_kern]; [done|by rewrite texp_snoc].
    + destruct (epoll_wait (kern s) max) as [b k] eqn:E. destruct (sleeps c t && _); [done|].
      injection Hs as <-. cbn [log kern emit set_wait set_kern]. rewrite texp_snoc. cbn [texp]. rewrite <- IH.
      pose proof (inv_reachable _ _ Hc Hr) as Hi.
      destruct (wait_spec _ _ _ _ (iv_kern _ _ Hi) E) as (dn & rest & _ & _ & _ & E4 & _).
      unfold ready. by rewrite E4.
    + injection Hs as <-. cbn [log kern set_wait]. by rewrite ready_set, decide_False.
    + destruct (sys_modify _ _ _ _ _) as [r k] eqn:E.
      apply modify_cases in E as [(-> & _ & Hn & ->)|(x & -> & -> & _)]; injection Hs as <-;
        cbn [log kern emit set_wait set_kern]; by rewrite texp_snoc.
  - destruct (wait s); try done; injection Hs as <-; cbn [log kern emit set_wait]; by rewrite texp_snoc.
Qed.

(** If the notifier has been written to and nobody is on the way back, a notification is unanswered. *)
Lemma signalled_unanswered c s : reachable c s -> signalled s = true ->
  (forall b, wait s <> WClear b) -> unanswered (log s).
Proof.
  intros Hr. induction Hr as [|s l s' Hr IH Hl Hs].
  { unfold init. done. }
  assert (Hk : forall o, (forall b, o <> Reported b) -> unanswered (log s) -> unanswered (log s ++ [o])).
  { intros o Ho (h1 & h2 & -> & HF). exists h1, (h2 ++ [o]). rewrite <- app_assoc. split; [done|].
    apply Forall_app. split; [done|]. by apply Forall_cons. }
  destruct l as [g e m f|g e m f|g f|g|g m key| | |t max| |e]; cbn [step legal] in Hs, Hl.
  - destruct (sys_add _ _ _ _ _) as [r k] eqn:E. injection Hs as <-. intros. apply Hk; [done|by apply IH].
  - destruct (sys_modify _ _ _ _ _) as [r k] eqn:E. injection Hs as <-. intros. apply Hk; [done|by apply IH].
  - destruct (sys_delete _ _ _) as [r k] eqn:E. injection Hs as <-. intros. apply Hk; [done|by apply IH].
  - injection Hs as <-. intros. apply Hk; [done|by apply IH].
  - injection Hs as <-. intros. apply Hk; [done|by apply IH].
  - injection Hs as <-. intros _ _. exists (log s), []. done.
  - destruct (timer c); [|done]. destruct (clock s); [|done]. injection Hs as <-. intros. apply Hk; [done|by apply IH].
  - destruct (wait s) eqn:Hw; try done. injection Hs as <-. intros. apply Hk; [done|apply IH; [done|by rewrite ?Hw]].
  - destruct (wait s) as [|t max|t max|t max|b|b] eqn:Hw; try done.
    + destruct (timer c); [|done]. injection Hs as <-. intros. apply Hk; [done|apply IH; [done|by rewrite ?Hw]].
    + destruct (timer c); [|done]. destruct (sys_modify _ _ _ _ _) as [[]]; try done; injection Hs as <-; intros;
        [|apply Hk; [done|]]; apply IH; try done; by rewrite ?Hw.
    + destruct (epoll_wait _ _) as [b k]. destruct (_ && _); [done|]. injection Hs as <-. cbn. intros _ H. by destruct (H b).
    + by injection Hs as <-.
    + destruct (sys_modify _ _ _ _ _) as [[]]; try done; injection Hs as <-; intros; (apply Hk; [done|]); apply IH; try done; by rewrite ?Hw.
  - destruct (wait s) eqn:Hw; try done; injection Hs as <-; intros; (apply Hk; [done|]); apply IH; try done; by rewrite ?Hw.
Qed.

(** Why a poller's descriptor is readable. *)
Lemma readable_reason c s : wf_config c -> reachable c s -> wait s = Out -> epoll_readable (kern s) ->
  (exists fd e m n, user_fd c fd /\ registered fd (log s) = Some (e, m) /\ ~ spent fd (log s) /\
     watched e n /\ bit (readiness fd (log s)) n) \/
  unanswered (log s) \/ overdue (log s).
Proof.
  intros Hc Hr Hw (fd & it & Hq & Hit & Hne). pose proof (inv_reachable _ _ Hc Hr) as Hi.
  pose proof (kv_plain _ (iv_kern _ _ Hi) fd) as Hpl.
  assert (Hrd : ready (kern s) fd <> 0%N) by (intros E; apply Hne; unfold item_poll; by rewrite E).
  destruct (decide (fd = notifier c)) as [->|Hn].
  { right. left. apply (signalled_unanswered c); [done| |by rewrite Hw].
    destruct (noti_reachable _ _ Hc Hr) as (_ & N2 & _). destruct (signalled s); [done|]. by rewrite N2 in Hrd. }
  destruct (decide (timer c = Some fd)) as [Ht|Ht].
  { right. right. apply overdue_iff. pose proof (timer_mask _ _ _ Hc Hr Ht) as H.
    destruct (fold_left texp (log s) false); [done|]. by rewrite H in Hrd. }
  left. assert (Hu : user_fd c fd) by done. pose proof (iv_user _ _ Hi fd Hu) as Hm. rewrite Hit in Hm.
  destruct (registered fd (log s)) as [[e m]|] eqn:R; [|done]. destruct Hm as [Hsh _].
  apply poll_nonzero in Hne.
  pose proof (shape_armed _ _ _ _ _ Hpl Hsh Hne) as He.
  pose proof Hne as [n Hb]%nonempty_iff. unfold item_poll in Hb. rewrite He in Hb. apply bit_land in Hb as [Hb1 Hb2].
  exists fd, e, m, n. split; [done|]. split; [done|]. split.
  { intros Hsp. destruct (spent_mute _ _ _ Hc Hr Hu Hsp it Hit) as [w Hx]. unfold item_poll in Hne. by rewrite Hx, disarmed_poll in Hne. }
  split; [|by rewrite <- (ready_log c)].
  apply ctl_word_bit in Hb2 as [?|[[_ ->]|[_ ->]]]; [done| |]; apply Hpl in Hb1; vm_compute in Hb1; done.
Qed.

(** The state in which a wait made now asks the kernel. *)
Definition asking (c : config) (s : state) (max : nat) (s1 : state) : Prop :=
  wait s1 = WPoll None max /\
  (forall s', run c s (wait_now c max) = Some s' <-> step c s1 LGo = Some s') /\
  reachable c s1 /\
  forall fd it, timer c <> Some fd ->
    (fd ∈ rdl (kern s1) <-> fd ∈ rdl (kern s)) /\ (items (kern s1) !! fd = Some it <-> items (kern s) !! fd = Some it) /\
    item_poll (kern s1) fd it = item_poll (kern s) fd it.
Lemma wait_asks c s max : wf_config c -> reachable c s -> wait s = Out -> 0 < max ->
  exists s1, asking c s max s1 /\ (forall fd, timer c = Some fd -> ready (kern s1) fd = 0%N).
Proof.
  intros Hc Hr Hw Hm. pose proof (inv_reachable _ _ Hc Hr) as Hi. unfold asking, wait_now.
  destruct (timer c) as [t|] eqn:Ht.
  - set (k1 := set_ready (kern s) t 0).
    destruct (iv_timer _ _ Hi t Ht) as (it0 & e0 & Hit0 & _).
    set (k2 := install k1 t (epoll_interest own_readable Oneshot) (key_to_u64 (ev_key own_readable))).
    set (s1 := State (kern s) (signalled s) (clock s) (WSet None max) (log s ++ [WaitBegun None])).
    set (s2 := State k1 (signalled s) false (WTimer None max) ((log s ++ [WaitBegun None]) ++ [TimerSet None])).
    set (s3 := State k2 (signalled s) false (WPoll None max) ((log s ++ [WaitBegun None]) ++ [TimerSet None])).
    assert (S1 : step c s (LWait None max) = Some s1) by (cbn [step]; rewrite Hw, Ht; done).
    assert (S2 : step c s1 LGo = Some s2) by (cbn [step]; unfold s1; cbn [wait]; rewrite Ht; done).
    assert (S3 : step c s2 LGo = Some s3).
    { cbn [step]. unfold s2. cbn [wait]. rewrite Ht. unfold sys_modify, ctl_mod. cbn [kern k1].
      replace (items k1 !! t) with (Some it0) by (symmetry; exact Hit0). done. }
    assert (Hr3 : reachable c s3).
    { refine (reach_step c s2 LGo s3 _ I S3). refine (reach_step c s1 LGo s2 _ I S2). by refine (reach_step c s (LWait None max) s1 _ Hm S1). }
    assert (Hr0 : ready k2 t = 0%N).
    { change (ready k2 t) with (ready k1 t). unfold k1. by rewrite ready_set, decide_True. }
    exists s3. split; [|intros fd [= <-]; exact Hr0].
    split; [done|]. split.
    { intros s'. cbn [run]. rewrite S1, S2, S3. by destruct (step c s3 LGo). }
    split; [exact Hr3|]. intros fd it Hf.
    assert (Hne : fd <> t) by congruence. unfold s3. cbn [kern].
    assert (rdl k2 = rdl (kern s)) as ->.
    { unfold k2, install. cbn [rdl]. unfold item_poll at 1. change (ready k1 t) with (ready k2 t). rewrite Hr0. done. }
    split; [done|]. split.
    { unfold k2, install. cbn [items]. rewrite lookup_insert_ne by done. done. }
    unfold item_poll. change (ready k2 fd) with (ready k1 fd). unfold k1. rewrite ready_set, decide_False by done. done.
  - set (s1 := State (kern s) (signalled s) (clock s) (WPoll None max) (log s ++ [WaitBegun None])).
    assert (S1 : step c s (LWait None max) = Some s1) by (cbn [step]; rewrite Hw, Ht; done).
    exists s1. split; [|done]. split; [done|]. split.
    { intros s'. cbn [run]. rewrite S1. by destruct (step c s1 LGo). }
    split; [|done]. by refine (reach_step c s (LWait None max) s1 _ Hm S1).
Qed.

(** Readable, and no deadline is overdue: a wait comes back at once. *)
Lemma readable_returns c s max : wf_config c -> reachable c s -> wait s = Out -> 0 < max ->
  epoll_readable (kern s) -> ~ overdue (log s) -> returns_at_once c s max.
Proof.
  intros Hc Hr Hw Hm (fd & it & Hq & Hit & Hne) Ho.
  destruct (wait_asks c s max Hc Hr Hw Hm) as (s1 & (Hw1 & Hrun & Hr1 & Hs1) & _).
  assert (Ht : timer c <> Some fd).
  { intros Ht. pose proof (timer_mask _ _ _ Hc Hr Ht) as H. rewrite overdue_iff in Ho.
    destruct (fold_left texp (log s) false); [done|]. apply Hne. unfold item_poll. by rewrite H. }
  destruct (Hs1 fd it Ht) as (Q & I & P).
  destruct (go_poll c s1 None max fd it) as (rb & k & s' & _ & Hst & _ & El & Hnn & _); auto.
  { by apply I. } { by apply Q. } { rewrite P. by apply poll_nonzero. }
  exists s', (log s1), (map to_event rb). split; [by apply Hrun|]. split; [done|]. by destruct rb.
Qed.
(** A wait that comes back at once: readable. *)
Lemma returns_readable c s max : wf_config c -> reachable c s -> wait s = Out -> 0 < max ->
  returns_at_once c s max -> epoll_readable (kern s).
Proof.
  intros Hc Hr Hw Hm (s' & h & b & Hs & El & Hb).
  destruct (wait_asks c s max Hc Hr Hw Hm) as (s1 & (Hw1 & Hrun & Hr1 & Hs1) & Htm).
  apply Hrun in Hs. cbn [step] in Hs. rewrite Hw1 in Hs. destruct (epoll_wait (kern s1) max) as [rb k] eqn:E.
  destruct (sleeps c None && _); [done|]. injection Hs as <-. cbn [log emit set_wait set_kern] in El.
  apply app_inj_tail in El as [_ [= <-]]. destruct rb as [|r rb]; [done|].
  assert (Hin : to_event r ∈ map to_event (r :: rb)) by (by left).
  destruct (to_event r) as [fd e] eqn:Er.
  pose proof (inv_reachable _ _ Hc Hr1) as Hi1.
  destruct (wait_reports _ _ _ _ _ _ (iv_kern _ _ Hi1) E Hin) as (it & Hq & Hit & Hne & _).
  assert (Ht : timer c <> Some fd).
  { intros Ht. unfold item_poll in Hne. by rewrite (Htm _ Ht) in Hne. }
  destruct (Hs1 fd it Ht) as (Q & I & P). exists fd, it. split; [by apply Q|]. split; [by apply I|].
  rewrite <- P. by apply poll_nonzero.
Qed.

(** News of a source that was not reported yet. *)
Lemma news_readable c s l s1 s2 fd e m n :
  wf_config c -> reachable c s -> user_fd c fd -> legal c s l -> step c s l = Some s1 ->
  registered fd (log s1) = Some (e, m) -> ~ spent fd (log s1) -> news fd e s s1 ->
  undisturbed c fd s1 s2 -> watched e n -> bit (readiness fd (log s2)) n -> epoll_readable (kern s2).
Proof.
  intros Hc Hr Hu Hl Hs Hreg Hsp Hnews Hud Hwa Hb.
  assert (Hr1 : reachable c s1) by (by eapply reach_step).
  pose proof (inv_reachable _ _ Hc Hr1) as Hi1.
  pose proof (iv_user _ _ Hi1 fd Hu) as Hma. rewrite Hreg in Hma.
  destruct (items (kern s1) !! fd) as [it|] eqn:Hit; [|done]. destruct Hma as [Hsh Hg].
  assert (He : it_events it = word e m) by (by eapply unspent_armed).
  assert (Hp : pending fd (kern s1)).
  { destruct (step_change _ _ _ _ fd Hc Hr Hu Hl Hs) as
      [e' m' H1 H2 H3 H4 H5|H1 H2 H3 H4|m' key H1 H2|t' max' b k Hw' H1 H2 H3|H1 H2 H3 H4 H5].
    - rewrite H5. apply pending_install.
    - congruence.
    - rewrite H2 in Hit |- *. rewrite wake_items in Hit.
      apply (pending_wake (kern s) fd m' key it Hit).
      destruct Hnews as [(m1 & key1 & n1 & E & Hw1 & Hk1)|(o & E & Ho)]; rewrite H1 in E;
        apply app_inv_head in E; simplify_eq; [|done].
      exists n1. split; [done|]. split; [rewrite He; apply ctl_word_bit; auto|].
      eapply watched_plain; [|done]. by destruct Hsh as (_ & ? & _).
    - exfalso. destruct Hnews as [(m1 & key1 & n1 & E & Hw1 & Hk1)|(o & E & Ho)]; rewrite H2 in E;
        apply app_inv_head in E; by simplify_eq.
    - exfalso. destruct Hnews as [(m1 & key1 & n1 & E & Hw1 & Hk1)|(o & E & Ho)]; destruct H4 as [E4|(o4 & E4 & N1 & N2 & N3)];
        rewrite E4 in E; try (apply (f_equal length) in E; rewrite app_length in E; simpl in E; lia);
        apply app_inv_head in E; simplify_eq; [by eapply N3|done]. }
  destruct (pending_run _ _ _ _ Hc Hr1 Hu Hud Hp) as (Hr2 & Hp2 & Hreg2 & Hit2).
  rewrite <-(ready_log c) in * by done. rewrite Hit in Hit2.
  assert (Hne : is_empty (item_poll (kern s2) fd it) = false).
  { apply nonempty_iff. exists n. by eapply armed_poll. }
  exists fd, it. split; [by apply (Hp2 it Hit2)|]. split; [done|]. by apply poll_nonzero.
Qed.
