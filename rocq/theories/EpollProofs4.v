(** Edge-triggered sources are not forgotten; the timer and the notifier on epoll. *)
From stdpp Require Import prelude list gmap.
From Verif Require Import Bits Types EventModel EventSpec EventProofs EpollModel EpollSpec EpollProofs EpollProofs2 EpollProofs3.
Local Open Scope nat_scope.

(** *** What has something to report is queued *)
Definition pending (fd : Z) (k : kernel) : Prop :=
  forall it, items k !! fd = Some it -> is_empty (item_poll k fd it) = false -> fd ∈ rdl k.

Lemma pending_install k fd ev data : pending fd (install k fd ev data).
Proof.
  intros it Hit Hne. unfold install in *. simpl in *. rewrite lookup_insert in Hit. injection Hit as <-.
  change (item_poll _ fd ?x) with (item_poll k fd x) in Hne. rewrite Hne. apply enqueue_in. by right.
Qed.

Lemma pending_wake k fd m key it : items k !! fd = Some it ->
  (exists n, bit key n /\ bit (it_events it) n /\ (n < 28)%N) -> pending fd (wake (set_ready k fd m) fd key).
Proof.
  intros Hit (n & Hk & Hn & Hlt) it' _ _. unfold wake. simpl. rewrite Hit.
  assert (disabled it = false) as ->.
  { apply nonempty_iff. exists n. rewrite bit_ldiff, private_bit. split; [done|]. lia. }
  assert (is_empty (N.land key (it_events it)) = false) as ->.
  { apply nonempty_iff. exists n. by apply bit_land. }
  simpl. apply enqueue_in. by right.
Qed.

Lemma pending_step c s l s' fd : wf_config c -> reachable c s -> user_fd c fd -> legal c s l ->
  step c s l = Some s' -> (forall o, log s' = log s ++ [o] -> ~ concerns fd o) ->
  pending fd (kern s) ->
  pending fd (kern s') /\ registered fd (log s') = registered fd (log s) /\
  items (kern s') !! fd = items (kern s) !! fd.
Proof.
  intros Hc Hr Hu Hl Hs Hnc Hp. pose proof (inv_reachable _ _ Hc Hr) as Hi.
  destruct (step_change _ _ _ _ fd Hc Hr Hu Hl Hs) as
    [e m H1 H2 H3 H4 H5|H1 H2 H3 H4|m key H1 H2|t max b k Hw H1 H2 H3|H1 H2 H3 H4 H5].
  - exfalso. destruct H4 as [E|E]; by apply Hnc in E.
  - exfalso. destruct H4 as [E|E]; by apply Hnc in E.
  - rewrite H2, wake_items. split; [|by rewrite H1, registered_snoc].
    assert (Hlk : plain m /\ forall n, bit m n -> ~ bit (ready (kern s) fd) n -> bit key n).
    { destruct l as [g e m' f|g e m' f|g f|g|g m' key'| | |t' max'| |e]; cbn [step legal] in Hs, Hl;
        repeat case_match; simplify_eq; simpl in H1;
        try (apply app_inv_head in H1; by simplify_eq);
        try (apply (f_equal length) in H1; rewrite app_length in H1; simpl in H1; lia).
      apply app_inv_head in H1. injection H1 as -> -> ->. by destruct Hl as (_ & ? & ?). }
    destruct Hlk as [Hplain Hkey]. intros it Hit Hne. rewrite wake_items in Hit.
    assert (Hne' : is_empty (item_poll (set_ready (kern s) fd m) fd it) = false).
    { unfold item_poll, ready in *. by rewrite wake_masks in Hne. }
    pose proof Hne' as Hx. apply nonempty_iff in Hx as [n Hn].
    unfold item_poll in Hn. rewrite bit_land, ready_set, decide_True in Hn by done. destruct Hn as [Hn Hw].
    destruct (N.testbit (ready (kern s) fd) n) eqn:Ho.
    + apply wake_mono. simpl. apply (Hp it Hit). apply nonempty_iff. exists n. by apply bit_land.
    + assert (Ho' : ~ bit (ready (kern s) fd) n) by (unfold bit; congruence).
      refine (pending_wake (kern s) fd m key it Hit _ it _ Hne); [|by rewrite wake_items].
      exists n. split; [by apply Hkey|]. split; [done|]. by apply Hplain.
  - rewrite H2, registered_snoc.
    destruct (wait_spec _ _ _ _ (iv_kern _ _ Hi) H1) as (dn & rest & E1 & E2 & E3 & Em & E4 & _).
    assert (Hnr : forall it, items (kern s) !! fd = Some it -> is_empty (item_poll (kern s) fd it) = false -> fd ∉ dn).
    { intros it Hit Hne Hd. apply (Hnc _ H2). simpl.
      exists (epoll_to_event 64 (it_data it) (item_poll (kern s) fd it)).
      apply elem_of_list_fmap. exists (Report fd (item_poll (kern s) fd it) (it_data it)).
      split; [done|]. rewrite E2. apply elem_of_list_omap. exists fd. split; [done|].
      unfold rep. rewrite Hit. simpl. by rewrite Hne. }
    assert (Hsame : items k !! fd = items (kern s) !! fd).
    { rewrite E4. case_decide as Hd; [|done]. destruct (items (kern s) !! fd) as [it|] eqn:Hit; [|done].
      simpl. f_equal. unfold item_after. destruct (is_empty _) eqn:Hne; [done|]. by destruct (Hnr it eq_refl Hne). }
    rewrite H3. split; [|done].
    intros it Hit Hne. rewrite Hsame in Hit.
    assert (Hne' : is_empty (item_poll (kern s) fd it) = false).
    { unfold item_poll, ready in *. by rewrite Em in Hne. }
    specialize (Hp it Hit Hne'). rewrite E3. apply elem_of_app. left. rewrite E1 in Hp.
    apply elem_of_app in Hp as [Hq|Hq]; [|done]. by destruct (Hnr it Hit Hne').
  - split; [|done]. intros it Hit Hne. apply H3. rewrite H1 in Hit. apply (Hp it Hit).
    unfold item_poll in *. by rewrite H2 in Hne.
Qed.

Lemma pending_run c s s' fd : wf_config c -> reachable c s -> user_fd c fd ->
  undisturbed c fd s s' -> pending fd (kern s) ->
  reachable c s' /\ pending fd (kern s') /\ registered fd (log s') = registered fd (log s) /\
  items (kern s') !! fd = items (kern s) !! fd.
Proof.
  intros Hc Hr Hu Hud Hp. induction Hud as [s|s s1 l s2 Hud IH Hl Hs Hnc]; [done|].
  destruct (IH Hr Hp) as (I1 & I2 & I3 & I4).
  destruct (pending_step c s1 l s2 fd) as (J1 & J2 & J3); auto.
  split; [by eapply reach_step|]. split; [done|]. split; congruence.
Qed.

Lemma news_reported c s l s1 s2 fd e m t max n :
  wf_config c -> reachable c s -> user_fd c fd -> legal c s l -> step c s l = Some s1 ->
  registered fd (log s1) = Some (e, m) -> ~ spent fd (log s1) -> news fd e s s1 ->
  undisturbed c fd s1 s2 -> wait s2 = WPoll t max ->
  watched e n -> bit (readiness fd (log s2)) n ->
  exists s3 b, step c s2 LGo = Some s3 /\ log s3 = log s2 ++ [Reported b] /\
    (length b = max \/ exists e', (fd, e') ∈ b /\ ev_key e' = ev_key e /\
       forall n, bit (ev_extra e') n <-> watched e n /\ bit (readiness fd (log s2)) n).
Proof.
  intros Hc Hr Hu Hl Hs Hreg Hsp Hnews Hud Hw Hwa Hb.
  assert (Hr1 : reachable c s1) by (by eapply reach_step).
  pose proof (inv_reachable _ _ Hc Hr1) as Hi1.
  pose proof (iv_user _ _ Hi1 fd Hu) as Hma. rewrite Hreg in Hma.
  destruct (items (kern s1) !! fd) as [it|] eqn:Hit; [|done]. destruct Hma as [Hsh Hg].
  assert (He : it_events it = word e m) by (by eapply unspent_armed).
  assert (Hp : pending fd (kern s1)).
  { destruct (step_change _ _ _ _ fd Hc Hr Hu Hl Hs) as
      [e' m' H1 H2 H3 H4 H5|H1 H2 H3 H4|m' key H1 H2|t' max' b k Hw' H1 H2 H3|H1 H2 H3 H4 H5].
    - rewrite H5. apply pending_install.
    - congruence.
    - rewrite H2 in Hit |- *. rewrite wake_items in Hit.
      apply (pending_wake (kern s) fd m' key it Hit).
      destruct Hnews as [(m1 & key1 & n1 & E & Hw1 & Hk1)|(o & E & Ho)]; rewrite H1 in E;
        apply app_inv_head in E; simplify_eq; [|done].
      exists n1. split; [done|]. split; [rewrite He; apply ctl_word_bit; auto|].
      eapply watched_plain; [|done]. by destruct Hsh as (_ & ? & _).
    - exfalso. destruct Hnews as [(m1 & key1 & n1 & E & Hw1 & Hk1)|(o & E & Ho)]; rewrite H2 in E;
        apply app_inv_head in E; by simplify_eq.
    - exfalso. destruct Hnews as [(m1 & key1 & n1 & E & Hw1 & Hk1)|(o & E & Ho)]; destruct H4 as [E4|(o4 & E4 & N1 & N2 & N3)];
        rewrite E4 in E; try (apply (f_equal length) in E; rewrite app_length in E; simpl in E; lia);
        apply app_inv_head in E; simplify_eq; [by eapply N3|done]. }
  destruct (pending_run _ _ _ _ Hc Hr1 Hu Hud Hp) as (Hr2 & Hp2 & Hreg2 & Hit2).
  rewrite <-(ready_log c) in * by done. rewrite Hit in Hit2.
  eapply (queued_reported c s2 t max fd e m n it); eauto.
  - by destruct Hsh.
  - apply (Hp2 it Hit2). apply nonempty_iff. exists n. by eapply armed_poll.
Qed.

(** *** The timer *)
Definition texp (b : bool) (o : obs) : bool :=
  match o with TimerSet _ => false | Expired => true | _ => b end.
Definition tset (x : option (option bool)) (o : obs) : option (option bool) :=
  match o with TimerSet t => Some t | _ => x end.
Lemma texp_snoc h o : fold_left texp (h ++ [o]) false = texp (fold_left texp h false) o.
Proof. by rewrite fold_left_app. Qed.
Lemma tset_snoc h o : fold_left tset (h ++ [o]) None = tset (fold_left tset h None) o.
Proof. by rewrite fold_left_app. Qed.

Lemma since_set h t h' : Forall (fun o => forall t', o <> TimerSet t') h' ->
  (fold_left texp (h ++ TimerSet t :: h') false = true <-> Expired ∈ h') /\
  fold_left tset (h ++ TimerSet t :: h') None = Some t.
Proof.
  intros HF. rewrite !fold_left_app. simpl. generalize (fold_left texp h false). intros _.
  induction h' as [|o h' IH] using rev_ind.
  { simpl. split; [|done]. split; [done|]. by intros ?%elem_of_nil. }
  apply Forall_app in HF as [HF Ho]. inversion Ho as [|? ? Ho' _]. subst. destruct (IH HF) as [I1 I2].
  rewrite !fold_left_app. simpl. split.
  - rewrite elem_of_app, elem_of_list_singleton.
    destruct o; simpl; try (rewrite I1; split; [auto|intros [?|?]; done]).
    + split; [by right|done].
    + by destruct (Ho' t0).
  - destruct o; simpl; try done. by destruct (Ho' t0).
Qed.

Definition timer_ok (fd : Z) (s : state) (t : option bool) : Prop :=
  ready (kern s) fd = (if fold_left texp (log s) false then EPOLLIN else 0%N) /\
  (fold_left texp (log s) false = true -> t = Some true) /\
  (clock s = true -> t = Some true) /\
  (t = Some true -> clock s = true \/ fold_left texp (log s) false = true) /\
  fold_left tset (log s) None = Some t.
Definition timer_inv (fd : Z) (s : state) : Prop :=
  match wait s with
  | WTimer t _ => timer_ok fd s t
  | WPoll t _ => timer_ok fd s t /\ exists it, items (kern s) !! fd = Some it /\ it_events it = word own_readable Oneshot
  | _ => True
  end.

(** The poller's own descriptors are changed by its own steps only. *)
Lemma timer_frame fd s s' :
  timer_inv fd s -> wait s' = wait s -> clock s' = clock s -> ready (kern s') fd = ready (kern s) fd ->
  items (kern s') !! fd = items (kern s) !! fd ->
  (log s' = log s \/ exists o, log s' = log s ++ [o] /\ (forall b, texp b o = b) /\ (forall x, tset x o = x)) ->
  timer_inv fd s'.
Proof.
  intros H Ew Ec Er Ei El. unfold timer_inv, timer_ok in *. rewrite Ew, Ec, Er, Ei.
  destruct El as [->|(o & -> & E1 & E2)]; [done|]. rewrite texp_snoc, tset_snoc, E1, E2. done.
Qed.

Lemma timer_step c s l s' fd : wf_config c -> reachable c s -> timer c = Some fd -> legal c s l ->
  step c s l = Some s' -> timer_inv fd s -> timer_inv fd s'.
Proof.
  intros Hc Hr Ht Hl Hs H. pose proof (inv_reachable _ _ Hc Hr) as Hi.
  assert (Hnt : fd <> notifier c) by (intros ->; by apply Hc).
  assert (Hinst : forall g ev data, g <> fd -> ready (install (kern s) g ev data) fd = ready (kern s) fd /\
    items (install (kern s) g ev data) !! fd = items (kern s) !! fd).
  { intros g ev data Hg. split; [done|]. simpl. by rewrite lookup_insert_ne. }
  destruct l as [g e m f|g e m f|g f|g|g m key| | |t max| |e]; cbn [step legal] in Hs, Hl.
  - destruct Hl as [[Hu1 Hu2] _]. destruct (sys_add _ _ _ _ _) as [r k] eqn:E. injection Hs as <-.
    apply (timer_frame fd s); auto; [| |right; eexists; split; [done|]; done].
    all: apply add_cases in E as [(-> & -> & Hn & ->)|(x & -> & -> & _)]; [|done]; apply Hinst; congruence.
  - destruct Hl as [[Hu1 Hu2] _]. destruct (sys_modify _ _ _ _ _) as [r k] eqn:E. injection Hs as <-.
    apply (timer_frame fd s); auto; [| |right; eexists; split; [done|]; done].
    all: apply modify_cases in E as [(-> & -> & Hn & ->)|(x & -> & -> & _)]; [|done]; apply Hinst; congruence.
  - destruct Hl as [Hu1 Hu2]. destruct (sys_delete _ _ _) as [r k] eqn:E. injection Hs as <-.
    apply (timer_frame fd s); auto; [| |right; eexists; split; [done|]; done].
    all: apply delete_cases in E as [(-> & -> & Hn & ->)|(x & -> & -> & _)]; [|done]; simpl.
    + done.
    + rewrite lookup_delete_ne by congruence. done.
  - destruct Hl as [Hu1 Hu2]. injection Hs as <-.
    apply (timer_frame fd s); auto; [| |right; eexists; split; [done|]; done]; simpl.
    + rewrite ready_set. by rewrite decide_False by congruence.
    + rewrite lookup_delete_ne by congruence. done.
  - destruct Hl as [[Hu1 Hu2] _]. injection Hs as <-.
    destruct (wake_other (kern s) g m key fd) as (I1 & I2 & _); [congruence|].
    apply (timer_frame fd s); auto. right; eexists; split; [done|]; done.
  - injection Hs as <-.
    destruct (wake_other (kern s) (notifier c) EPOLLIN EPOLLIN fd) as (I1 & I2 & _); [congruence|].
    apply (timer_frame fd s); auto. right; eexists; split; [done|]; done.
  - rewrite Ht in Hs. destruct (clock s) eqn:Ecl; [|done]. injection Hs as <-.
    assert (Hrd : ready (wake (set_ready (kern s) fd EPOLLIN) fd EPOLLIN) fd = EPOLLIN).
    { unfold ready at 1. rewrite wake_masks. fold (ready (set_ready (kern s) fd EPOLLIN) fd).
      by rewrite ready_set, decide_True. }
    unfold timer_inv, timer_ok in *. simpl. destruct (wait s) as [|t max|t max|t max|b|b]; try done;
      rewrite texp_snoc, tset_snoc, Hrd; simpl.
    + destruct H as (_ & _ & Hcl & _ & Hts). split; [done|]. split; [by auto|]. split; [done|]. auto.
    + destruct H as ((_ & _ & Hcl & _ & Hts) & Hit). rewrite wake_items. simpl.
      split; [|done]. split; [done|]. split; [by auto|]. split; [done|]. auto.
  - destruct (wait s); try done. injection Hs as <-. rewrite Ht. done.
  - destruct (wait s) as [|t max|t max|t max|b|b] eqn:Hw; try done; unfold timer_inv in H; rewrite Hw in H.
    + rewrite Ht in Hs. injection Hs as <-. unfold timer_inv, timer_ok. simpl.
      rewrite texp_snoc, tset_snoc. simpl. rewrite ready_set, decide_True by done.
      split; [done|]. split; [done|]. split; [by destruct t as [[]|]|]. split; [|done]. intros ->. by left.
    + rewrite Ht in Hs. destruct (sys_modify _ _ _ _ _) as [r k] eqn:E.
      apply modify_cases in E as [(-> & _ & Hn & ->)|(x & -> & -> & _)]; injection Hs as <-; [|done].
      unfold timer_inv. simpl. split; [exact H|]. rewrite lookup_insert. eexists. split; done.
    + destruct (epoll_wait (kern s) max) as [b k] eqn:E. destruct (sleeps c t && _); [done|].
      by injection Hs as <-.
    + by injection Hs as <-.
    + destruct (sys_modify _ _ _ _ _) as [r k] eqn:E. destruct r; by simplify_eq.
  - destruct (wait s); try done; by injection Hs as <-.
Qed.

Lemma timer_reachable c s fd : wf_config c -> reachable c s -> timer c = Some fd -> timer_inv fd s.
Proof.
  intros Hc Hr Ht. induction Hr as [|s l s' Hr IH Hl Hs]; [|by eapply timer_step].
  unfold init. rewrite Ht. done.
Qed.

Lemma poll_ready k fd e it : it_events it = word e Oneshot ->
  e = own_readable -> is_empty (item_poll k fd it) = true -> ~ bit (ready k fd) 0.
Proof.
  intros Hw -> He Hb. unfold item_poll in He. rewrite Hw in He. apply empty_iff with (n := 0%N) in He.
  apply He. apply bit_land. split; [done|]. apply ctl_word_bit. left. left. split; [done|]. by left.
Qed.

(** In the kernel, the wait's own deadline wakes it, and no other deadline does. *)
Lemma deadline_wakes c s t max fd h h' : wf_config c -> reachable c s -> timer c = Some fd ->
  wait s = WPoll t max -> log s = h ++ TimerSet t :: h' ->
  Forall (fun o => forall t', o <> TimerSet t') h' -> Expired ∈ h' ->
  t = Some true /\ exists s' b, step c s LGo = Some s' /\ log s' = log s ++ [Reported b] /\ b <> [].
Proof.
  intros Hc Hr Ht Hw El HF Hin. pose proof (inv_reachable _ _ Hc Hr) as Hi.
  pose proof (timer_reachable _ _ _ Hc Hr Ht) as H. unfold timer_inv in H. rewrite Hw in H.
  destruct H as ((H1 & H2 & H3 & H4 & H5) & it & Hit & Hev).
  destruct (since_set h t h' HF) as [I1 I2]. rewrite El in H1, H2. apply I1 in Hin. rewrite Hin in H1.
  split; [by apply H2|].
  assert (Hne : is_empty (item_poll (kern s) fd it) = false).
  { destruct (is_empty _) eqn:E; [|done]. exfalso. eapply poll_ready in E; [|done|done]. apply E. rewrite H1. done. }
  assert (Hq : fd ∈ rdl (kern s)).
  { apply (kv_queue _ (iv_kern _ _ Hi) fd it Hit); [|done]. rewrite Hev. vm_compute. reflexivity. }
  destruct (go_poll c s t max fd it) as (rb & k & s' & _ & Hs & _ & El' & Hnn & _); auto.
  { eapply wait_max; eauto. }
  exists s', (map to_event rb). split; [done|]. split; [done|]. by destruct rb.
Qed.
Lemma deadline_own c s t max fd h h' s' b e : wf_config c -> reachable c s -> timer c = Some fd ->
  wait s = WPoll t max -> log s = h ++ TimerSet t :: h' ->
  Forall (fun o => forall t', o <> TimerSet t') h' ->
  step c s LGo = Some s' -> log s' = log s ++ [Reported b] -> (fd, e) ∈ b ->
  t = Some true /\ Expired ∈ h'.
Proof.
  intros Hc Hr Ht Hw El HF Hs El' Hin. pose proof (inv_reachable _ _ Hc Hr) as Hi.
  destruct (reported_step _ _ _ _ _ Hs El') as (t' & max' & rb & k & _ & Hw' & Hk & -> & _).
  pose proof (timer_reachable _ _ _ Hc Hr Ht) as H. unfold timer_inv in H. rewrite Hw in H.
  destruct H as ((H1 & H2 & H3 & H4 & H5) & _).
  destruct (wait_reports _ _ _ _ _ _ (iv_kern _ _ Hi) Hk Hin) as (it & _ & _ & Hne & _).
  destruct (fold_left texp (log s) false) eqn:E.
  - split; [by apply H2|]. rewrite El in E. by apply (since_set h t h' HF).
  - exfalso. unfold item_poll in Hne. rewrite H1 in Hne. done.
Qed.
Lemma deadline_running c s max fd h h' : wf_config c -> reachable c s -> timer c = Some fd ->
  wait s = WPoll (Some true) max -> log s = h ++ TimerSet (Some true) :: h' ->
  Forall (fun o => forall t', o <> TimerSet t') h' -> Expired ∉ h' ->
  is_Some (step c s LExpire).
Proof.
  intros Hc Hr Ht Hw El HF Hin.
  pose proof (timer_reachable _ _ _ Hc Hr Ht) as H. unfold timer_inv in H. rewrite Hw in H.
  destruct H as ((H1 & H2 & H3 & H4 & H5) & _).
  cbn [step]. rewrite Ht. destruct (H4 eq_refl) as [->|Hx]; [by eexists|].
  rewrite El in Hx. by apply (since_set h _ h' HF) in Hx.
Qed.
Lemma timer_was_set c s t max fd : wf_config c -> reachable c s -> timer c = Some fd ->
  wait s = WPoll t max -> exists h h', log s = h ++ TimerSet t :: h' /\
    Forall (fun o => forall t', o <> TimerSet t') h'.
Proof.
  intros Hc Hr Ht Hw. pose proof (timer_reachable _ _ _ Hc Hr Ht) as H. unfold timer_inv in H. rewrite Hw in H.
  destruct H as ((_ & _ & _ & _ & H5) & _). revert H5. generalize (log s). intros l.
  induction l as [|o l IH] using rev_ind; [done|]. rewrite tset_snoc.
  destruct o; simpl; try (intros Hx; destruct (IH Hx) as (h & h' & -> & HF);
    eexists h, (h' ++ [_]); split; [by rewrite <-app_assoc|]; apply Forall_app; split; [done|]; by apply Forall_singleton).
  intros [= ->]. exists l, []. done.
Qed.

(** *** The notifier *)
Lemma returning_snoc h o : returning (h ++ [o]) = between (returning h) o.
Proof. unfold returning. by rewrite fold_left_app. Qed.
Lemma broke_fst h : (fold_left broke h (false, false)).1 = returning h.
Proof.
  induction h as [|o h IH] using rev_ind; [done|]. rewrite fold_left_app, returning_snoc. simpl. by rewrite IH.
Qed.
Lemma broken_snoc h o : wait_broken (h ++ [o]) =
  match o with WaitErr _ => returning h || wait_broken h | WaitOk => false | _ => wait_broken h end.
Proof. unfold wait_broken. rewrite fold_left_app. simpl. rewrite broke_fst. done. Qed.

Definition noti_inv (c : config) (s : state) : Prop :=
  returning (log s) = (match wait s with WClear _ | WRearm _ => true | _ => false end) /\
  ready (kern s) (notifier c) = (if signalled s then EPOLLIN else 0%N) /\
  (returning (log s) = false -> wait_broken (log s) = false ->
   exists it, items (kern s) !! notifier c = Some it /\ it_events it = word own_readable Oneshot).

Lemma noti_frame c s s' : noti_inv c s ->
  (match wait s' with WClear _ | WRearm _ => true | _ => false end =
   match wait s with WClear _ | WRearm _ => true | _ => false end) ->
  signalled s' = signalled s -> ready (kern s') (notifier c) = ready (kern s) (notifier c) ->
  items (kern s') !! notifier c = items (kern s) !! notifier c ->
  (log s' = log s \/ exists o, log s' = log s ++ [o] /\ (forall b, between b o = b) /\ (forall e, o <> WaitErr e) /\ o <> WaitOk) ->
  noti_inv c s'.
Proof.
  intros H Ew Es Er Ei El. unfold noti_inv in *. rewrite Ew, Es, Er, Ei.
  destruct El as [->|(o & -> & E1 & E2 & E3)]; [done|]. rewrite returning_snoc, E1, broken_snoc.
  destruct o; try done. by destruct (E2 e).
Qed.

Lemma ready_wake k g m key fd :
  ready (wake (set_ready k g m) g key) fd = if decide (fd = g) then m else ready k fd.
Proof.
  unfold ready at 1. rewrite wake_masks. fold (ready (set_ready k g m) fd). apply ready_set.
Qed.

Lemma noti_step c s l s' : wf_config c -> reachable c s -> legal c s l ->
  step c s l = Some s' -> noti_inv c s -> noti_inv c s'.
Proof.
  intros Hc Hr Hl Hs H. pose proof (inv_reachable _ _ Hc Hr) as Hi. set (fd := notifier c) in *.
  assert (Hinst : forall g ev data, g <> fd -> ready (install (kern s) g ev data) fd = ready (kern s) fd /\
    items (install (kern s) g ev data) !! fd = items (kern s) !! fd).
  { intros g ev data Hg. split; [done|]. simpl. by rewrite lookup_insert_ne. }
  destruct l as [g e m f|g e m f|g f|g|g m key| | |t max| |e]; cbn [step legal] in Hs, Hl.
  - destruct Hl as [[Hu1 Hu2] _]. destruct (sys_add _ _ _ _ _) as [r k] eqn:E. injection Hs as <-.
    apply (noti_frame c s); auto; [| |right; eexists; split; [done|]; done].
    all: apply add_cases in E as [(-> & -> & Hn & ->)|(x & -> & -> & _)]; [|done]; apply Hinst, Hu1.
  - destruct Hl as [[Hu1 Hu2] _]. destruct (sys_modify _ _ _ _ _) as [r k] eqn:E. injection Hs as <-.
    apply (noti_frame c s); auto; [| |right; eexists; split; [done|]; done].
    all: apply modify_cases in E as [(-> & -> & Hn & ->)|(x & -> & -> & _)]; [|done]; apply Hinst, Hu1.
  - destruct Hl as [Hu1 Hu2]. destruct (sys_delete _ _ _) as [r k] eqn:E. injection Hs as <-.
    apply (noti_frame c s); auto; [| |right; eexists; split; [done|]; done].
    all: apply delete_cases in E as [(-> & -> & Hn & ->)|(x & -> & -> & _)]; [|done]; simpl.
    + done.
    + by rewrite lookup_delete_ne.
  - destruct Hl as [Hu1 Hu2]. injection Hs as <-.
    apply (noti_frame c s); auto; [| |right; eexists; split; [done|]; done]; simpl.
    + rewrite ready_set. rewrite decide_False; [done|]. by intros E; apply Hu1.
    + by rewrite lookup_delete_ne.
  - destruct Hl as [[Hu1 Hu2] _]. injection Hs as <-.
    destruct (wake_other (kern s) g m key fd) as (I1 & I2 & _); [unfold fd; congruence|].
    apply (noti_frame c s); auto. right; eexists; split; [done|]; done.
  - injection Hs as <-. destruct H as (H1 & H2 & H3).
    split; [|split]; simpl; rewrite ?returning_snoc, ?broken_snoc; simpl.
    + done.
    + fold fd. by rewrite ready_wake, decide_True.
    + rewrite wake_items. done.
  - destruct (timer c) as [t|] eqn:Ht; [|done]. destruct (clock s); [|done]. injection Hs as <-.
    destruct (wake_other (kern s) t EPOLLIN EPOLLIN fd) as (I1 & I2 & _).
    { intros E. apply Hc. rewrite Ht. by rewrite <-E. }
    apply (noti_frame c s); auto. right; eexists; split; [done|]; done.
  - destruct (wait s) eqn:Hw; try done. injection Hs as <-. destruct H as (H1 & H2 & H3). rewrite Hw in H1.
    split; [|split]; simpl; rewrite ?returning_snoc, ?broken_snoc; simpl.
    + by destruct (timer c).
    + done.
    + intros _. by apply H3.
  - destruct (wait s) as [|t max|t max|t max|b|b] eqn:Hw; try done.
    + destruct (timer c) as [g|] eqn:Ht; [|done]. injection Hs as <-.
      apply (noti_frame c s); auto; [by rewrite Hw| |right; eexists; split; [done|]; done]. simpl.
      rewrite ready_set, decide_False; [done|]. intros E. apply Hc. rewrite Ht. unfold fd in E. by rewrite E.
    + destruct (timer c) as [g|] eqn:Ht; [|done]. destruct (sys_modify _ _ _ _ _) as [r k] eqn:E.
      apply modify_cases in E as [(-> & _ & Hn & ->)|(x & -> & -> & [?|(_ & _ & Hn)])]; [|done|].
      * injection Hs as <-. apply (noti_frame c s); auto; [by rewrite Hw|]. simpl. rewrite lookup_insert_ne; [done|].
        intros E. apply Hc. rewrite Ht. by rewrite E.
      * destruct (iv_timer _ _ Hi g Ht) as (it & e' & Hit & _). congruence.
    + destruct (epoll_wait (kern s) max) as [b k] eqn:E. destruct (sleeps c t && _); [done|].
      injection Hs as <-. destruct H as (H1 & H2 & H3).
      split; [|split]; simpl; rewrite ?returning_snoc, ?broken_snoc; simpl.
      * done.
      * rewrite <-H2. unfold ready. unfold epoll_wait in E. destruct (send _ _ _ _) as [[[? ?] ?] ?]. by injection E as <- <-.
      * done.
    + injection Hs as <-. destruct H as (H1 & H2 & H3). rewrite Hw in H1.
      split; [|split]; simpl.
      * done.
      * by rewrite ready_set, decide_True.
      * congruence.
    + destruct (sys_modify _ _ _ _ _) as [r k] eqn:E. destruct H as (H1 & H2 & H3).
      apply modify_cases in E as [(-> & _ & Hn & ->)|(x & -> & -> & [?|(_ & _ & Hn)])]; [|done|].
      * injection Hs as <-. split; [|split]; simpl; rewrite ?returning_snoc, ?broken_snoc; simpl.
        -- done.
        -- done.
        -- intros _ _. unfold fd. rewrite lookup_insert. eexists. split; done.
      * destruct (iv_notifier _ _ Hi) as (it & Hit & _). congruence.
  - assert (noti_inv c (emit (set_wait s Out) (WaitErr (EOs e)))) as Hx.
    { destruct H as (H1 & H2 & H3). split; [|split]; simpl; rewrite ?returning_snoc, ?broken_snoc; simpl; try done.
      intros _ [Hb1 Hb2]%orb_false_elim. by apply H3. }
    destruct (wait s); try done; by injection Hs as <-.
Qed.

Lemma noti_reachable c s : wf_config c -> reachable c s -> noti_inv c s.
Proof.
  intros Hc Hr. induction Hr as [|s l s' Hr IH Hl Hs]; [|by eapply noti_step].
  destruct (iv_notifier _ _ (inv_init c Hc)) as (it & Hit & Hsh). split; [|split].
  - unfold init. by destruct (timer c).
  - unfold init, sys_add, ctl_add. destruct (timer c); repeat case_match; simplify_eq; done.
  - intros _ _. unfold init, sys_add, ctl_add in *. simpl in *. destruct (timer c) as [t|] eqn:Ht; simpl in *.
    + rewrite lookup_empty in *. simpl in *. rewrite lookup_insert_ne in * by (intros ->; by apply Hc).
      rewrite lookup_empty in *. simpl in *. rewrite lookup_insert in *. eauto.
    + rewrite lookup_empty in *. simpl in *. rewrite lookup_insert in *. eauto.
Qed.

(** A notification made while no wait was on its way back keeps the notifier readable until the
    kernel has been asked again. *)
Lemma signalled_since c s h h' : wf_config c -> reachable c s -> log s = h ++ Notified :: h' ->
  returning h = false -> Forall (fun o => forall b, o <> Reported b) h' -> 
  signalled s = true /\ returning (log s) = false.
Proof.
  intros Hc Hr. revert h'. induction Hr as [|s l s' Hr IH Hl Hs]; intros h' El Hret HF.
  { unfold init in El. destruct (timer c); by destruct h. }
  pose proof (noti_reachable _ _ Hc Hr) as (N1 & _).
  assert (Hcase : (log s = h /\ log s' = h ++ [Notified]) \/
    (signalled s = true /\ returning (log s) = false /\
      (log s' = log s \/ exists o, log s' = log s ++ [o] /\ (forall b, o <> Reported b)))).
  { destruct (log_grows _ _ _ _ Hs) as [E|[o E]].
    - right. destruct (IH h'); [congruence|done|done|]. auto.
    - rewrite E in El. apply snoc_split in El as [(-> & El & ->)|(h2 & -> & El)].
      + left. rewrite E. by subst.
      + right. apply Forall_app in HF as [HF1 HF2]. destruct (IH h2 El Hret HF1). split; [done|].
        split; [done|]. right. exists o. split; [done|]. by inversion HF2. }
  destruct Hcase as [[E1 E2]|(S1 & S2 & S3)].
  - assert (returning (log s') = false) as Hr'.
    { rewrite E2, returning_snoc. simpl. done. }
    split; [|done].
    destruct l as [g e m f|g e m f|g f|g|g m key| | |t max| |e]; cbn [step] in Hs;
      repeat case_match; simplify_eq; simpl in E2 |- *; try done;
      try (apply app_inv_head in E2; by simplify_eq);
      try (apply (f_equal length) in E2; rewrite app_length in E2; simpl in E2; lia).
  - assert (returning (log s') = false) as Hr'.
    { destruct S3 as [->|(o & -> & Ho)]; [done|]. rewrite returning_snoc, S2. destruct o; try done. by destruct (Ho b). }
    split; [|done]. rewrite N1 in S2.
    destruct l as [g e m f|g e m f|g f|g|g m key| | |t max| |e]; cbn [step] in Hs;
      repeat case_match; simplify_eq; simpl; done.
Qed.

Lemma notify_wakes c s t max h h' : wf_config c -> reachable c s -> wait s = WPoll t max ->
  log s = h ++ Notified :: h' -> returning h = false -> Forall (fun o => forall b, o <> Reported b) h' ->
  wait_broken (log s) = false ->
  exists s' b, step c s LGo = Some s' /\ log s' = log s ++ [Reported b] /\ b <> [].
Proof.
  intros Hc Hr Hw El Hret HF Hbr. pose proof (inv_reachable _ _ Hc Hr) as Hi.
  destruct (signalled_since _ _ _ _ Hc Hr El Hret HF) as [Hsig Hrt].
  destruct (noti_reachable _ _ Hc Hr) as (N1 & N2 & N3).
  destruct (N3 Hrt Hbr) as (it & Hit & Hev). rewrite Hsig in N2.
  assert (Hne : is_empty (item_poll (kern s) (notifier c) it) = false).
  { destruct (is_empty _) eqn:E; [|done]. exfalso. eapply poll_ready in E; [|done|done]. apply E. rewrite N2. done. }
  assert (Hq : notifier c ∈ rdl (kern s)).
  { apply (kv_queue _ (iv_kern _ _ Hi) _ it Hit); [|done]. rewrite Hev. vm_compute. reflexivity. }
  destruct (go_poll c s t max (notifier c) it) as (rb & k & s' & _ & Hs & _ & El' & Hnn & _); auto.
  { eapply wait_max; eauto. }
  exists s', (map to_event rb). split; [done|]. split; [done|]. by destruct rb.
Qed.
