(** One-shot, level and edge delivery on epoll. *)
From stdpp Require Import prelude list gmap.
From Verif Require Import Bits Types EventModel EventSpec EventProofs EpollModel EpollSpec EpollProofs EpollProofs2.
Local Open Scope nat_scope.

(** *** How one step changes the registration of one user descriptor *)
Inductive change (c : config) (fd : Z) (s s' : state) : Prop :=
| ch_registers e m : registers fd (default Expired (last (log s'))) ->
    registered fd (log s') = Some (e, m) ->
    (is_Some (registered fd (log s)) \/ fd ∉ rdl (kern s)) ->
    log s' = log s ++ [AddRet fd e m (Ok tt)] \/ log s' = log s ++ [ModifyRet fd e m (Ok tt)] ->
    kern s' = install (kern s) fd (epoll_interest e m) (key_to_u64 (ev_key e)) -> change c fd s s'
| ch_gone : items (kern s') !! fd = None -> fd ∉ rdl (kern s') ->
    registered fd (log s') = None ->
    log s' = log s ++ [DeleteRet fd (Ok tt)] \/ log s' = log s ++ [Closed fd] -> change c fd s s'
| ch_happen m key : log s' = log s ++ [Happened fd m key] ->
    kern s' = wake (set_ready (kern s) fd m) fd key -> change c fd s s'
| ch_wait t max b k : wait s = WPoll t max -> epoll_wait (kern s) max = (b, k) ->
    log s' = log s ++ [Reported (map to_event b)] -> kern s' = k -> change c fd s s'
| ch_same : items (kern s') !! fd = items (kern s) !! fd -> ready (kern s') fd = ready (kern s) fd ->
    (fd ∈ rdl (kern s') <-> fd ∈ rdl (kern s)) ->
    (log s' = log s \/ exists o, log s' = log s ++ [o] /\ ~ registers fd o /\
      (forall b, o <> Reported b) /\ (forall m k, o <> Happened fd m k)) ->
    registered fd (log s') = registered fd (log s) -> change c fd s s'.

Lemma enqueue_other l fd g : fd <> g -> fd ∈ enqueue l g <-> fd ∈ l.
Proof. intros H. rewrite enqueue_in. naive_solver. Qed.
Lemma install_other k g ev data fd : fd <> g ->
  items (install k g ev data) !! fd = items k !! fd /\ ready (install k g ev data) fd = ready k fd /\
  (fd ∈ rdl (install k g ev data) <-> fd ∈ rdl k).
Proof.
  intros H. unfold install. simpl. split; [by rewrite lookup_insert_ne|]. split; [done|].
  destruct (is_empty _); [done|by apply enqueue_other].
Qed.
Lemma wake_other k g m key fd : fd <> g ->
  items (wake (set_ready k g m) g key) !! fd = items k !! fd /\
  ready (wake (set_ready k g m) g key) fd = ready k fd /\
  (fd ∈ rdl (wake (set_ready k g m) g key) <-> fd ∈ rdl k).
Proof.
  intros H. rewrite wake_items. split; [done|]. split.
  - unfold ready. rewrite wake_masks. simpl. by rewrite lookup_insert_ne.
  - unfold wake. repeat case_match; simpl; try done. by apply enqueue_other.
Qed.
Lemma forget_other k g fd : fd <> g ->
  items (forget k g) !! fd = items k !! fd /\ (fd ∈ rdl (forget k g) <-> fd ∈ rdl k).
Proof.
  intros H. simpl. split; [by rewrite lookup_delete_ne|]. rewrite filter_in, bool_decide_eq_true. tauto.
Qed.
Lemma forget_gone k fd : items (forget k fd) !! fd = None /\ fd ∉ rdl (forget k fd).
Proof.
  simpl. split; [by rewrite lookup_delete|]. rewrite filter_in, bool_decide_eq_true. tauto.
Qed.

Local Ltac quiet_entry :=
  right; eexists; split; [reflexivity|]; split; [by intros H|split; intros; discriminate].

Lemma step_change c s l s' fd : wf_config c -> reachable c s -> user_fd c fd -> legal c s l ->
  step c s l = Some s' -> change c fd s s'.
Proof.
  intros Hc Hr Hu Hl Hs. pose proof (inv_reachable _ _ Hc Hr) as Hi.
  assert (Hsame : forall g e m r (add : bool), r <> Ok tt \/ g <> fd ->
    log s' = log s ++ [if add then AddRet g e m r else ModifyRet g e m r] ->
    items (kern s') !! fd = items (kern s) !! fd -> ready (kern s') fd = ready (kern s) fd ->
    (fd ∈ rdl (kern s') <-> fd ∈ rdl (kern s)) -> change c fd s s').
  { intros g e m r add Hne El E1 E2 E3. apply ch_same; [done|done|done| |].
    - right. eexists. split; [done|]. split; [|by destruct add].
      destruct add; simpl; destruct r as [[]| |]; naive_solver.
    - rewrite El, registered_snoc. destruct add; simpl; destruct r as [[]| |]; try done;
        rewrite decide_False; naive_solver. }
  assert (Hq : fd ∈ rdl (kern s) -> is_Some (registered fd (log s))).
  { intros Hin%(kv_sub _ (iv_kern _ _ Hi)). by apply (registered_item c s fd Hc Hr Hu). }
  pose proof (proj1 (registered_item c s fd Hc Hr Hu)) as Hri.
  destruct Hu as [Hu1 Hu2].
  destruct l as [g e m f|g e m f|g f|g|g m key| | |t max| |e]; cbn [step legal] in Hs, Hl.
  - destruct (sys_add _ _ _ _ _) as [r k] eqn:E. injection Hs as <-.
    apply add_cases in E as [(-> & -> & Hn & ->)|(x & -> & -> & _)].
    2:{ eapply (Hsame g e m (Err (EOs x)) true); [by left|done|done|done|done]. }
    destruct (decide (g = fd)) as [->|Hne].
    + eapply (ch_registers _ _ _ _ e m); simpl; [|by rewrite registered_snoc; simpl; rewrite decide_True| |by left|done].
      * rewrite last_snoc. done.
      * right. intros Hin%(kv_sub _ (iv_kern _ _ Hi)). rewrite Hn in Hin. by destruct Hin.
    + edestruct (install_other (kern s) g) as (I1 & I2 & I3); [by apply not_eq_sym|].
      eapply (Hsame g e m _ true); [by right|done|apply I1|apply I2|apply I3].
  - destruct (sys_modify _ _ _ _ _) as [r k] eqn:E. injection Hs as <-.
    apply modify_cases in E as [(-> & -> & Hn & ->)|(x & -> & -> & _)].
    2:{ eapply (Hsame g e m (Err (EOs x)) false); [by left|done|done|done|done]. }
    destruct (decide (g = fd)) as [->|Hne].
    + eapply (ch_registers _ _ _ _ e m); simpl; [|by rewrite registered_snoc; simpl; rewrite decide_True| |by right|done].
      * rewrite last_snoc. done.
      * left. by apply Hri.
    + edestruct (install_other (kern s) g) as (I1 & I2 & I3); [by apply not_eq_sym|].
      eapply (Hsame g e m _ false); [by right|done|apply I1|apply I2|apply I3].
  - destruct (sys_delete _ _ _) as [r k] eqn:E. injection Hs as <-.
    apply delete_cases in E as [(-> & -> & Hn & ->)|(x & -> & -> & _)].
    2:{ apply ch_same; [done|done|done| |by simpl; rewrite registered_snoc]. quiet_entry. }
    destruct (decide (g = fd)) as [->|Hne].
    + destruct (forget_gone (kern s) fd). apply ch_gone; [done|done| |by left].
      simpl. rewrite registered_snoc. simpl. by rewrite decide_True.
    + edestruct (forget_other (kern s) g) as (I1 & I3); [by apply not_eq_sym|].
      apply ch_same; [done|done|done| |].
      * quiet_entry.
      * simpl. rewrite registered_snoc. simpl. by rewrite decide_False.
  - injection Hs as <-. destruct (decide (g = fd)) as [->|Hne].
    + destruct (forget_gone (kern s) fd). apply ch_gone; [done|done| |by right].
      simpl. rewrite registered_snoc. simpl. by rewrite decide_True.
    + edestruct (forget_other (kern s) g) as (I1 & I3); [by apply not_eq_sym|].
      apply ch_same; [done| |done| |].
      * simpl. rewrite ready_set. by rewrite decide_False by congruence.
      * quiet_entry.
      * simpl. rewrite registered_snoc. simpl. by rewrite decide_False.
  - injection Hs as <-. destruct (decide (g = fd)) as [->|Hne].
    + by eapply ch_happen.
    + edestruct (wake_other (kern s) g m key) as (I1 & I2 & I3); [by apply not_eq_sym|].
      apply ch_same; [done|done|done| |by simpl; rewrite registered_snoc].
      right. eexists. split; [done|]. split; [by intros H|]. split; [done|]. intros ? ? [=]. done.
  - injection Hs as <-.
    edestruct (wake_other (kern s) (notifier c) EPOLLIN EPOLLIN) as (I1 & I2 & I3); [done|].
    apply ch_same; [done|done|done| |by simpl; rewrite registered_snoc].
    quiet_entry.
  - destruct (timer c) as [t|]; [|done]. destruct (clock s); [|done]. injection Hs as <-.
    destruct (wake_other (kern s) t EPOLLIN EPOLLIN fd) as (I1 & I2 & I3); [congruence|].
    apply ch_same; [done|done|done| |by simpl; rewrite registered_snoc].
    quiet_entry.
  - destruct (wait s); try done. injection Hs as <-.
    apply ch_same; [done|done|done| |by simpl; rewrite registered_snoc].
    quiet_entry.
  - destruct (wait s) as [|t max|t max|t max|b|b] eqn:Hw; try done.
    + destruct (timer c) as [g|] eqn:Ht; [|done]. injection Hs as <-.
      apply ch_same; [done| |done| |by simpl; rewrite registered_snoc].
      * simpl. rewrite ready_set. by rewrite decide_False by congruence.
      * quiet_entry.
    + destruct (timer c) as [g|] eqn:Ht; [|done]. destruct (sys_modify _ _ _ _ _) as [r k] eqn:E.
      apply modify_cases in E as [(-> & _ & Hn & ->)|(x & -> & -> & _)]; injection Hs as <-.
      * destruct (install_other (kern s) g (epoll_interest own_readable Oneshot) (key_to_u64 NOTIFY_KEY) fd) as (I1 & I2 & I3); [congruence|].
        apply ch_same; [apply I1|apply I2|apply I3|by left|done].
      * apply ch_same; [done|done|done| |by simpl; rewrite registered_snoc].
        quiet_entry.
    + destruct (epoll_wait (kern s) max) as [b k] eqn:E. destruct (sleeps c t && _); [done|].
      injection Hs as <-. by eapply ch_wait.
    + injection Hs as <-. apply ch_same; [done| |done|by left|done].
      simpl. rewrite ready_set. by rewrite decide_False by congruence.
    + destruct (sys_modify _ _ _ _ _) as [r k] eqn:E.
      apply modify_cases in E as [(-> & _ & Hn & ->)|(x & -> & -> & _)]; injection Hs as <-.
      * edestruct (install_other (kern s) (notifier c)) as (I1 & I2 & I3); [done|].
        apply ch_same; [apply I1|apply I2|apply I3| |by simpl; rewrite registered_snoc].
        quiet_entry.
      * apply ch_same; [done|done|done| |by simpl; rewrite registered_snoc].
        quiet_entry.
  - assert (change c fd s (emit (set_wait s Out) (WaitErr (EOs e)))) as Hx.
    { apply ch_same; [done|done|done| |by simpl; rewrite registered_snoc].
      quiet_entry. }
    destruct (wait s); try done; by injection Hs as <-.
Qed.

(** *** C39 *)
Lemma spent_snoc fd h o : spent fd (h ++ [o]) ->
  (spent fd h /\ ~ registers fd o) \/
  exists b e e' m, o = Reported b /\ (fd, e') ∈ b /\ registered fd h = Some (e, m) /\ mode_oneshot m.
Proof.
  intros (h1 & b & e & e' & m & h2 & E & Hin & Hr & Hm & HF).
  apply snoc_split in E as [(-> & -> & ->)|(h3 & -> & ->)].
  - right. by exists b, e, e', m.
  - left. apply Forall_app in HF as [HF1 HF2]. split.
    + by exists h1, b, e, e', m, h3.
    + by inversion HF2.
Qed.

Lemma level_unspent fd h e m : registered fd h = Some (e, m) -> ~ mode_oneshot m -> ~ spent fd h.
Proof.
  intros Hreg Hm (h1 & b & e0 & e' & m0 & h2 & -> & _ & Hr1 & Hm0 & HF).
  assert (Hsame : forall h3 r, Forall (fun o => ~ registers fd o) h3 ->
    fold_left (after fd) h3 r = r \/ fold_left (after fd) h3 r = None).
  { clear. induction h3 as [|o h3 IH]; intros r HF; [by left|]. apply Forall_cons in HF as [Ho HF]. simpl.
    assert (after fd r o = r \/ after fd r o = None) as [->| ->].
    { destruct o as [g e m []|g e m []|g []|g| | | | | | | |]; simpl; try (by left); case_decide; auto; by destruct Ho. }
    - by apply IH.
    - destruct (IH None HF) as [->| ->]; by right. }
  unfold registered in Hreg. rewrite fold_left_app in Hreg. simpl in Hreg.
  fold (registered fd h1) in Hreg. rewrite Hr1 in Hreg.
  destruct (Hsame h2 (Some (e0, m0)) HF) as [E|E]; rewrite E in Hreg; [|done]. by simplify_eq.
Qed.

Definition mute (it : item) : Prop := exists w, it_events it = N.land w EP_PRIVATE.
Lemma mute_after k fd it : plain (ready k fd) -> mute it -> item_after k fd it = it.
Proof.
  intros Hp [w Hw]. unfold item_after. unfold item_poll. by rewrite Hw, disarmed_poll.
Qed.

Lemma spent_mute c s fd : wf_config c -> reachable c s -> user_fd c fd -> spent fd (log s) ->
  forall it, items (kern s) !! fd = Some it -> mute it.
Proof.
  intros Hc Hr Hu. induction Hr as [|s l s' Hr IH Hl Hs].
  { intros (h1 & b & ? & ? & ? & ? & E & _). by destruct h1. }
  pose proof (inv_reachable _ _ Hc Hr) as Hi.
  assert (Hpl : plain (ready (kern s) fd)) by apply Hi.
  intros Hsp it Hit.
  destruct (step_change _ _ _ _ fd Hc Hr Hu Hl Hs) as
    [e m H1 H2 H3 H4 H5|H1 H2 H3 H4|m key H1 H2|t max b k Hw H1 H2 H3|H1 H2 H3 H4 H5].
  - destruct H4 as [E|E]; rewrite E in Hsp; apply spent_snoc in Hsp as [[_ Hn]|(? & ? & ? & ? & ? & _)];
      try done; by destruct Hn.
  - congruence.
  - rewrite H1 in Hsp. apply spent_snoc in Hsp as [[Hsp _]|(? & ? & ? & ? & ? & _)]; [|done].
    rewrite H2, wake_items in Hit. by apply IH.
  - rewrite H2 in Hsp.
    destruct (wait_spec _ _ _ _ (iv_kern _ _ Hi) H1) as (dn & rest & _ & _ & _ & _ & E4 & _).
    apply spent_snoc in Hsp as [[Hsp _]|(b' & e & e' & m & [= <-] & Hin & Hreg & Hm)].
    + rewrite H3, E4 in Hit. destruct (items (kern s) !! fd) as [it0|] eqn:Hit0.
      2:{ by case_decide. }
      specialize (IH Hsp it0 eq_refl). case_decide; simpl in Hit; injection Hit as <-; [|done].
      by rewrite mute_after.
    + destruct (wait_reports _ _ _ _ _ _ (iv_kern _ _ Hi) H1 Hin) as (it0 & Hq & Hit0 & Hne & _ & Haf).
      rewrite H3, Haf in Hit. injection Hit as <-. unfold item_after. rewrite Hne. simpl.
      pose proof (iv_user _ _ Hi fd Hu) as Hma. rewrite Hit0, Hreg in Hma. destruct Hma as [Hsh _].
      assert (oneshot_item it0 = true) as ->.
      { unfold oneshot_item. rewrite (shape_armed _ _ _ _ _ Hpl Hsh Hne). apply word_oneshot; [|done].
        by destruct Hsh as (_ & ? & _). }
      by exists (it_events it0).
  - rewrite H1 in Hit. destruct H4 as [E|(o & E & Hnr & Hnb & _)]; rewrite E in Hsp; [by apply IH|].
    apply spent_snoc in Hsp as [[Hsp _]|(b & ? & ? & ? & -> & _)]; [by apply IH|]. by destruct (Hnb b).
Qed.

Lemma oneshot_once c s h1 b1 h2 b2 h3 fd e1 e2 e m :
  wf_config c -> reachable c s -> user_fd c fd ->
  log s = h1 ++ Reported b1 :: h2 ++ Reported b2 :: h3 -> (fd, e1) ∈ b1 -> (fd, e2) ∈ b2 ->
  registered fd h1 = Some (e, m) -> mode_oneshot m -> exists o, o ∈ h2 /\ registers fd o.
Proof.
  intros Hc Hr Hu E Hb1 Hb2 Hreg Hm.
  destruct (Exists_dec (fun o => registers fd o) h2) as [Hex|Hn].
  { apply Exists_exists in Hex as (o & ? & ?). eauto. }
  exfalso. rewrite app_comm_cons, app_assoc in E.
  destruct (log_step _ _ _ _ _ Hr E) as (s1 & l & s2 & Hr1 & Hl & Hs & E1 & E2).
  rewrite <-E1 in E2. destruct (reported_step _ _ _ _ _ Hs E2) as (t & max & rb & k & -> & Hw & Hk & -> & _).
  pose proof (inv_reachable _ _ Hc Hr1) as Hi.
  destruct (wait_reports _ _ _ _ _ _ (iv_kern _ _ Hi) Hk Hb2) as (it & Hq & Hit & Hne & _).
  assert (mute it) as [w Hmu].
  { eapply (spent_mute c s1); eauto. rewrite E1. exists h1, b1, e, e1, m, h2. split; [done|].
    split; [done|]. split; [done|]. split; [done|].
    apply Forall_forall. intros o Ho Hro. apply Hn, Exists_exists. eauto. }
  unfold item_poll in Hne. rewrite Hmu, disarmed_poll in Hne; [done|]. apply Hi.
Qed.

Lemma batch_nodup k max b k' : kinv k -> epoll_wait k max = (b, k') -> NoDup (map fst (map to_event b)).
Proof.
  intros Hk Hw. destruct (wait_spec _ _ _ _ Hk Hw) as (dn & rest & E1 & E2 & _).
  pose proof (kv_nodup _ Hk) as Hnd. rewrite E1 in Hnd. apply NoDup_app in Hnd as [Hnd _].
  rewrite E2. clear -Hnd. induction Hnd as [|fd l Hfd Hnd IH]; [apply NoDup_nil_2|].
  cbn [omap list_omap]. destruct (rep k (items k) fd) as [r|] eqn:Hr; [|done].
  apply rep_some in Hr as (it & _ & _ & ->). simpl. apply NoDup_cons. split; [|done].
  intros Hin. apply elem_of_list_fmap in Hin as (x & Hx & Hin).
  apply elem_of_list_fmap in Hin as (r & -> & Hin). apply elem_of_list_omap in Hin as (g & Hg & Hr).
  apply rep_some in Hr as (it' & _ & _ & ->). simpl in Hx. by subst.
Qed.
Lemma once_per_batch c s h b h' : wf_config c -> reachable c s -> log s = h ++ Reported b :: h' ->
  NoDup (map fst b).
Proof.
  intros Hc Hr E. destruct (log_step _ _ _ _ _ Hr E) as (s1 & l & s2 & Hr1 & Hl & Hs & E1 & E2).
  rewrite <-E1 in E2. destruct (reported_step _ _ _ _ _ Hs E2) as (t & max & rb & k & -> & Hw & Hk & -> & _).
  eapply batch_nodup; [|done]. apply (inv_reachable _ _ Hc Hr1).
Qed.

(** *** C40, C41: what is queued and ready is reported, or the batch is full *)
Lemma go_poll c s t max fd it :
  wf_config c -> reachable c s -> wait s = WPoll t max -> items (kern s) !! fd = Some it ->
  fd ∈ rdl (kern s) -> is_empty (item_poll (kern s) fd it) = false -> 0 < max ->
  exists rb k s', epoll_wait (kern s) max = (rb, k) /\ step c s LGo = Some s' /\ kern s' = k /\
    log s' = log s ++ [Reported (map to_event rb)] /\ rb <> [] /\
    ((fd, epoll_to_event 64 (it_data it) (item_poll (kern s) fd it)) ∈ map to_event rb \/
     (length rb = max /\ exists dn rest, rdl (kern s) = dn ++ rest /\ fd ∈ rest /\ length dn >= max /\
        rdl k = rest ++ List.filter (back (kern s) (items (kern s))) dn)).
Proof.
  intros Hc Hr Hw Hit Hq Hne Hmax. pose proof (inv_reachable _ _ Hc Hr) as Hi.
  destruct (epoll_wait (kern s) max) as [rb k] eqn:E.
  destruct (wait_spec _ _ _ _ (iv_kern _ _ Hi) E) as (dn & rest & E1 & E2 & E3 & _ & _ & E5).
  assert (Hor : (fd, epoll_to_event 64 (it_data it) (item_poll (kern s) fd it)) ∈ map to_event rb \/
     (length rb = max /\ exists dn rest, rdl (kern s) = dn ++ rest /\ fd ∈ rest /\ length dn >= max /\
        rdl k = rest ++ List.filter (back (kern s) (items (kern s))) dn)).
  { rewrite E1 in Hq. apply elem_of_app in Hq as [Hq|Hq].
    - left. apply elem_of_list_fmap. exists (Report fd (item_poll (kern s) fd it) (it_data it)).
      split; [done|]. rewrite E2. apply elem_of_list_omap. exists fd. split; [done|].
      unfold rep. rewrite Hit. simpl. by rewrite Hne.
    - right. destruct E5 as [->|E5]; [by apply elem_of_nil in Hq|]. split; [done|].
      exists dn, rest. split; [done|]. split; [done|]. split; [|done].
      rewrite <-E5, E2. clear. induction dn as [|x l IH]; [simpl; lia|]. cbn [omap list_omap].
      destruct (rep _ _ x); simpl; lia. }
  assert (Hnn : rb <> []).
  { intros ->. destruct Hor as [Hin|[Hl _]]; [by apply elem_of_nil in Hin|simpl in Hl; lia]. }
  exists rb, k. eexists. split; [done|]. split.
  { cbn [step]. rewrite Hw, E. rewrite (bool_decide_eq_false_2 (length rb = 0)).
    - rewrite andb_false_r. done.
    - by destruct rb. }
  split; [done|]. split; [done|]. split; [done|]. done.
Qed.

Lemma wait_max c s t max : reachable c s -> 
  (wait s = WPoll t max \/ wait s = WSet t max \/ wait s = WTimer t max) -> 0 < max.
Proof.
  intros Hr. revert t max. induction Hr as [|s l s' Hr IH Hl Hs]; intros t max.
  { unfold init. simpl. intros [?|[?|?]]; done. }
  destruct l as [g e m f|g e m f|g f|g|g m key| | |t' max'| |e]; cbn [step legal] in Hs, Hl;
    repeat case_match; simplify_eq; simpl; intros HH; try (by eapply IH; eauto);
    destruct HH as [?|[?|?]]; simplify_eq; eauto.
Qed.

(** A registration that is not spent is armed. *)
Lemma spent_keep fd h o : spent fd h -> ~ registers fd o -> spent fd (h ++ [o]).
Proof.
  intros (h1 & b & e & e' & m & h2 & -> & Hin & Hr & Hm & HF) Ho.
  exists h1, b, e, e', m, (h2 ++ [o]). split; [by rewrite <-app_assoc|]. split; [done|]. split; [done|].
  split; [done|]. apply Forall_app. split; [done|]. by apply Forall_singleton.
Qed.
Lemma unspent_armed c s fd e m it : wf_config c -> reachable c s -> user_fd c fd ->
  ~ spent fd (log s) -> registered fd (log s) = Some (e, m) -> items (kern s) !! fd = Some it ->
  it_events it = word e m.
Proof.
  intros Hc Hr Hu. revert e m it. induction Hr as [|s l s' Hr IH Hl Hs]; intros e m it.
  { done. }
  pose proof (inv_reachable _ _ Hc Hr) as Hi.
  assert (Hpl : plain (ready (kern s) fd)) by apply Hi.
  intros Hsp Hreg Hit.
  assert (Hsp' : forall o, log s' = log s ++ [o] -> ~ registers fd o -> ~ spent fd (log s)).
  { intros o E Ho Hx. apply Hsp. rewrite E. by apply spent_keep. }
  destruct (step_change _ _ _ _ fd Hc Hr Hu Hl Hs) as
    [e' m' H1 H2 H3 H4 H5|H1 H2 H3 H4|m' key H1 H2|t max b k Hw H1 H2 H3|H1 H2 H3 H4 H5].
  - rewrite H2 in Hreg. injection Hreg as -> ->. rewrite H5 in Hit. simpl in Hit.
    rewrite lookup_insert in Hit. by injection Hit as <-.
  - congruence.
  - rewrite H1, registered_snoc in Hreg. simpl in Hreg. rewrite H2, wake_items in Hit.
    eapply (IH e m it); [eapply Hsp'; [done|by intros H]|done|done].
  - assert (Hs1 : ~ spent fd (log s)) by (eapply Hsp'; [done|tauto]).
    rewrite H2, registered_snoc in Hreg. simpl in Hreg.
    destruct (wait_spec _ _ _ _ (iv_kern _ _ Hi) H1) as (dn & rest & _ & E2 & _ & _ & E4 & _).
    rewrite H3, E4 in Hit. destruct (items (kern s) !! fd) as [it0|] eqn:Hit0.
    2:{ by case_decide. }
    specialize (IH e m it0 Hs1 Hreg eq_refl). case_decide as Hd; simpl in Hit; injection Hit as <-; [|done].
    unfold item_after. destruct (negb _ && oneshot_item it0) eqn:Eb; [|done]. exfalso.
    apply andb_prop in Eb as [Eb1 Eb2]. apply negb_true_iff in Eb1.
    apply Hsp. rewrite H2.
    exists (log s), (map to_event b), e, (epoll_to_event 64 (it_data it0) (item_poll (kern s) fd it0)), m, [].
    split; [done|]. split.
    { apply elem_of_list_fmap. exists (Report fd (item_poll (kern s) fd it0) (it_data it0)).
      split; [done|]. rewrite E2. apply elem_of_list_omap. exists fd. split; [done|].
      unfold rep. rewrite Hit0. simpl. by rewrite Eb1. }
    split; [done|]. split; [|done].
    unfold oneshot_item in Eb2. rewrite IH in Eb2. eapply word_oneshot; [|done].
    pose proof (iv_user _ _ Hi fd Hu) as Hma. rewrite Hit0, Hreg in Hma. by destruct Hma as ((_ & ? & _) & _).
  - rewrite H1 in Hit. rewrite H5 in Hreg. eapply IH; [|done|done].
    destruct H4 as [E|(o & E & Hnr & _)]; [by rewrite <-E|by eapply Hsp'].
Qed.

(** An armed registration that is not edge-triggered and ready is queued. *)
Lemma level_queued c s fd e m n : wf_config c -> reachable c s -> user_fd c fd ->
  registered fd (log s) = Some (e, m) -> ~ mode_edge m -> ~ spent fd (log s) ->
  watched e n -> bit (ready (kern s) fd) n ->
  exists it, items (kern s) !! fd = Some it /\ it_events it = word e m /\ it_data it = key_to_u64 (ev_key e) /\
   good_key e /\ is_empty (item_poll (kern s) fd it) = false /\ fd ∈ rdl (kern s).
Proof.
  intros Hc Hr Hu Hreg Hm Hsp Hw Hb. pose proof (inv_reachable _ _ Hc Hr) as Hi.
  pose proof (iv_user _ _ Hi fd Hu) as Hma. rewrite Hreg in Hma.
  destruct (items (kern s) !! fd) as [it|] eqn:Hit; [|done]. destruct Hma as [Hsh Hg].
  assert (He : it_events it = word e m) by (by eapply unspent_armed).
  assert (Hne : is_empty (item_poll (kern s) fd it) = false).
  { apply nonempty_iff. exists n. by eapply armed_poll. }
  exists it. split; [done|]. split; [done|]. split; [by destruct Hsh|]. split; [done|]. split; [done|].
  apply (kv_queue _ (iv_kern _ _ Hi) fd it Hit); [|done]. rewrite He.
  destruct (intersects (word e m) EPOLLET) eqn:Ei; [|done].
  apply word_edge in Ei; [done|]. by destruct Hsh as (_ & ? & _).
Qed.

(** The batch a wait with room returns contains a queued, ready, armed source. *)
Lemma queued_reported c s t max fd e m n it : wf_config c -> reachable c s -> wait s = WPoll t max ->
  items (kern s) !! fd = Some it -> it_events it = word e m -> it_data it = key_to_u64 (ev_key e) ->
  good_key e -> watched e n -> bit (ready (kern s) fd) n -> fd ∈ rdl (kern s) ->
  exists s' b, step c s LGo = Some s' /\ log s' = log s ++ [Reported b] /\
   (length b = max \/ exists e', (fd, e') ∈ b /\ ev_key e' = ev_key e /\
      forall n, bit (ev_extra e') n <-> watched e n /\ bit (ready (kern s) fd) n).
Proof.
  intros Hc Hr Hw Hit He Hd Hg Hwa Hb Hq. pose proof (inv_reachable _ _ Hc Hr) as Hi.
  assert (Hne : is_empty (item_poll (kern s) fd it) = false).
  { apply nonempty_iff. exists n. by eapply armed_poll. }
  destruct (go_poll c s t max fd it) as (rb & k & s' & _ & Hs & _ & El & _ & Hor); auto.
  { eapply wait_max; eauto. }
  exists s', (map to_event rb). split; [done|]. split; [done|].
  destruct Hor as [Hin|[Hl _]]; [right|left; by rewrite map_length].
  eexists. split; [done|]. simpl. split; [rewrite Hd; by apply key_back|].
  intros n'. unfold item_poll. rewrite bit_land, He. unfold word. rewrite ctl_word_bit. split.
  - intros [Hb' [?|[[_ ->]|[_ ->]]]]; [done| |]; apply (kv_plain _ (iv_kern _ _ Hi)) in Hb';
      unfold b_oneshot, b_et in Hb'; lia.
  - tauto.
Qed.

Lemma level_reported c s t max fd e m n : wf_config c -> reachable c s -> user_fd c fd ->
  wait s = WPoll t max ->
  registered fd (log s) = Some (e, m) -> ~ mode_edge m -> ~ spent fd (log s) ->
  watched e n -> bit (readiness fd (log s)) n ->
  exists s' b, step c s LGo = Some s' /\ log s' = log s ++ [Reported b] /\
   (length b = max \/ exists e', (fd, e') ∈ b /\ ev_key e' = ev_key e /\
      forall n, bit (ev_extra e') n <-> watched e n /\ bit (readiness fd (log s)) n).
Proof.
  intros Hc Hr Hu Hw Hreg Hm Hsp Hwa Hb. rewrite <-(ready_log c) in * by done.
  destruct (level_queued c s fd e m n) as (it & Hit & He & Hd & Hg & _ & Hq); auto.
  eapply queued_reported; eauto.
Qed.

(** *** C40: no starvation *)
Fixpoint pos (fd : Z) (l : list Z) : nat :=
  match l with [] => 0 | g :: r => if decide (g = fd) then 0 else S (pos fd r) end.
Lemma pos_app_in fd l r : fd ∈ l -> pos fd (l ++ r) = pos fd l.
Proof.
  induction l as [|g l IH]; intros H; [by apply elem_of_nil in H|]. simpl. case_decide; [done|].
  rewrite IH; [done|]. apply elem_of_cons in H as [->|?]; done.
Qed.
Lemma pos_app_out fd l r : fd ∉ l -> pos fd (l ++ r) = length l + pos fd r.
Proof.
  induction l as [|g l IH]; intros H; [done|]. apply not_elem_of_cons in H as [H1 H2]. simpl.
  rewrite decide_False by done. by rewrite IH.
Qed.
Lemma pos_enqueue fd l g : fd ∈ l -> pos fd (enqueue l g) = pos fd l.
Proof. intros H. unfold enqueue. case_decide; [done|]. by apply pos_app_in. Qed.
Lemma pos_filter fd l (f : Z -> bool) : f fd = true -> pos fd (List.filter f l) <= pos fd l.
Proof.
  intros Hf. induction l as [|g l IH]; [done|]. simpl. case_decide as Hg.
  - subst. rewrite Hf. simpl. by rewrite decide_True.
  - destruct (f g); simpl; [rewrite decide_False by done|]; lia.
Qed.
Lemma pos_lt fd l : fd ∈ l -> pos fd l < length l.
Proof.
  induction l as [|g l IH]; intros H; [by apply elem_of_nil in H|]. simpl. case_decide; [lia|].
  apply elem_of_cons in H as [->|H]; [done|]. specialize (IH H). lia.
Qed.

Lemma pos_step c s l s' fd : wf_config c -> reachable c s -> user_fd c fd -> legal c s l ->
  step c s l = Some s' -> fd ∈ rdl (kern s) -> fd ∈ rdl (kern s') ->
  (forall t max b k, wait s = WPoll t max -> epoll_wait (kern s) max = (b, k) -> l <> LGo) ->
  pos fd (rdl (kern s')) <= pos fd (rdl (kern s)).
Proof.
  intros Hc Hr Hu Hl Hs Hq Hq' Hng. destruct Hu as [Hu1 Hu2].
  assert (Hi : forall g ev data, pos fd (rdl (install (kern s) g ev data)) <= pos fd (rdl (kern s))).
  { intros. unfold install. simpl. destruct (is_empty _); [done|]. by rewrite pos_enqueue. }
  assert (Hwk : forall g m key, pos fd (rdl (wake (set_ready (kern s) g m) g key)) <= pos fd (rdl (kern s))).
  { intros. unfold wake. repeat case_match; simpl; try done. by rewrite pos_enqueue. }
  destruct l as [g e m f|g e m f|g f|g|g m key| | |t max| |e]; cbn [step legal] in Hs, Hl.
  - destruct (sys_add _ _ _ _ _) as [r k] eqn:E. injection Hs as <-.
    apply add_cases in E as [(-> & -> & Hn & ->)|(x & -> & -> & _)]; [apply Hi|done].
  - destruct (sys_modify _ _ _ _ _) as [r k] eqn:E. injection Hs as <-.
    apply modify_cases in E as [(-> & -> & Hn & ->)|(x & -> & -> & _)]; [apply Hi|done].
  - destruct (sys_delete _ _ _) as [r k] eqn:E. injection Hs as <-.
    apply delete_cases in E as [(-> & -> & Hn & ->)|(x & -> & -> & _)]; [|done].
    simpl in Hq' |- *. apply filter_in in Hq' as [_ Hq']. by apply pos_filter.
  - injection Hs as <-. simpl in Hq' |- *. apply filter_in in Hq' as [_ Hq']. by apply pos_filter.
  - injection Hs as <-. apply Hwk.
  - injection Hs as <-. apply Hwk.
  - destruct (timer c) as [t|]; [|done]. destruct (clock s); [|done]. injection Hs as <-. apply Hwk.
  - destruct (wait s); try done. by injection Hs as <-.
  - destruct (wait s) as [|t max|t max|t max|b|b] eqn:Hw; try done.
    + destruct (timer c) as [g|] eqn:Ht; [|done]. by injection Hs as <-.
    + destruct (timer c) as [g|] eqn:Ht; [|done]. destruct (sys_modify _ _ _ _ _) as [r k] eqn:E.
      apply modify_cases in E as [(-> & _ & Hn & ->)|(x & -> & -> & _)]; injection Hs as <-; [apply Hi|done].
    + destruct (epoll_wait (kern s) max) as [b k] eqn:E. by destruct (Hng t max b k).
    + by injection Hs as <-.
    + destruct (sys_modify _ _ _ _ _) as [r k] eqn:E.
      apply modify_cases in E as [(-> & _ & Hn & ->)|(x & -> & -> & _)]; injection Hs as <-; [apply Hi|done].
  - destruct (wait s); try done; by injection Hs as <-.
Qed.

Lemma reachable_po c fd n s s' : reachable c s -> passed_over c fd n s s' -> reachable c s'.
Proof. intros Hr Hp. induction Hp; [done|]. eapply reach_step; [by apply IHHp|done|done]. Qed.

(** With the registration kept and no report, the source stays unspent. *)
Lemma unspent_step c s l s' fd : wf_config c -> reachable c s -> user_fd c fd -> legal c s l ->
  step c s l = Some s' ->
  (forall b, log s' = log s ++ [Reported b] -> forall e, (fd, e) ∉ b) ->
  ~ spent fd (log s) -> ~ spent fd (log s').
Proof.
  intros Hc Hr Hu Hl Hs Hnb Hsp Hx. destruct (log_grows _ _ _ _ Hs) as [E|[o E]]; [by rewrite E in Hx|].
  rewrite E in Hx. apply spent_snoc in Hx as [[? _]|(b & e & e' & m & -> & Hin & _)]; [done|].
  by eapply Hnb.
Qed.

Lemma po_inv c fd n s s' e m : wf_config c -> reachable c s -> user_fd c fd ->
  passed_over c fd n s s' -> registered fd (log s) = Some (e, m) -> ~ mode_edge m ->
  ~ spent fd (log s) -> (exists b, watched e b /\ bit (ready (kern s) fd) b) ->
  registered fd (log s') = Some (e, m) /\ ~ spent fd (log s') /\
  (exists b, watched e b /\ bit (ready (kern s') fd) b) /\
  n + pos fd (rdl (kern s')) <= pos fd (rdl (kern s)).
Proof.
  intros Hc Hr Hu Hpo Hreg Hm Hsp Hb0. induction Hpo as [s|n s s1 l s2 Hpo IH Hl Hs Hsame Hrdy Hnb].
  { split; [done|]. split; [done|]. split; [done|]. simpl. lia. }
  destruct (IH Hr Hreg Hsp Hb0) as (I1 & I2 & [n1 [I3 I4]] & I5).
  assert (Hr1 : reachable c s1) by (by eapply reachable_po).
  assert (Hr2 : reachable c s2) by (by eapply reach_step).
  assert (Hreg2 : registered fd (log s2) = Some (e, m)) by congruence.
  assert (Hsp2 : ~ spent fd (log s2)) by (by eapply (unspent_step c s1 l s2)).
  assert (Hb2 : exists b, watched e b /\ bit (ready (kern s2) fd) b).
  { destruct Hrdy as (e0 & m0 & b & E & Hw & Hbit). rewrite E in Hreg2. simplify_eq. eauto. }
  split; [done|]. split; [done|]. split; [done|].
  destruct (level_queued c s1 fd e m n1) as (it & Hit & He & Hd & Hg & Hne & Hq); auto.
  destruct Hb2 as (n2 & Hw2 & Hb2).
  destruct (level_queued c s2 fd e m n2) as (it2 & _ & _ & _ & _ & _ & Hq2); auto.
  assert (Hcase : (exists t max, l = LGo /\ wait s1 = WPoll t max) \/
    (forall t max b k, wait s1 = WPoll t max -> epoll_wait (kern s1) max = (b, k) -> l <> LGo)).
  { destruct l; try (right; by intros). destruct (wait s1) eqn:Hw; try (right; by intros). left. eauto. }
  destruct Hcase as [(t & max & -> & Hw)|Hng].
  - rewrite Hw. assert (0 < max) as Hmax by (apply (wait_max c s1 t max Hr1); by left).
    destruct (go_poll c s1 t max fd it) as (rb & k & s' & Ek & Hs' & Ek' & El & _ & Hor); auto.
    rewrite Hs in Hs'. injection Hs' as <-. subst k.
    destruct Hor as [Hin|(_ & dn & rest & E1 & Hqr & Hlen & E2)].
    { exfalso. by eapply Hnb. }
    assert (Hdn : fd ∉ dn).
    { pose proof (kv_nodup _ (iv_kern _ _ (inv_reachable _ _ Hc Hr1))) as Hnd. rewrite E1 in Hnd.
      apply NoDup_app in Hnd as (_ & Hd' & _). intros Hx. by apply (Hd' fd). }
    rewrite E2, pos_app_in by done. rewrite E1, pos_app_out in I5 by done. lia.
  - pose proof (pos_step c s1 l s2 fd Hc Hr1 Hu Hl Hs Hq Hq2 Hng).
    assert (match l, wait s1 with LGo, WPoll _ _ => S n | _, _ => n end = n) as ->; [|lia].
    destruct l; try done. destruct (wait s1) eqn:Hw; try done.
    destruct (epoll_wait (kern s1) max) as [b k] eqn:E. by destruct (Hng t max b k).
Qed.

Lemma rdl_le_items k : kinv k -> length (rdl k) <= size (items k).
Proof.
  intros Hk. rewrite <-size_dom. rewrite <-(size_list_to_set (C := gset Z) (rdl k)) by apply Hk.
  apply subseteq_size. intros fd Hin%elem_of_list_to_set. apply elem_of_dom. by apply Hk.
Qed.

Lemma no_starvation c fd n s s' e m : wf_config c -> reachable c s -> user_fd c fd ->
  passed_over c fd n s s' -> registered fd (log s) = Some (e, m) -> ~ mode_edge m ->
  ~ spent fd (log s) -> (exists b, watched e b /\ bit (ready (kern s) fd) b) ->
  n < size (items (kern s)).
Proof.
  intros Hc Hr Hu Hpo Hreg Hm Hsp Hb.
  destruct (po_inv _ _ _ _ _ _ _ Hc Hr Hu Hpo Hreg Hm Hsp Hb) as (_ & _ & _ & Hle).
  destruct Hb as (b & Hw & Hbit).
  destruct (level_queued c s fd e m b) as (it & _ & _ & _ & _ & _ & Hq); auto.
  pose proof (pos_lt _ _ Hq). pose proof (rdl_le_items _ (iv_kern _ _ (inv_reachable _ _ Hc Hr))). lia.
Qed.

(** *** C41: edge-triggered sources *)
Lemma total_snoc f h o : total f (h ++ [o]) = total f h + f o.
Proof. unfold total. induction h as [|x h IH]; simpl; lia. Qed.

Definition queued (fd : Z) (k : kernel) : nat := if decide (fd ∈ rdl k) then 1 else 0.
Lemma queued_le1 fd k : queued fd k <= 1.
Proof. unfold queued. case_decide; lia. Qed.
Lemma queued_eq fd k k' : (fd ∈ rdl k' <-> fd ∈ rdl k) -> queued fd k' = queued fd k.
Proof. intros H. unfold queued. repeat case_decide; tauto. Qed.

Lemma reports_le1 fd (b : list (Z * event N)) : NoDup (map fst b) -> length (filter (fun x => x.1 = fd) b) <= 1.
Proof.
  induction b as [|[g e] b IH]; intros Hnd; [simpl; lia|]. simpl in Hnd. apply NoDup_cons in Hnd as [Hg Hnd].
  rewrite filter_cons. simpl. case_decide as Hd.
  - subst. assert (filter (fun x : Z * event N => x.1 = fd) b = []) as ->; [|simpl; lia].
    clear -Hg. induction b as [|[g e'] b IH]; [done|]. simpl in Hg. apply not_elem_of_cons in Hg as [H1 H2].
    rewrite filter_cons_False by (simpl; congruence). auto.
  - by apply IH.
Qed.
Lemma reports_pos fd (b : list (Z * event N)) : 0 < length (filter (fun x => x.1 = fd) b) -> exists e, (fd, e) ∈ b.
Proof.
  destruct (filter _ b) as [|[g e] r] eqn:E; simpl; [lia|]. intros _.
  assert ((g, e) ∈ filter (fun x : Z * event N => x.1 = fd) b) as Hin by (rewrite E; left).
  apply elem_of_list_filter in Hin as [Hg Hin]. simpl in Hg. subst. eauto.
Qed.

Lemma edge_step c s l s' fd : wf_config c -> reachable c s -> user_fd c fd -> legal c s l ->
  step c s l = Some s' ->
  (forall e m, registered fd (log s) = Some (e, m) -> mode_edge m) ->
  exists h, log s' = log s ++ h /\
  total (reports_of fd) h + queued fd (kern s') <=
  queued fd (kern s) + total (wakes_of fd) h + total (registrations_of fd) h.
Proof.
  intros Hc Hr Hu Hl Hs Hedge. pose proof (inv_reachable _ _ Hc Hr) as Hi.
  pose proof (queued_le1 fd (kern s')) as Hle.
  destruct (step_change _ _ _ _ fd Hc Hr Hu Hl Hs) as
    [e m H1 H2 H3 H4 H5|H1 H2 H3 H4|m key H1 H2|t max b k Hw H1 H2 H3|H1 H2 H3 H4 H5].
  - destruct H4 as [E|E]; eexists; (split; [exact E|]); cbn [total foldr reports_of wakes_of];
      unfold registrations_of; rewrite decide_True by done; lia.
  - assert (queued fd (kern s') = 0) as -> by (unfold queued; by rewrite decide_False).
    destruct H4 as [E|E]; eexists; (split; [exact E|]); cbn [total foldr reports_of wakes_of]; lia.
  - eexists. split; [exact H1|]. cbn [total foldr reports_of wakes_of]. rewrite decide_True by done. lia.
  - exists [Reported (map to_event b)]. split; [exact H2|]. cbn [total foldr reports_of wakes_of].
    pose proof (reports_le1 fd _ (batch_nodup _ _ _ _ (iv_kern _ _ Hi) H1)) as Hr1.
    pose proof (reports_pos fd (map to_event b)) as Hp.
    destruct (wait_spec _ _ _ _ (iv_kern _ _ Hi) H1) as (dn & rest & E1 & E2 & E3 & _ & _ & _).
    assert (Hsub : fd ∈ rdl k -> fd ∈ rdl (kern s)).
    { rewrite E1, E3. intros [Hin|[Hin _]%filter_in]%elem_of_app; apply elem_of_app; auto. }
    rewrite H3. destruct (length (filter _ (map to_event b))) as [|[|]] eqn:El; [| |lia].
    + unfold queued. repeat case_decide; try lia. by destruct (H0 (Hsub H)).
    + destruct (Hp ltac:(lia)) as [e' Hin].
      destruct (wait_reports _ _ _ _ _ _ (iv_kern _ _ Hi) H1 Hin) as (it & Hq & Hit & Hne & _).
      unfold queued at 2. rewrite decide_True by done.
      assert (queued fd k = 0) as ->; [|lia]. unfold queued. rewrite decide_False; [done|].
      assert (Hdn : fd ∈ dn).
      { apply elem_of_list_fmap in Hin as (r & Hr' & Hin). rewrite E2 in Hin.
        apply elem_of_list_omap in Hin as (g & Hg & Hrep).
        apply rep_some in Hrep as (it' & _ & _ & ->). simpl in Hr'. by injection Hr' as ->. }
      pose proof (kv_nodup _ (iv_kern _ _ Hi)) as Hnd. rewrite E1 in Hnd.
      apply NoDup_app in Hnd as (_ & Hd' & _).
      rewrite E3. intros [Hx|[_ Hx]%filter_in]%elem_of_app; [by apply (Hd' fd)|].
      unfold back in Hx. rewrite Hit, Hne in Hx. simpl in Hx. unfold level_item in Hx.
      apply andb_prop in Hx as [_ Hx]. apply negb_true_iff in Hx.
      pose proof (iv_user _ _ Hi fd Hu) as Hma. rewrite Hit in Hma.
      destruct (registered fd (log s)) as [[e m]|]; [|done]. destruct Hma as [Hsh _].
      assert (plain (ready (kern s) fd)) as Hpl by apply Hi.
      rewrite (shape_armed _ _ _ _ _ Hpl Hsh Hne) in Hx.
      assert (intersects (word e m) EPOLLET = true); [|congruence].
      apply word_edge; [by destruct Hsh as (_ & ? & _)|by eapply Hedge].
  - rewrite (queued_eq fd (kern s) (kern s') H3).
    destruct H4 as [E|(o & E & Hnr & Hnb & Hnh)].
    + exists []. rewrite app_nil_r. split; [done|]. simpl. lia.
    + exists [o]. split; [done|]. cbn [total foldr].
      assert (reports_of fd o = 0) as ->; [|lia]. destruct o; try done. by destruct (Hnb b).
Qed.

Lemma mode_edge_em m : mode_edge m \/ ~ mode_edge m.
Proof. unfold mode_edge. destruct m; (left; tauto) || (right; intuition congruence). Qed.
Lemma edge_registered fd r h : (forall e m, r = Some (e, m) -> mode_edge m) ->
  Forall (fun o => ~ registers_other_mode fd o) h ->
  forall e m, fold_left (after fd) h r = Some (e, m) -> mode_edge m.
Proof.
  revert r. induction h as [|o h IH]; intros r Hr HF; [done|]. apply Forall_cons in HF as [Ho HF].
  simpl. apply IH; [|done]. intros e m. destruct o as [g e' m' []|g e' m' []|g []|g| | | | | | | |]; simpl; try apply Hr.
  1,2: case_decide; [|apply Hr]; intros [= <- <-]; destruct (mode_edge_em m'); [done|]; exfalso; apply Ho; simpl; split; auto.
  all: case_decide; [done|apply Hr].
Qed.

Lemma edge_counted c s h1 o h2 fd : wf_config c -> reachable c s -> user_fd c fd ->
  log s = h1 ++ o :: h2 -> registers fd o -> ~ registers_other_mode fd o ->
  Forall (fun o => ~ registers_other_mode fd o) h2 ->
  total (reports_of fd) h2 + queued fd (kern s) <=
    1 + total (wakes_of fd) h2 + total (registrations_of fd) h2.
Proof.
  intros Hc Hr Hu. revert h2. induction Hr as [|s l s' Hr IH Hl Hs]; intros h2 E Ho Hom HF.
  { by destruct h1. }
  destruct (log_grows _ _ _ _ Hs) as [E'|[o' E']].
  - rewrite E' in E.
    assert (Hedge : forall e m, registered fd (log s) = Some (e, m) -> mode_edge m).
    { rewrite E. unfold registered. rewrite fold_left_app. simpl. apply edge_registered; [|done].
      intros e m. destruct o as [g e' m' []|g e' m' []|g []|g| | | | | | | |]; simpl in Ho, Hom |- *; try done;
        rewrite decide_True by done; intros [= <- <-]; (destruct (mode_edge_em m'); [done|exfalso; auto]). }
    destruct (edge_step _ _ _ _ fd Hc Hr Hu Hl Hs Hedge) as (h & Eh & Hle). rewrite E' in Eh.
    assert (h = []) as ->.
    { apply (f_equal length) in Eh. rewrite app_length in Eh. destruct h; [done|simpl in Eh; lia]. }
    simpl in Hle. specialize (IH h2 E Ho Hom HF). lia.
  - rewrite E' in E. apply snoc_split in E as [(-> & E & ->)|(h3 & -> & E)].
    + simpl. pose proof (queued_le1 fd (kern s')). lia.
    + apply Forall_app in HF as [HF1 HF2].
      assert (Hedge : forall e m, registered fd (log s) = Some (e, m) -> mode_edge m).
      { rewrite E. unfold registered. rewrite fold_left_app. simpl. apply edge_registered; [|done].
        intros e m. destruct o as [g e' m' []|g e' m' []|g []|g| | | | | | | |]; simpl in Ho, Hom |- *; try done;
          rewrite decide_True by done; intros [= <- <-]; (destruct (mode_edge_em m'); [done|exfalso; auto]). }
      destruct (edge_step _ _ _ _ fd Hc Hr Hu Hl Hs Hedge) as (h & Eh & Hle).
      rewrite E' in Eh. apply app_inv_head in Eh as <-. simpl in Hle.
      specialize (IH h3 E Ho Hom HF1). rewrite !total_snoc. lia.
Qed.

(** A new event on an edge-triggered source, or its (re)registration while ready, is reported. *)
Lemma queued_stays c s l s' fd : wf_config c -> reachable c s -> user_fd c fd -> legal c s l ->
  step c s l = Some s' -> (forall o, log s' = log s ++ [o] -> ~ concerns fd o) ->
  fd ∈ rdl (kern s) ->
  registered fd (log s') = registered fd (log s) /\ items (kern s') !! fd = items (kern s) !! fd /\
  ((exists it, items (kern s) !! fd = Some it /\ is_empty (item_poll (kern s) fd it) = false) -> fd ∈ rdl (kern s')).
Proof.
  intros Hc Hr Hu Hl Hs Hnc Hq. pose proof (inv_reachable _ _ Hc Hr) as Hi.
  destruct (step_change _ _ _ _ fd Hc Hr Hu Hl Hs) as
    [e m H1 H2 H3 H4 H5|H1 H2 H3 H4|m key H1 H2|t max b k Hw H1 H2 H3|H1 H2 H3 H4 H5].
  - exfalso. destruct H4 as [E|E]; by apply Hnc in E.
  - exfalso. destruct H4 as [E|E]; by apply Hnc in E.
  - rewrite H1, registered_snoc, H2, wake_items. split; [done|]. split; [done|]. intros _. by apply wake_mono.
  - rewrite H2, registered_snoc. split; [done|].
    destruct (wait_spec _ _ _ _ (iv_kern _ _ Hi) H1) as (dn & rest & E1 & E2 & E3 & _ & E4 & _).
    assert (Hnr : forall it, items (kern s) !! fd = Some it -> is_empty (item_poll (kern s) fd it) = false -> fd ∉ dn).
    { intros it Hit Hne Hd. apply (Hnc _ H2). simpl.
      exists (epoll_to_event 64 (it_data it) (item_poll (kern s) fd it)).
      apply elem_of_list_fmap. exists (Report fd (item_poll (kern s) fd it) (it_data it)).
      split; [done|]. rewrite E2. apply elem_of_list_omap. exists fd. split; [done|].
      unfold rep. rewrite Hit. simpl. by rewrite Hne. }
    split.
    + rewrite H3, E4. case_decide as Hd; [|done]. destruct (items (kern s) !! fd) as [it|] eqn:Hit; [|done].
      simpl. f_equal. unfold item_after. destruct (is_empty _) eqn:Hne; [done|]. by destruct (Hnr it eq_refl Hne).
    + intros (it & Hit & Hne). rewrite H3, E3. apply elem_of_app. left. rewrite E1 in Hq.
      apply elem_of_app in Hq as [Hq|Hq]; [|done]. by destruct (Hnr it Hit Hne).
  - split; [done|]. split; [done|]. intros _. by apply H3.
Qed.
