(** The epoll properties. *)
From stdpp Require Import prelude list gmap.
From Verif Require Import Bits Types EventModel EventSpec EventProofs EpollModel EpollSpec EpollProofs.
Local Open Scope nat_scope.

(** *** The log grows by at most one entry per step *)
Lemma log_grows c s l s' : step c s l = Some s' -> log s' = log s \/ exists o, log s' = log s ++ [o].
Proof.
  destruct l as [fd e m f|fd e m f|fd f|fd|fd m key| | |t max| |e]; cbn [step]; intros Hs;
    repeat case_match; simplify_eq; simpl; eauto.
Qed.

Lemma snoc_split {A} (l : list A) a h b h' :
  l ++ [a] = h ++ b :: h' -> (h' = [] /\ l = h /\ a = b) \/ exists h2, h' = h2 ++ [a] /\ l = h ++ b :: h2.
Proof.
  intros E. destruct (decide (h' = [])) as [->|Hne].
  - left. by apply app_inj_tail in E as [-> ->].
  - right. destruct (exists_last Hne) as (h2 & x & ->). exists h2.
    change (h ++ b :: h2 ++ [x]) with (h ++ (b :: h2) ++ [x]) in E. rewrite app_assoc in E.
    apply app_inj_tail in E as [-> ->]. done.
Qed.

(** Every log entry was made by a step from a reachable state. *)
Lemma log_step c s h o h' : reachable c s -> log s = h ++ o :: h' ->
  exists s1 l s2, reachable c s1 /\ legal c s1 l /\ step c s1 l = Some s2 /\ log s1 = h /\ log s2 = h ++ [o].
Proof.
  intros Hr. revert h'. induction Hr as [|s l s' Hr IH Hl Hs]; intros h' E.
  { by destruct h. }
  destruct (log_grows _ _ _ _ Hs) as [E'|[o' E']]; rewrite E' in E; [by eapply IH|].
  apply snoc_split in E as [(-> & <- & <-)|(h2 & -> & E)]; [|by eapply IH].
  by exists s, l, s'.
Qed.

Lemma readiness_snoc fd h o : readiness fd (h ++ [o]) = became fd (readiness fd h) o.
Proof. unfold readiness. by rewrite fold_left_app. Qed.

(** Which step makes a [Reported] entry. *)
Lemma reported_step c s l s' b : step c s l = Some s' -> log s' = log s ++ [Reported b] ->
  exists t max rb k, l = LGo /\ wait s = WPoll t max /\ epoll_wait (kern s) max = (rb, k) /\
    b = map to_event rb /\ s' = emit (set_wait (set_kern s k) (WClear rb)) (Reported b).
Proof.
  assert (Hx : forall o : obs, log s ++ [o] = log s ++ [Reported b] -> o = Reported b).
  { intros o E. by apply app_inv_head in E as [= ->]. }
  assert (Hy : log s <> log s ++ [Reported b]).
  { intros E. apply (f_equal length) in E. rewrite app_length in E. simpl in E. lia. }
  destruct l as [fd e m f|fd e m f|fd f|fd|fd m key| | |t max| |e]; cbn [step]; intros Hs;
    repeat case_match; simplify_eq; simpl; intros E; try (apply Hx in E); simplify_eq; try done.
  eexists _, _, _, _. split; [done|]. split; [done|]. split; [done|]. split; done.
Qed.

Lemma ready_log c s fd : reachable c s -> user_fd c fd -> ready (kern s) fd = readiness fd (log s).
Proof.
  intros Hr [Hu1 Hu2]. induction Hr as [|s l s' Hr IH Hl Hs].
  { unfold init, sys_add, ctl_add. destruct (timer c); repeat case_match; simplify_eq; done. }
  assert (Hin : forall k g m key, ready (wake (set_ready k g m) g key) fd = if decide (fd = g) then m else ready k fd).
  { intros. unfold ready. rewrite wake_masks. apply (ready_set k g m fd). }
  destruct l as [g e m f|g e m f|g f|g|g m key| | |t max| |e]; cbn [step] in Hs.
  - destruct (sys_add _ _ _ _ _) as [r k] eqn:E. injection Hs as <-. simpl.
    rewrite readiness_snoc. simpl. rewrite <-IH.
    apply add_cases in E as [(-> & -> & Hn & ->)|(x & -> & -> & _)]; done.
  - destruct (sys_modify _ _ _ _ _) as [r k] eqn:E. injection Hs as <-. simpl.
    rewrite readiness_snoc. simpl. rewrite <-IH.
    apply modify_cases in E as [(-> & -> & Hn & ->)|(x & -> & -> & _)]; done.
  - destruct (sys_delete _ _ _) as [r k] eqn:E. injection Hs as <-. simpl.
    rewrite readiness_snoc. simpl. rewrite <-IH.
    apply delete_cases in E as [(-> & -> & Hn & ->)|(x & -> & -> & _)]; done.
  - injection Hs as <-. simpl. rewrite readiness_snoc. simpl. rewrite <-IH, ready_set.
    repeat case_decide; (done || congruence).
  - injection Hs as <-. simpl. rewrite readiness_snoc. simpl. rewrite <-IH, Hin.
    repeat case_decide; (done || congruence).
  - injection Hs as <-. simpl. rewrite readiness_snoc. simpl. rewrite <-IH, Hin.
    by rewrite decide_False.
  - destruct (timer c) as [t|]; [|done]. destruct (clock s); [|done]. injection Hs as <-. simpl.
    rewrite readiness_snoc. simpl. rewrite <-IH, Hin. by rewrite decide_False by congruence.
  - destruct (wait s); try done. injection Hs as <-. simpl. by rewrite readiness_snoc.
  - destruct (wait s) as [|t max|t max|t max|b|b] eqn:Hw; try done.
    + destruct (timer c) as [g|] eqn:Ht; [|done]. injection Hs as <-. simpl. rewrite readiness_snoc. simpl.
      by rewrite ready_set, decide_False by congruence.
    + destruct (timer c) as [g|] eqn:Ht; [|done]. destruct (sys_modify _ _ _ _ _) as [r k] eqn:E.
      apply modify_cases in E as [(-> & _ & Hn & ->)|(x & -> & -> & _)]; injection Hs as <-; simpl;
        rewrite ?readiness_snoc; done.
    + destruct (epoll_wait (kern s) max) as [b k] eqn:E. destruct (sleeps c t && _); [done|].
      injection Hs as <-. simpl. rewrite readiness_snoc. simpl. rewrite <-IH. unfold ready.
      unfold epoll_wait in E. destruct (send _ _ _ _) as [[[? ?] ?] ?]. by injection E as <- <-.
    + injection Hs as <-. simpl. by rewrite ready_set, decide_False.
    + destruct (sys_modify _ _ _ _ _) as [r k] eqn:E.
      apply modify_cases in E as [(-> & _ & Hn & ->)|(x & -> & -> & _)]; injection Hs as <-; simpl;
        rewrite ?readiness_snoc; done.
  - destruct (wait s); try done; injection Hs as <-; simpl; by rewrite readiness_snoc.
Qed.

(** *** C42, C38 *)
Lemma shape_poll k fd e m it n : plain (ready k fd) -> shape e m it ->
  bit (item_poll k fd it) n -> watched e n /\ bit (ready k fd) n.
Proof.
  intros Hp (_ & He & Hw) [Hn Hi]%bit_land. split; [|done].
  assert (Hlt : (n < 28)%N) by (by apply Hp).
  assert (bit (word e m) n) as Hb.
  { destruct Hw as [Hw|[_ Hw]]; rewrite Hw in Hi; [done|]. by apply bit_land in Hi as [Hi _]. }
  apply ctl_word_bit in Hb as [Hb|[[_ ->]|[_ ->]]]; [done|unfold b_oneshot in *; lia|unfold b_et in *; lia].
Qed.
Lemma armed_poll k fd e m it n : it_events it = word e m ->
  watched e n -> bit (ready k fd) n -> bit (item_poll k fd it) n.
Proof. intros Hw ? ?. unfold item_poll. rewrite Hw. apply bit_land. split; [done|]. apply ctl_word_bit. auto. Qed.

Lemma shape_armed k fd e m it : plain (ready k fd) -> shape e m it ->
  is_empty (item_poll k fd it) = false -> it_events it = word e m.
Proof.
  intros Hp (_ & _ & [Hw|[_ Hw]]) Hn; [done|]. exfalso.
  unfold item_poll in Hn. rewrite Hw, disarmed_poll in Hn by done. done.
Qed.

Lemma key_back e : good_key e -> u64_to_key 64 (key_to_u64 (ev_key e)) = ev_key e.
Proof.
  intros [_ H]. unfold u64_to_key, key_to_u64. change 18446744073709551616%N with (2^64)%N.
  rewrite !(N.mod_small (ev_key e)) by done. done.
Qed.

Lemma reported_from_registered c s h b h' fd e' :
  wf_config c -> reachable c s -> log s = h ++ Reported b :: h' -> (fd, e') ∈ b -> user_fd c fd ->
  exists e m, registered fd h = Some (e, m) /\ ev_key e' = ev_key e /\
    (forall n, bit (ev_extra e') n <-> watched e n /\ bit (readiness fd h) n) /\
    exists n, bit (ev_extra e') n.
Proof.
  intros Hc Hr E Hin Hu. destruct (log_step _ _ _ _ _ Hr E) as (s1 & l & s2 & Hr1 & Hl & Hs & E1 & E2).
  rewrite <-E1 in E2. destruct (reported_step _ _ _ _ _ Hs E2) as (t & max & rb & k & -> & Hw & Hk & -> & _).
  pose proof (inv_reachable _ _ Hc Hr1) as Hi.
  destruct (wait_reports _ _ _ _ _ _ (iv_kern _ _ Hi) Hk Hin) as (it & Hq & Hit & Hne & -> & _).
  pose proof (iv_user _ _ Hi fd Hu) as Hm. rewrite Hit, E1 in Hm.
  destruct (registered fd h) as [[e m]|]; [|done]. destruct Hm as [Hsh Hg].
  assert (Hpl : plain (ready (kern s1) fd)) by apply Hi.
  exists e, m. split; [done|]. split; [|split].
  - simpl. destruct Hsh as (-> & _). by apply key_back.
  - intros n. simpl. rewrite <-E1, <-(ready_log c) by done. split.
    + by eapply shape_poll.
    + intros [Hw' Hb]. eapply armed_poll; [|done|done]. by eapply shape_armed.
  - simpl. by apply nonempty_iff.
Qed.

Lemma own_reports c s h b h' fd e' :
  wf_config c -> reachable c s -> log s = h ++ Reported b :: h' -> (fd, e') ∈ b -> ~ user_fd c fd ->
  ev_key e' = NOTIFY_KEY.
Proof.
  intros Hc Hr E Hin Hu. destruct (log_step _ _ _ _ _ Hr E) as (s1 & l & s2 & Hr1 & Hl & Hs & E1 & E2).
  rewrite <-E1 in E2. destruct (reported_step _ _ _ _ _ Hs E2) as (t & max & rb & k & -> & Hw & Hk & -> & _).
  pose proof (inv_reachable _ _ Hc Hr1) as Hi.
  destruct (wait_reports _ _ _ _ _ _ (iv_kern _ _ Hi) Hk Hin) as (it & Hq & Hit & Hne & -> & _).
  simpl. assert (Hk64 : u64_to_key 64 (key_to_u64 NOTIFY_KEY) = NOTIFY_KEY) by (vm_compute; reflexivity).
  destruct (decide (fd = notifier c)) as [->|Hn].
  - destruct (iv_notifier _ _ Hi) as (it' & Hit' & Hd & _). rewrite Hit in Hit'. injection Hit' as <-.
    by rewrite Hd.
  - destruct (timer c) as [t'|] eqn:Ht.
    + destruct (decide (t' = fd)) as [->|Hn'].
      * destruct (iv_timer _ _ Hi fd Ht) as (it' & e & Hit' & (Hd & _) & He). rewrite Hit in Hit'. injection Hit' as <-.
        rewrite Hd. by destruct He as [-> | ->].
      * destruct Hu. split; congruence.
    + destruct Hu. split; congruence.
Qed.

Lemma registered_item c s fd : wf_config c -> reachable c s -> user_fd c fd ->
  is_Some (items (kern s) !! fd) <-> is_Some (registered fd (log s)).
Proof.
  intros Hc Hr Hu. pose proof (iv_user _ _ (inv_reachable _ _ Hc Hr) fd Hu) as Hm.
  destruct (items (kern s) !! fd), (registered fd (log s)) as [[]|]; simpl in Hm; try done.
  split; intros [? ?]; done.
Qed.

Lemma installed_holds e m : usable [] e \/ (ev_key e < 2 ^ 64)%N ->
  holds (Item (ctl_word (epoll_interest e m)) (key_to_u64 (ev_key e))) e m.
Proof.
  intros H. assert (ev_key e < 2 ^ 64)%N by (destruct H as [(_ & _ & ?)|]; done).
  split; simpl; [|apply ctl_word_bit]. unfold key_to_u64. by apply N.mod_small.
Qed.

Lemma add_result c s fd e m f s' :
  wf_config c -> reachable c s -> legal c s (LAdd fd e m f) -> step c s (LAdd fd e m f) = Some s' ->
  exists r, log s' = log s ++ [AddRet fd e m r] /\
    r = match f, registered fd (log s) with
        | Some x, _ => Err (EOs x)
        | None, Some _ => Err (EOs EEXIST)
        | None, None => Ok tt
        end /\
    (r <> Ok tt -> kern s' = kern s) /\
    (r = Ok tt -> exists it, items (kern s') = <[fd := it]> (items (kern s)) /\ holds it e m).
Proof.
  intros Hc Hr [Hu (_ & _ & Hk)] Hs. cbn [step] in Hs.
  pose proof (registered_item _ _ _ Hc Hr Hu) as Hri.
  destruct (sys_add _ _ _ _ _) as [r k] eqn:E. injection Hs as <-. exists r. split; [done|].
  apply add_cases in E as [(-> & -> & Hn & ->)|(x & -> & -> & [-> |(-> & -> & Hn)])].
  - rewrite Hn in Hri. destruct (registered fd (log s)) eqn:Er.
    { destruct Hri as [_ Hri]. destruct Hri as [? ?]; [eauto|done]. }
    split; [done|]. split; [done|]. intros _. eexists. split; [done|]. apply installed_holds. auto.
  - split; [done|]. split; [done|]. done.
  - apply Hri in Hn as [? ->]. split; [done|]. split; done.
Qed.
Lemma modify_result c s fd e m f s' :
  wf_config c -> reachable c s -> legal c s (LModify fd e m f) -> step c s (LModify fd e m f) = Some s' ->
  exists r, log s' = log s ++ [ModifyRet fd e m r] /\
    r = match f, registered fd (log s) with
        | Some x, _ => Err (EOs x)
        | None, None => Err (EOs ENOENT)
        | None, Some _ => Ok tt
        end /\
    (r <> Ok tt -> kern s' = kern s) /\
    (r = Ok tt -> exists it, items (kern s') = <[fd := it]> (items (kern s)) /\ holds it e m).
Proof.
  intros Hc Hr [Hu (_ & _ & Hk)] Hs. cbn [step] in Hs.
  pose proof (registered_item _ _ _ Hc Hr Hu) as Hri.
  destruct (sys_modify _ _ _ _ _) as [r k] eqn:E. injection Hs as <-. exists r. split; [done|].
  apply modify_cases in E as [(-> & -> & Hn & ->)|(x & -> & -> & [-> |(-> & -> & Hn)])].
  - apply Hri in Hn as [? ->]. split; [done|]. split; [done|]. intros _. eexists. split; [done|].
    apply installed_holds. auto.
  - split; [done|]. split; done.
  - rewrite Hn in Hri. destruct (registered fd (log s)) eqn:Er.
    { destruct Hri as [_ Hri]. destruct Hri as [? ?]; [eauto|done]. }
    split; [done|]. split; done.
Qed.
Lemma delete_result c s fd f s' :
  wf_config c -> reachable c s -> legal c s (LDelete fd f) -> step c s (LDelete fd f) = Some s' ->
  exists r, log s' = log s ++ [DeleteRet fd r] /\
    r = match f, registered fd (log s) with
        | Some x, _ => Err (EOs x)
        | None, None => Err (EOs ENOENT)
        | None, Some _ => Ok tt
        end /\
    (r <> Ok tt -> kern s' = kern s) /\
    (r = Ok tt -> items (kern s') = delete fd (items (kern s))).
Proof.
  intros Hc Hr Hu Hs. cbn [step legal] in Hs, Hu.
  pose proof (registered_item _ _ _ Hc Hr Hu) as Hri.
  destruct (sys_delete _ _ _) as [r k] eqn:E. injection Hs as <-. exists r. split; [done|].
  apply delete_cases in E as [(-> & -> & Hn & ->)|(x & -> & -> & [-> |(-> & -> & Hn)])].
  - apply Hri in Hn as [? ->]. split; [done|]. split; done.
  - split; [done|]. split; done.
  - rewrite Hn in Hri. destruct (registered fd (log s)) eqn:Er.
    { destruct Hri as [_ Hri]. destruct Hri as [? ?]; [eauto|done]. }
    split; [done|]. split; done.
Qed.
