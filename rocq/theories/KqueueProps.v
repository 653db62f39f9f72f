(** The kqueue properties: C43 to C48 and C70 to C77.  [c] says how the kernel treats a repeated
    registration and which notifier is used; [reachable c excl s] ranges over all histories of
    calls, kernel answers and failures, readiness changes and waits, with any number of threads;
    with [excl] no two threads work on the same source at once. *)
From stdpp Require Import prelude list gmap.
From Verif Require Import Bits Types EventModel EventSpec EventProofs LibModel KqueueModel KqueueSpec KqueueProofs
  KqueueProofs2 KqueueProofs3 KqueueProofs4 KqueueProofs5 KqueueProofs6 KqueueProofs7 KqueueProofs8
  KqueueProofs9.
Local Open Scope nat_scope.

(** ** C43: registrations behave like a map *)
Theorem C43_add c s h i cl r h' :
  reachable c true s -> log s = h ++ Returned i cl r :: h' -> is_add cl = true ->
  (r = exists_err <-> entered (call_source cl) h = true).
Proof.
  intros Hr E Ha. destruct (return_at _ _ _ _ _ _ _ _ Hr E) as (s1 & Hr1 & <- & Ht).
  destruct (xv_busy _ _ (xinv_reach _ _ Hr1) i _ _ Ht eq_refl) as [_ H]. cbn [rel] in H. rewrite Ha in H.
  unfold noted in H. tauto.
Qed.
Theorem C43_modify c s h i cl r h' :
  reachable c true s -> log s = h ++ Returned i cl r :: h' -> is_modify cl = true ->
  (r = missing_err <-> entered (call_source cl) h = false).
Proof.
  intros Hr E Hm. destruct (return_at _ _ _ _ _ _ _ _ Hr E) as (s1 & Hr1 & <- & Ht).
  destruct (xv_busy _ _ (xinv_reach _ _ Hr1) i _ _ Ht eq_refl) as [_ H]. cbn [rel] in H.
  assert (is_add cl = false) as Ea by (by destruct cl). rewrite Ea, Hm in H. unfold noted in H.
  destruct H as (_ & -> & _). apply not_true_iff_false.
Qed.
Theorem C43_delete c s h i fd r h' :
  reachable c true s -> log s = h ++ Returned i (CDelete fd) r :: h' ->
  (r = missing_err <-> entered (SFd fd) h = false).
Proof.
  intros Hr E. destruct (return_at _ _ _ _ _ _ _ _ Hr E) as (s1 & Hr1 & <- & Ht).
  destruct (xv_busy _ _ (xinv_reach _ _ Hr1) i _ _ Ht eq_refl) as [_ H]. cbn [rel is_add is_modify call_source] in H.
  unfold noted in H. rewrite <- not_true_iff_false.
  destruct H as [(-> & _ & H)|[(-> & _ & H)|((_ & Hn & _) & _ & H)]]; split; try done.
Qed.
Theorem C43_delete_filter c s h i u r h' :
  reachable c true s -> log s = h ++ Returned i (CDeleteFilter u) r :: h' ->
  (r = missing_err -> entered (filter_source u) h = false) /\
  (r = Ok tt -> entered (filter_source u) h = true).
Proof.
  intros Hr E. destruct (return_at _ _ _ _ _ _ _ _ Hr E) as (s1 & Hr1 & <- & Ht).
  destruct (xv_busy _ _ (xinv_reach _ _ Hr1) i _ _ Ht eq_refl) as [_ H]. cbn [rel is_add is_modify call_source] in H.
  unfold noted in H. rewrite <- not_true_iff_false.
  destruct H as [(-> & _ & H)|[(-> & _ & H)|((_ & Hn & Hk) & _)]]; split; try done.
Qed.
(** Sources never share a filter. *)
Theorem C43_no_collision src src' f : source_filter src f -> source_filter src' f -> src = src'.
Proof. exact (source_filter_inj src src' f). Qed.

(** ** C44: a failed add changes nothing -- only if it fails as a duplicate *)
(** In histories in which every failing add fails as a duplicate, a source is registered iff an
    add of it succeeded and no delete did since; C43 then speaks about successful adds. *)
Theorem C44_failed_add_partial c s h i cl r h' :
  reachable c true s -> log s = h ++ Returned i cl r :: h' ->
  Forall (fun o => forall i cl r, o = Returned i cl r -> is_add cl = true -> r = Ok tt \/ r = exists_err) h ->
  (is_add cl = true -> (r = exists_err <-> added (call_source cl) h = true)) /\
  (is_modify cl = true -> (r = missing_err <-> added (call_source cl) h = false)).
Proof.
  intros Hr E HF. rewrite <- (entered_added (call_source cl) h HF). split; intros Hc.
  - by eapply C43_add.
  - by eapply C43_modify.
Qed.

(** ** C45: change errors are reported exactly *)
Theorem C45_results c excl s h i cl r h' :
  reachable c excl s -> log s = h ++ Returned i cl r :: h' -> result_of cl (last_reply i h) r.
Proof. exact (results c excl s h i cl r h'). Qed.
Theorem C45_receipts a r :
  check_receipts (receipts a) = r ->
  (r = Ok tt /\ Forall mild a) \/
  (exists pre e post, r = Err (EOs e) /\ a = pre ++ Some e :: post /\ Forall mild pre /\ ~ mild (Some e)).
Proof.
  intros H. assert (r = Ok tt \/ r <> Ok tt) as [->|Hn] by (destruct r as [[]| |]; auto).
  - left. split; [done|]. by apply receipts_ok.
  - right. by apply receipts_err.
Qed.

(** ** C46: the requested filters are installed, if the kernel refuses nothing *)
Theorem C46_installed_partial c excl s i cl fd e m s' :
  reachable c excl s -> threads s !! i = Some (PSubmit cl) -> cl = CAdd fd e m \/ cl = CModify fd e m ->
  step c s (LThread i (Kernel_ok [])) = Some s' ->
  threads s' !! i = Some (PRet cl (Ok tt)) /\
  (forall f, f <> FRead fd -> f <> FWrite fd -> notes (kern s') !! f = notes (kern s) !! f) /\
  (forall f b, (f, b) = (FRead fd, ev_readable e) \/ (f, b) = (FWrite fd, ev_writable e) ->
    match notes (kern s') !! f with
    | Some n => b = true /\ kn_udata n = ev_key e /\
        (keeps c = false \/ notes (kern s) !! f = None -> holds f n (ev_key e) m)
    | None => b = false
    end).
Proof.
  intros Hr Hp Hcl Hs. destruct (installed _ _ _ _ _ _ Hr Hp Hs) as (H1 & H2 & H3).
  assert (Hsrc : call_source cl = SFd fd) by (by destruct Hcl as [->| ->]).
  assert (Hd : deletes cl = false) by (by destruct Hcl as [->| ->]).
  rewrite Hd in H1. rewrite Hsrc in H2. split; [done|]. split.
  { intros f N1 N2. apply H2. simpl. tauto. }
  intros f b Hf.
  assert (Ha : asks cl f = Some (wants b (ev_key e) m)).
  { destruct Hcl as [->| ->]; cbn [asks]; destruct Hf as [Hf|Hf]; injection Hf as -> ->;
      first [by rewrite decide_True|rewrite decide_False by done; by rewrite decide_True]. }
  specialize (H3 f _ Ha). destruct b; cbn [wants] in H3.
  - destruct H3 as (n & -> & Hn & Hh). done.
  - by rewrite H3.
Qed.
Theorem C46_deleted c excl s i cl s' :
  reachable c excl s -> threads s !! i = Some (PSubmit cl) -> deletes cl = true ->
  step c s (LThread i (Kernel_ok [])) = Some s' ->
  threads s' !! i = Some (PRemove cl) /\
  forall f, (source_filter (call_source cl) f -> notes (kern s') !! f = None) /\
            (~ source_filter (call_source cl) f -> notes (kern s') !! f = notes (kern s) !! f).
Proof.
  intros Hr Hp Hd Hs. destruct (installed _ _ _ _ _ _ Hr Hp Hs) as (H1 & H2 & H3). rewrite Hd in H1.
  split; [done|]. intros f. split; [|apply H2]. intros Hf. exact (H3 f None (delete_asks _ _ Hd Hf)).
Qed.

(** ** C47: one delivery per kind and arming *)
(** Kernels that replace the flags: the mode asked for last counts. *)
Theorem C47_one_delivery_per_arming c excl s h o h1 b1 h2 b2 h3 f e1 e2 k m :
  reachable c excl s -> ~ own_filter c f -> keeps c = false ->
  log s = (h ++ o :: h1) ++ Reported b1 :: h2 ++ Reported b2 :: h3 ->
  granted f o = Some (Some (k, m)) -> mode_oneshot m -> Forall (fun o => granted f o = None) h1 ->
  (f, e1) ∈ b1 -> (f, e2) ∈ b2 -> exists o', o' ∈ h2 /\ arms f o'.
Proof.
  intros Hr Hf Hk E Ho Hm HF H1 H2.
  destruct (reported_armed _ _ _ _ _ _ _ _ Hr E H1 Hf) as (k' & m' & Ha & _). rewrite Hk in Ha.
  assert (m' = m) as -> by (destruct (armed_last f h o h1 k m Ho HF) as [Ha'|[Ha' _]]; congruence).
  eapply (oneshot_once c excl s (h ++ o :: h1)); try done. rewrite Hk. done.
Qed.
(** All kernels, if the filter was only ever armed one-shot. *)
Theorem C47_always_oneshot c excl s h1 b1 h2 b2 h3 f e1 e2 :
  reachable c excl s -> ~ own_filter c f ->
  log s = h1 ++ Reported b1 :: h2 ++ Reported b2 :: h3 ->
  Forall (fun o => forall k m, granted f o = Some (Some (k, m)) -> mode_oneshot m) h1 ->
  (f, e1) ∈ b1 -> (f, e2) ∈ b2 -> exists o', o' ∈ h2 /\ arms f o'.
Proof.
  intros Hr Hf E HF H1 H2.
  destruct (reported_armed _ _ _ _ _ _ _ _ Hr E H1 Hf) as (k' & m' & Ha & _).
  eapply (oneshot_once c excl s h1); try done. by eapply (armed_all _ mode_oneshot).
Qed.
(** Every arming is a request of an add or a modify (or the filter variants). *)
Theorem C47_armings_are_calls f o : arms f o ->
  exists i cl k m, asks cl f = Some (Some (k, m)) /\
    ((exists a, o = Answered i cl a) \/ exists a e, o = Aborted i cl a e).
Proof.
  intros (k & m & H). destruct o; try done; simpl in H.
  - exists i, cl, k, m. destruct (a !! slot f) as [[|]|]; try done. split; [done|]. left. eauto.
  - exists i, cl, k, m. destruct (a !! slot f) as [[|]|]; try done. split; [done|]. right. eauto.
  - case_decide; done.
Qed.

(** ** C70: reports are about current registrations *)
Theorem C70_reports_are_current c excl s h b h' f e :
  reachable c excl s -> log s = h ++ Reported b :: h' -> (f, e) ∈ b -> ~ own_filter c f ->
  exists k m, armed (keeps c) f h = Some (k, m) /\ ev_key e = k /\
    (is_fd_filter f -> exists fl, readiness f h = Some fl /\ e = kqueue_to_event 64 k f fl).
Proof.
  intros Hr E Hin Hf. destruct (reported_armed _ _ _ _ _ _ _ _ Hr E Hin Hf) as (k & m & Ha & Hk & Hfd & _).
  exists k, m. split; [done|]. split; [|done]. rewrite Hk.
  destruct (log_step _ _ _ _ _ _ Hr E) as (s1 & l & s2 & Hr1 & Hl & Hs & E1 & E2).
  assert (k < 2 ^ 64)%N; [|unfold u64_to_key; by apply N.mod_small].
  clear -Ha Hr1 E1. subst h. eapply (armed_keys c excl s1 f k m); eauto.
Qed.
Theorem C70_own_reports_have_reserved_key c excl s h b h' e :
  reachable c excl s -> log s = h ++ Reported b :: h' -> (noti_filter c, e) ∈ b -> ev_key e = NOTIFY_KEY.
Proof. exact (noti_key c excl s h b h' e). Qed.
Theorem C70_once_per_batch c excl s h b h' :
  reachable c excl s -> log s = h ++ Reported b :: h' -> NoDup b.*1.
Proof. exact (no_dup_batch c excl s h b h'). Qed.

(** ** C71: ready filters are not forgotten *)
Theorem C71_level_reported_while_ready c excl s sl max f k m fl :
  reachable c excl s -> ~ own_filter c f -> is_fd_filter f -> wait s = WPoll sl max -> 0 < max ->
  armed (keeps c) f (log s) = Some (k, m) -> ~ mode_edge m -> readiness f (log s) = Some fl ->
  (exists fs s', step c s (LReport fs) = Some s') /\
  forall fs s', step c s (LReport fs) = Some s' ->
    exists b, log s' = log s ++ [Reported b] /\
      (length b = max \/ (f, kqueue_to_event 64 k f fl) ∈ b).
Proof.
  intros Hr Hf Hfd Hw Hmax Ha Hm Hrd. pose proof (level_due _ _ _ _ _ _ Hr Hf Hfd Ha Hm) as Hd. split.
  - by eapply report_possible.
  - intros fs s' Hs. by eapply due_reported.
Qed.
(** In any mode a new event, or one there when the filter is armed, stays due until reported. *)
Theorem C71_news_reported c excl s l s1 s2 sl max f k m fl :
  reachable c excl s -> ~ own_filter c f -> is_fd_filter f -> legal c excl s l -> step c s l = Some s1 ->
  news f s s1 -> undisturbed c excl f s1 s2 -> wait s2 = WPoll sl max -> 0 < max ->
  armed (keeps c) f (log s2) = Some (k, m) -> readiness f (log s2) = Some fl ->
  (exists fs s', step c s2 (LReport fs) = Some s') /\
  forall fs s', step c s2 (LReport fs) = Some s' ->
    exists b, log s' = log s2 ++ [Reported b] /\
      (length b = max \/ (f, kqueue_to_event 64 k f fl) ∈ b).
Proof.
  intros Hr Hf Hfd Hl Hs Hn Hu Hw Hmax Ha Hrd.
  pose proof (news_due _ _ _ _ _ _ (inv_reach _ _ _ Hr) Hf Hl Hs Hn) as Hd.
  assert (Hr1 : reachable c excl s1) by (by eapply reach_step).
  destruct (undisturbed_due _ _ _ _ _ Hr1 Hf Hu Hd) as [Hd2 Hr2]. split.
  - by eapply report_possible.
  - intros fs s' Hs'. by eapply due_reported.
Qed.

(** ** C72: concurrent calls on one source *)
(** Under exclusive use an unregistered source that nobody is working on is not watched. *)
Theorem C72_unregistered_unwatched_partial c s src f :
  reachable c true s -> user_source c src -> unused s src -> entered src (log s) = false ->
  source_filter src f -> notes (kern s) !! f = None.
Proof.
  intros Hr Hu Hun He Hf. pose proof (xinv_reach _ _ Hr) as Hx. apply (xv_clean _ _ Hx src Hu); [|done].
  rewrite (xv_free _ _ Hx src Hu Hun). unfold noted. by rewrite He.
Qed.

(** ** C74, C75: notifications *)
Theorem C74_one_report_per_notification_partial c excl s h1 b1 h2 b2 h3 :
  reachable c excl s -> (noti c = UserEvent -> keeps c = true) ->
  log s = h1 ++ Reported b1 :: h2 ++ Reported b2 :: h3 ->
  noti_filter c ∈ b1.*1 -> noti_filter c ∈ b2.*1 -> Notified ∈ h2.
Proof. exact (noti_sent c excl s h1 b1 h2 b2 h3). Qed.
Theorem C75_notification_ends_wait_partial c excl s sl max :
  reachable c excl s -> wait s = WPoll sl max -> 0 < max -> owed (log s) = true ->
  (noti c = UserEvent \/ rearmed (log s) = true) ->
  (exists fs s', step c s (LReport fs) = Some s') /\
  forall fs s', step c s (LReport fs) = Some s' ->
    exists b, log s' = log s ++ [Reported b] /\ (length b = max \/ noti_filter c ∈ b.*1).
Proof.
  intros Hr Hw Hmax Ho Hre. assert (Hrep : reportable (kern s) (noti_filter c) = true) by (eapply noti_reportable; eauto).
  split.
  - by eapply some_report_possible.
  - intros fs s' Hs. cbn [step] in Hs. rewrite Hw in Hs.
    destruct (may_report (kern s) max fs) eqn:Em; [|done]. simpl in Hs.
    destruct (negb (sl && bool_decide (fs = []))); [|done]. simplify_eq. eexists. split; [done|].
    apply may_report_spec in Em as (_ & _ & _ & Hall). rewrite map_length, reports_fst.
    destruct Hall as [->|Hall]; [by left|right]. by apply Hall.
Qed.

(** ** C76: filters of the extension trait are installed with their parameter *)
Theorem C76_filter_installed_partial c excl s i u key m cl s' :
  reachable c excl s -> cl = CAddFilter u key m \/ cl = CModifyFilter u key m ->
  threads s !! i = Some (PSubmit cl) -> step c s (LThread i (Kernel_ok [])) = Some s' ->
  threads s' !! i = Some (PRet cl (Ok tt)) /\
  (exists n, notes (kern s') !! filter_of u = Some n /\ kn_udata n = key /\
     kn_param n = match u with USignal _ => 0%N | UProcess _ ops => ops | UTimer _ t => t end /\
     (keeps c = false \/ notes (kern s) !! filter_of u = None -> holds (filter_of u) n key m)) /\
  forall f, f <> filter_of u -> notes (kern s') !! f = notes (kern s) !! f.
Proof.
  intros Hr Hcl Hp Hs. destruct (installed _ _ _ _ _ _ Hr Hp Hs) as (H1 & H2 & H3).
  destruct (installed_param _ _ _ _ _ _ _ _ _ Hr Hcl Hp Hs) as (n & Hn & Hpar).
  assert (Hd : deletes cl = false) by (by destruct Hcl as [->| ->]).
  assert (Ha : asks cl (filter_of u) = Some (Some (key, m))) by (destruct Hcl as [->| ->]; cbn [asks]; by rewrite decide_True).
  rewrite Hd in H1. split; [done|]. split.
  - destruct (H3 _ _ Ha) as (n' & Hn' & Hud & Hh). assert (n' = n) as -> by congruence. exists n. split; [done|].
    split; [done|]. split; [by destruct u|done].
  - intros f Hf. apply H2. intros Hsf. apply Hf. destruct Hcl as [->| ->]; simpl in Hsf; by destruct u.
Qed.

(** ** C48: the reserved key *)
(** add_filter accepts the reserved key, so key_ok above does not exclude it; as long as the
    program does not use it there, no event of a source is hidden. *)
Theorem C48_kqueue_events_visible_partial c excl s h b h' f e :
  reachable c excl s -> log s = h ++ Reported b :: h' -> (f, e) ∈ b -> ~ own_filter c f ->
  (forall i u k m, Called i (CAddFilter u k m) ∈ h \/ Called i (CModifyFilter u k m) ∈ h -> k <> NOTIFY_KEY) ->
  e ∈ ev_iter b.*2.
Proof.
  intros Hr E Hin Hf Hno.
  assert (Hk : ev_key e <> NOTIFY_KEY).
  { destruct (C70_reports_are_current _ _ _ _ _ _ _ _ Hr E Hin Hf) as (k & m & Ha & -> & _).
    destruct (log_step _ _ _ _ _ _ Hr E) as (s1 & l & s2 & Hr1 & Hl & Hs & E1 & E2). subst h.
    by eapply armed_not_reserved. }
  clear -Hin Hk. induction b as [|[g x] b IH]; [by apply elem_of_nil in Hin|]. cbn [fmap list_fmap snd ev_iter].
  apply elem_of_cons in Hin as [Hin|Hin].
  - injection Hin as -> ->. apply N.eqb_neq in Hk. rewrite Hk. simpl. by left.
  - destruct (negb _); [right|]; by apply IH.
Qed.

(** ** C73: modify changes the mode -- if the kernel replaces the flags, or the filter was not
    watched (for example after a one-shot delivery) *)
Theorem C73_modify_sets_mode_partial c excl s i fd e m s' :
  reachable c excl s -> threads s !! i = Some (PSubmit (CModify fd e m)) ->
  step c s (LThread i (Kernel_ok [])) = Some s' ->
  forall f b, (f, b) = (FRead fd, ev_readable e) \/ (f, b) = (FWrite fd, ev_writable e) -> b = true ->
  keeps c = false \/ notes (kern s) !! f = None ->
  exists n, notes (kern s') !! f = Some n /\ holds f n (ev_key e) m.
Proof.
  intros Hr Hp Hs f b Hf -> Hk.
  destruct (C46_installed_partial _ _ _ _ _ _ _ _ _ Hr Hp (or_intror eq_refl) Hs) as (_ & _ & H).
  specialize (H f true Hf). destruct (notes (kern s') !! f) as [n|]; [|done]. destruct H as (_ & _ & H). eauto.
Qed.

(** ** C77: what a failed call changes *)
(** Filters of other sources are left alone whatever the kernel answers; a call that the kernel
    is not asked about changes nothing. *)
Theorem C77_others_unaffected_partial c excl s i cl a s' f :
  reachable c excl s -> threads s !! i = Some (PSubmit cl) -> step c s (LThread i a) = Some s' ->
  ~ source_filter (call_source cl) f -> notes (kern s') !! f = notes (kern s) !! f.
Proof.
  intros Hr Hp Hs Hf. pose proof (inv_reach _ _ _ Hr) as Hi. destruct (iv_call _ _ Hi i _ cl Hp eq_refl) as [Hu Hk].
  cbn [step] in Hs. rewrite Hp in Hs. destruct a as [cl'| | |fts|n fts e]; cbn [thread_step] in Hs; try done.
  - destruct (kevent (keeps c) (kern s) (default [] (call_changes c cl)) fts) as [x k] eqn:Ek. simplify_eq.
    rewrite <- (firstn_all (default [] (call_changes c cl))) in Ek.
    pose proof (submit_effect c _ _ _ _ _ _ f Hk Ek) as He. unfold grant in He.
    destruct (asks cl f) as [w|] eqn:Ea; [destruct Hf; by eapply asks_source|].
    cbn [kern emit set_pc set_kern]. by destruct (x !! slot f) as [[|]|]; destruct He.
  - destruct (kevent (keeps c) (kern s) (take n (default [] (call_changes c cl))) fts) as [x k] eqn:Ek. simplify_eq.
    pose proof (submit_effect c _ _ _ _ _ _ f Hk Ek) as He. unfold grant in He.
    destruct (asks cl f) as [w|] eqn:Ea; [destruct Hf; by eapply asks_source|].
    cbn [kern emit set_pc set_kern]. by destruct (x !! slot f) as [[|]|]; destruct He.
Qed.

(** Of the filters of the source only those change whose own change the kernel granted. *)
Theorem C77_refused_unaffected_partial c excl s i cl x s' f :
  reachable c excl s -> threads s !! i = Some (PSubmit cl) -> step c s (LThread i x) = Some s' ->
  (exists a, log s' = log s ++ [Answered i cl a] /\ a !! slot f <> Some None) \/
  (exists a e, log s' = log s ++ [Aborted i cl a e] /\ a !! slot f <> Some None) ->
  notes (kern s') !! f = notes (kern s) !! f.
Proof.
  intros Hr Hp Hs Hf. pose proof (inv_reach _ _ _ Hr) as Hi. destruct (iv_call _ _ Hi i _ cl Hp eq_refl) as [Hu Hk].
  cbn [step] in Hs. rewrite Hp in Hs. destruct x as [cl'| | |fts|n fts e]; cbn [thread_step] in Hs; try done.
  - destruct (kevent (keeps c) (kern s) (default [] (call_changes c cl)) fts) as [a k] eqn:Ek. simplify_eq.
    rewrite <- (firstn_all (default [] (call_changes c cl))) in Ek.
    pose proof (submit_effect c _ _ _ _ _ _ f Hk Ek) as He. unfold grant in He. cbn [kern emit set_pc set_kern log] in *.
    destruct Hf as [(a' & El & Hn)|(a' & e' & El & Hn)]; apply app_inv_head in El; simplify_eq.
    destruct (a' !! slot f) as [[|]|]; [by destruct He|done|by destruct He].
  - destruct (kevent (keeps c) (kern s) (take n (default [] (call_changes c cl))) fts) as [a k] eqn:Ek. simplify_eq.
    pose proof (submit_effect c _ _ _ _ _ _ f Hk Ek) as He. unfold grant in He. cbn [kern emit set_pc set_kern log] in *.
    destruct Hf as [(a' & El & Hn)|(a' & e' & El & Hn)]; apply app_inv_head in El; simplify_eq.
    destruct (a' !! slot f) as [[|]|]; [by destruct He|done|by destruct He].
Qed.

(** ** Where the code falls short: computed histories *)
Definition freebsd : config := Config true (fun n => (n <? 64)%N) UserEvent.
Definition replacing : config := Config false (fun n => (n <? 64)%N) UserEvent.
Definition netbsd : config := Config true (fun n => (n <? 64)%N) (SocketPair 5).
Definition ev (k : N) (r w : bool) : event unit := Ev k r w tt.
Definition go (i : nat) : label := LThread i Go.
Definition ENOMEM : errno := EOTHER 12.
(** A whole call of thread [i] to which the kernel answers [fts]. *)
Definition do_add (i : nat) (fd : N) (e : event unit) (m : poll_mode) fts : list label :=
  [LThread i (Call (CAdd fd e m)); go i; go i; LThread i (Kernel_ok fts); go i].
Definition do_modify (i : nat) (fd : N) (e : event unit) (m : poll_mode) fts : list label :=
  [LThread i (Call (CModify fd e m)); go i; LThread i (Kernel_ok fts); go i].
Definition do_delete (i : nat) (fd : N) fts : list label :=
  [LThread i (Call (CDelete fd)); go i; LThread i (Kernel_ok fts); go i; go i].

Lemma checked_log c excl n ls h : log <$> checked c excl (init c n) ls = Some h ->
  exists s, reachable c excl s /\ log s = h /\ checked c excl (init c n) ls = Some s.
Proof.
  intros H. destruct (checked c excl (init c n) ls) as [s|] eqn:E; [|done]. injection H as <-. exists s.
  split; [|done]. eapply checked_reach; [apply reach_init|exact E].
Qed.

Lemma checked_get {A} (g : state -> A) c excl n ls s x : checked c excl (init c n) ls = Some s ->
  g <$> checked c excl (init c n) ls = Some x -> g s = x.
Proof. intros ->. simpl. congruence. Qed.
Ltac gets E g x H := pose proof (checked_get g _ _ _ _ _ x E ltac:(vm_compute; reflexivity)) as H; cbv beta in H.
Ltac runs c excl n ls s Hr Hl E :=
  let h := eval vm_compute in (log <$> checked c excl (init c n) ls) in
  match h with
  | Some ?x => destruct (checked_log c excl n ls x ltac:(vm_compute; reflexivity)) as (s & Hr & Hl & E)
  end.

(** C44: after an add that failed for lack of memory the source cannot be added. *)
Theorem C44_failed_add_refuted : exists c s h i cl h',
  reachable c true s /\ log s = h ++ Returned i cl exists_err :: h' /\ is_add cl = true /\
  added (call_source cl) h = false.
Proof.
  exists freebsd.
  runs freebsd true 1
    (do_add 0 10 (ev 7 true false) Level [Some ENOMEM] ++
     [LThread 0 (Call (CAdd 10 (ev 7 true false) Level)); go 0; go 0]) s Hr Hl E.
  exists s. rewrite Hl. eexists [_; _; _; _], 0, (CAdd 10 (ev 7 true false) Level), [].
  split; [done|]. split; [vm_compute; reflexivity|]. by vm_compute.
Qed.
(** C44: nor after add_filter panicked because of an unknown signal number. *)
Theorem C44_panicking_add_refuted : exists c s h i cl h',
  reachable c true s /\ log s = h ++ Returned i cl exists_err :: h' /\ is_add cl = true /\
  added (call_source cl) h = false /\ Returned i cl Panic ∈ h.
Proof.
  exists freebsd.
  runs freebsd true 1
    ([LThread 0 (Call (CAddFilter (USignal 99) 7 Level)); go 0; go 0; go 0;
     LThread 0 (Call (CAddFilter (USignal 99) 7 Level)); go 0; go 0]) s Hr Hl E.
  exists s. rewrite Hl. eexists [_; _; _], 0, (CAddFilter (USignal 99) 7 Level), [].
  split; [done|]. split; [vm_compute; reflexivity|]. split; [done|]. split; [by vm_compute|].
  right. left.
Qed.

(** C46: an add answered with EPIPE succeeds although the filter is not installed. *)
Theorem C46_ignored_error_refuted : exists c s h i fd e m,
  reachable c true s /\ log s = h ++ [Returned i (CAdd fd e m) (Ok tt)] /\ ev_writable e = true /\
  notes (kern s) !! FWrite fd = None.
Proof.
  exists freebsd.
  runs freebsd true 1
    (do_add 0 10 (ev 7 true true) Level [None; Some EPIPE]) s Hr Hl E.
  exists s. rewrite Hl. eexists [_; _], 0, 10%N, (ev 7 true true), Level.
  split; [done|]. split; [vm_compute; reflexivity|]. split; [done|].
  gets E (fun s => notes (kern s) !! FWrite 10) (@None knote) H. done.
Qed.

(** C48: a timer added under the reserved key expires, and the event is hidden. *)
Theorem C48_kqueue_refuted : exists c s h b h' i u m e,
  reachable c true s /\ log s = h ++ Reported b :: h' /\
  Returned i (CAddFilter u NOTIFY_KEY m) (Ok tt) ∈ h /\ (filter_of u, e) ∈ b /\ ev_iter b.*2 = [].
Proof.
  exists freebsd.
  runs freebsd true 1
    ([LThread 0 (Call (CAddFilter (UTimer 1 1000) NOTIFY_KEY Oneshot)); go 0; go 0; LThread 0 (Kernel_ok []); go 0;
     LHappen (FTimer 1) (Some 0%N) true; LWait true 8; LReport [FTimer 1]]) s Hr Hl E.
  exists s. rewrite Hl. eexists [_; _; _; _; _], _, [], 0, (UTimer 1 1000), Oneshot, _.
  split; [done|]. split; [vm_compute; reflexivity|]. split; [|split].
  - right. right. left.
  - left.
  - by vm_compute.
Qed.

(** C72: add and delete of one descriptor overlap and both succeed; afterwards the descriptor is
    not registered, delete says so, and still its events are reported. *)
Theorem C72_add_races_delete_refuted : exists c s fd h b e h1 h2 h3 h4,
  reachable c false s /\ log s = h ++ [Reported b] /\ (FRead fd, e) ∈ b /\
  h = h1 ++ Returned 1 (CDelete fd) (Ok tt) :: h2 ++ Returned 0 (CAdd fd (ev 7 true false) Level) (Ok tt) ::
      h3 ++ Returned 1 (CDelete fd) missing_err :: h4 /\
  (forall i p, threads s !! i = Some p -> p = Idle).
Proof.
  exists replacing.
  runs replacing false 2
    ([LThread 0 (Call (CAdd 10 (ev 7 true false) Level)); go 0; go 0;
     LThread 1 (Call (CDelete 10)); go 1; LThread 1 (Kernel_ok []); go 1; go 1;
     LThread 0 (Kernel_ok []); go 0;
     LThread 1 (Call (CDelete 10)); go 1; go 1;
     LHappen (FRead 10) (Some 0%N) true; LWait true 8; LReport [FRead 10]]) s Hr Hl E.
  exists s, 10%N. rewrite Hl. eexists [_; _; _; _; _; _; _; _; _; _], _, _, [_; _; _], [_], [_], [_; _].
  split; [done|]. split; [vm_compute; reflexivity|]. split; [left|]. split; [vm_compute; reflexivity|].
  intros i p Hp. gets E threads [Idle; Idle] H. rewrite H in Hp.
  destruct i as [|[|i]]; [by injection Hp as <-|by injection Hp as <-|done].
Qed.

(** C73: modify from level to one-shot succeeds, and the descriptor is reported twice. *)
Theorem C73_modify_keeps_mode_refuted : exists c s h o h1 b1 h2 b2 f e k,
  reachable c true s /\ log s = h ++ o :: h1 ++ Reported b1 :: h2 ++ [Reported b2] /\
  granted f o = Some (Some (k, Oneshot)) /\ (f, e) ∈ b1 /\ (f, e) ∈ b2 /\
  Forall (fun o => granted f o = None) (h1 ++ Reported b1 :: h2).
Proof.
  exists freebsd.
  runs freebsd true 1
    (do_add 0 10 (ev 7 true false) Level [] ++ do_modify 0 10 (ev 7 true false) Oneshot [] ++
     [LHappen (FRead 10) (Some 0%N) true; LWait true 8; LReport [FRead 10]; LWaitGo [];
      LWait true 8; LReport [FRead 10]]) s Hr Hl E.
  exists s. rewrite Hl. eexists [_; _; _; _], _, [_; _; _], _, [_; _], _, (FRead 10), _, 7%N.
  split; [done|]. split; [vm_compute; reflexivity|]. split; [by vm_compute|]. split; [left|]. split; [left|].
  repeat (apply Forall_cons; split; [by vm_compute|]). by apply Forall_nil.
Qed.

(** C76: modify_filter from level to one-shot succeeds, and the timer goes on being reported. *)
Theorem C76_modify_keeps_mode_refuted : exists c s h i u k h1 b1 h2 b2 e,
  reachable c true s /\ log s = h ++ Returned i (CModifyFilter u k Oneshot) (Ok tt) :: h1 ++ Reported b1 :: h2 ++ [Reported b2] /\
  (filter_of u, e) ∈ b1 /\ (filter_of u, e) ∈ b2 /\ Forall (fun o => granted (filter_of u) o = None) (h1 ++ Reported b1 :: h2).
Proof.
  exists freebsd.
  runs freebsd true 1
    ([LThread 0 (Call (CAddFilter (UTimer 1 1000) 7 Level)); go 0; go 0; LThread 0 (Kernel_ok []); go 0;
      LThread 0 (Call (CModifyFilter (UTimer 1 1000) 7 Oneshot)); go 0; LThread 0 (Kernel_ok []); go 0;
      LHappen (FTimer 1) (Some 0%N) true; LWait true 8; LReport [FTimer 1]; LWaitGo [];
      LHappen (FTimer 1) (Some 0%N) true; LWait true 8; LReport [FTimer 1]]) s Hr Hl E.
  exists s. rewrite Hl. eexists [_; _; _; _; _], 0, (UTimer 1 1000), 7%N, [_; _], _, [_; _; _], _, _.
  split; [done|]. split; [vm_compute; reflexivity|]. split; [left|]. split; [left|].
  repeat (apply Forall_cons; split; [by vm_compute|]). by apply Forall_nil.
Qed.
(** C76: an add_filter that the kernel refuses with an error that is ignored succeeds, and the filter is not there. *)
Theorem C76_ignored_error_refuted : exists c s h i u k m,
  reachable c true s /\ log s = h ++ [Returned i (CAddFilter u k m) (Ok tt)] /\ notes (kern s) !! filter_of u = None.
Proof.
  exists freebsd.
  runs freebsd true 1
    ([LThread 0 (Call (CAddFilter (UProcess 77 1) 7 Level)); go 0; go 0; LThread 0 (Kernel_ok [Some ENOENT]); go 0]) s Hr Hl E.
  exists s. rewrite Hl. eexists [_; _], 0, (UProcess 77 1), 7%N, Level.
  split; [done|]. split; [vm_compute; reflexivity|].
  gets E (fun s => notes (kern s) !! FProc 77) (@None knote) H. done.
Qed.

(** C74: where adding a filter again replaces its flags, one notify is reported by every wait. *)
Theorem C74_notification_repeats_refuted : exists c s h1 b1 h2 b2,
  reachable c true s /\ noti c = UserEvent /\ log s = h1 ++ Reported b1 :: h2 ++ [Reported b2] /\
  noti_filter c ∈ b1.*1 /\ noti_filter c ∈ b2.*1 /\ ~ Notified ∈ h2.
Proof.
  exists replacing.
  runs replacing true 1
    ([LThread 0 CallNotify; LThread 0 (Kernel_ok []); go 0; LWait true 8; LReport [FUser 0]; LWaitGo [];
     LWait true 8; LReport [FUser 0]]) s Hr Hl E.
  exists s. rewrite Hl. eexists [_; _], _, [_; _], _. split; [done|]. split; [done|].
  split; [vm_compute; reflexivity|]. split; [left|]. split; [left|].
  intros H. repeat (apply elem_of_cons in H as [H|H]; [done|]). by apply elem_of_nil in H.
Qed.

(** C75: after a wait that failed to re-register the socket pair, the next one does not see a
    notification and sleeps on. *)
Theorem C75_lost_after_failed_wait_refuted : exists c s e max,
  reachable c true s /\ WaitErr e ∈ log s /\ wait s = WPoll true max /\ 0 < max /\ owed (log s) = true /\
  forall fs s', step c s (LReport fs) <> Some s'.
Proof.
  exists netbsd.
  runs netbsd true 1
    ([LThread 0 CallNotify; LThread 0 (Kernel_ok []); go 0; LWait true 8; LReport [FRead 5];
     LWaitGo []; LWaitGo []; LWaitGo [Some ENOMEM]; LWaitGo [];
     LThread 0 CallNotify; LThread 0 (Kernel_ok []); go 0; LWait true 8]) s Hr Hl E.
  exists s, (EOs ENOMEM), 8. split; [done|]. rewrite Hl. split; [do 4 right; left|].
  gets E wait (WPoll true 8) Hw.
  split; [done|]. split; [lia|]. split; [by vm_compute|].
  intros fs s' Hs. cbn [step] in Hs. rewrite Hw in Hs.
  destruct (may_report (kern s) 8 fs) eqn:Em; [|done]. apply may_report_spec in Em as (_ & Hin & _).
  destruct fs as [|f fs]; [done|]. specialize (Hin f ltac:(left)). apply reportable_spec in Hin as (n & Hn & _).
  gets E (fun s => map_to_list (notes (kern s))) (@nil (kq_filter * knote)) E3. apply map_to_list_empty_iff in E3. rewrite E3 in Hn. by rewrite lookup_empty in Hn.
Qed.

(** C77: a modify that fails has changed the read filter. *)
Theorem C77_failed_modify_refuted : exists c s h i fd e m,
  reachable c true s /\ log s = h ++ [Returned i (CModify fd e m) (Err (EOs ENOMEM))] /\
  armed (keeps c) (FRead fd) (take 3 h) = Some (7%N, Level) /\
  (exists n, notes (kern s) !! FRead fd = Some n /\ kn_udata n = ev_key e) /\ ev_key e = 8%N.
Proof.
  exists freebsd.
  runs freebsd true 1
    (do_add 0 10 (ev 7 true false) Level [] ++ do_modify 0 10 (ev 8 true true) Level [None; Some ENOMEM]) s Hr Hl E.
  exists s. rewrite Hl. eexists [_; _; _; _; _], 0, 10%N, (ev 8 true true), Level.
  split; [done|]. split; [vm_compute; reflexivity|]. split; [by vm_compute|]. split; [|done].
  gets E (fun s => notes (kern s) !! FRead 10) (Some (Knote 0 8 0 false)) H. eauto.
Qed.

(** ** The hypotheses are met *)
(** C43, C45: a second add, a modify and two deletes return in this history. *)
Example C43_nonvacuous : exists s h1 h2 h3 h4,
  reachable freebsd true s /\
  log s = h1 ++ Returned 0 (CAdd 10 (ev 8 true false) Level) exists_err ::
          h2 ++ Returned 0 (CModify 11 (ev 8 true false) Level) missing_err ::
          h3 ++ Returned 0 (CDelete 10) (Ok tt) :: h4 ++ [Returned 0 (CDelete 10) missing_err].
Proof.
  runs freebsd true 2
    (do_add 0 10 (ev 7 true false) Level [] ++ [LThread 0 (Call (CAdd 10 (ev 8 true false) Level)); go 0; go 0] ++
     [LThread 0 (Call (CModify 11 (ev 8 true false) Level)); go 0; go 0] ++ do_delete 0 10 [] ++
     [LThread 0 (Call (CDelete 10)); go 0; go 0]) s Hr Hl E.
  exists s. rewrite Hl. eexists [_; _; _; _], [_], [_; _], [_]. split; [done|]. vm_compute. reflexivity.
Qed.
(** C44: here all adds succeed or are duplicates. *)
Example C44_nonvacuous : exists s h,
  reachable freebsd true s /\ log s = h ++ [Returned 0 (CAdd 10 (ev 8 true false) Level) exists_err] /\
  Forall (fun o => forall i cl r, o = Returned i cl r -> is_add cl = true -> r = Ok tt \/ r = exists_err) h.
Proof.
  runs freebsd true 1
    (do_add 0 10 (ev 7 true false) Level [] ++ [LThread 0 (Call (CAdd 10 (ev 8 true false) Level)); go 0; go 0]) s Hr Hl E.
  exists s. rewrite Hl. eexists [_; _; _; _]. split; [done|]. split; [vm_compute; reflexivity|].
  repeat (apply Forall_cons; split; [intros ? ? ? H; try done; injection H as <- <- <-; by left|]). by apply Forall_nil.
Qed.
(** C45: the kernel aborts one call and refuses part of another. *)
Example C45_nonvacuous : exists s h i cl h1 h2 i2 cl2,
  reachable freebsd true s /\ log s = h ++ Returned i cl (Err (EOs EBADF)) :: h1 /\
  last_reply i h = Some (VAborted EBADF) /\
  log s = h2 ++ [Returned i2 cl2 (Err (EOs ENOMEM))] /\ last_reply i2 h2 = Some (VAnswers [Some EPIPE; Some ENOMEM]).
Proof.
  runs freebsd true 1
    (do_add 0 10 (ev 7 true true) Level [] ++
     [LThread 0 (Call (CModify 10 (ev 8 true true) Level)); go 0; LThread 0 (Kernel_err 1 [] EBADF); go 0] ++
     do_modify 0 10 (ev 8 true true) Level [Some EPIPE; Some ENOMEM]) s Hr Hl E.
  exists s. rewrite Hl. eexists [_; _; _; _; _], 0, _, _, [_; _; _; _; _; _; _; _], 0, _. split; [done|].
  split; [vm_compute; reflexivity|]. split; [by vm_compute|]. split; [vm_compute; reflexivity|by vm_compute].
Qed.
(** C46, C73, C77: a modify and a delete about to be submitted. *)
Example C46_nonvacuous : exists s,
  reachable replacing true s /\ threads s !! 0 = Some (PSubmit (CModify 10 (ev 8 true true) Oneshot)) /\
  threads s !! 1 = Some (PSubmit (CDelete 11)) /\ is_Some (step replacing s (LThread 0 (Kernel_ok []))).
Proof.
  runs replacing true 2
    (do_add 0 10 (ev 7 true false) Level [] ++ do_add 0 11 (ev 9 true false) Level [] ++
     [LThread 0 (Call (CModify 10 (ev 8 true true) Oneshot)); go 0; LThread 1 (Call (CDelete 11)); go 1]) s Hr Hl E.
  exists s. split; [done|].
  gets E threads [PSubmit (CModify 10 (ev 8 true true) Oneshot); PSubmit (CDelete 11)] H. rewrite H. split; [done|].
  split; [done|]. cbn [step]. rewrite H. cbn [lookup list_lookup thread_step]. destruct (kevent _ _ _ _). eauto.
Qed.
(** C47: a one-shot registration is reported, renewed and reported again; a level-triggered one
    is reported both times without. *)
Example C47_nonvacuous : exists s h o h1 b1 h2 b2 e1 e2,
  reachable replacing true s /\ log s = (h ++ o :: h1) ++ Reported b1 :: h2 ++ [Reported b2] /\
  granted (FRead 11) o = Some (Some (9%N, Oneshot)) /\ Forall (fun o => granted (FRead 11) o = None) h1 /\
  (FRead 11, e1) ∈ b1 /\ (FRead 11, e2) ∈ b2 /\ (FRead 10, ev 7 true false) ∈ b1 /\ (FRead 10, ev 7 true false) ∈ b2.
Proof.
  runs replacing true 1
    (do_add 0 10 (ev 7 true false) Level [] ++ do_add 0 11 (ev 9 true false) Oneshot [] ++
     [LHappen (FRead 10) (Some 0%N) true; LHappen (FRead 11) (Some 0%N) true; LWait true 8; LReport [FRead 10; FRead 11];
      LWaitGo []] ++ do_modify 0 11 (ev 12 true false) EdgeOneshot [] ++ [LWait true 8; LReport [FRead 11; FRead 10]]) s Hr Hl E.
  exists s. rewrite Hl. eexists [_; _; _; _], _, [_; _; _; _], _, [_; _; _; _; _], _, _, _.
  split; [done|]. split; [vm_compute; reflexivity|]. split; [by vm_compute|]. split.
  { repeat (apply Forall_cons; split; [by vm_compute|]). by apply Forall_nil. }
  split; [right; left|]. split; [left|]. split; [left|]. right. left.
Qed.
(** C71: a level-triggered registration with data, reported before and still ready. *)
Example C71_level_nonvacuous : exists s,
  reachable freebsd true s /\ wait s = WPoll true 8 /\ armed true (FRead 10) (log s) = Some (7%N, Level) /\
  readiness (FRead 10) (log s) = Some 0%N /\ exists b, Reported b ∈ log s /\ (FRead 10, ev 7 true false) ∈ b.
Proof.
  runs freebsd true 1
    (do_add 0 10 (ev 7 true false) Level [] ++
     [LHappen (FRead 10) (Some 0%N) true; LWait true 8; LReport [FRead 10]; LWaitGo []; LWait true 8]) s Hr Hl E.
  exists s. rewrite Hl. split; [done|]. gets E wait (WPoll true 8) H. split; [done|]. split; [by vm_compute|].
  split; [by vm_compute|]. eexists. split; [do 5 right; left|left].
Qed.
(** C71: an edge-triggered one that gets something to report while another thread works on
    another descriptor, then a wait. *)
Example C71_edge_nonvacuous : exists s l s1 s2,
  reachable freebsd true s /\ legal freebsd true s l /\ step freebsd s l = Some s1 /\ news (FRead 10) s s1 /\
  undisturbed freebsd true (FRead 10) s1 s2 /\ wait s2 = WPoll true 8 /\
  armed true (FRead 10) (log s2) = Some (7%N, Edge) /\ readiness (FRead 10) (log s2) = Some 0%N.
Proof.
  runs freebsd true 1 (do_add 0 10 (ev 7 true false) Edge []) s Hr Hl E.
  exists s, (LHappen (FRead 10) (Some 0%N) true). gets E wait Out Hw. gets E threads [Idle] Ht.
  eexists. eexists. split; [done|]. split; [split; done|]. split; [reflexivity|]. split.
  { eexists. split; [reflexivity|]. right. eauto. }
  split.
  { eapply ud_step.
    - eapply ud_step.
      + apply ud_nil.
      + instantiate (1 := LThread 0 (Call (CDelete 12))). split; [done|]. split; [done|]. intros _ i p Hp.
        cbn [threads emit set_kern] in Hp. rewrite Ht in Hp. apply list_lookup_singleton_Some in Hp as [_ <-]. done.
      + cbn [step threads emit set_kern]. rewrite Ht. reflexivity.
      + intros o Ho. cbn [log emit set_pc set_kern] in Ho. apply app_inv_head in Ho. injection Ho as <-. done.
    - instantiate (1 := LWait true 8). simpl. lia.
    - cbn [step wait emit set_kern set_pc]. rewrite Hw. reflexivity.
    - intros o Ho. cbn [log emit set_pc set_kern set_wait] in Ho. apply app_inv_head in Ho. injection Ho as <-. done. }
  cbn [wait log emit set_pc set_kern set_wait]. rewrite Hl. split; [done|]. by vm_compute.
Qed.
(** C72: after delete nobody works on the source. *)
Example C72_nonvacuous : exists s,
  reachable freebsd true s /\ unused s (SFd 10) /\ entered (SFd 10) (log s) = false /\
  Returned 0 (CAdd 10 (ev 7 true false) Level) (Ok tt) ∈ log s.
Proof.
  runs freebsd true 1 (do_add 0 10 (ev 7 true false) Level [] ++ do_delete 0 10 []) s Hr Hl E.
  exists s. rewrite Hl. split; [done|]. gets E threads [Idle] Ht. split.
  { intros i p Hp. rewrite Ht in Hp. apply list_lookup_singleton_Some in Hp as [_ <-]. done. }
  split; [by vm_compute|]. do 2 right. left.
Qed.
(** C74: two notifications, each reported. *)
Example C74_nonvacuous : exists s h1 b1 h2 b2,
  reachable netbsd true s /\ log s = h1 ++ Reported b1 :: h2 ++ [Reported b2] /\
  noti_filter netbsd ∈ b1.*1 /\ noti_filter netbsd ∈ b2.*1.
Proof.
  runs netbsd true 1
    ([LThread 0 CallNotify; LThread 0 (Kernel_ok []); go 0; LWait true 8; LReport [FRead 5];
      LWaitGo []; LWaitGo []; LWaitGo []; LWaitGo [];
      LThread 0 CallNotify; LThread 0 (Kernel_ok []); go 0; LWait true 8; LReport [FRead 5]]) s Hr Hl E.
  exists s. rewrite Hl. eexists [_; _], _, [_; _; _; _], _. split; [done|]. split; [vm_compute; reflexivity|].
  split; left.
Qed.
(** C75: a thread sleeps in wait when the notification is sent. *)
Example C75_nonvacuous : exists s, reachable netbsd true s /\ wait s = WPoll true 8 /\ owed (log s) = true /\
  rearmed (log s) = true.
Proof.
  runs netbsd true 1
    ([LWait true 8; LThread 0 CallNotify; LThread 0 (Kernel_ok []); LReport [FRead 5];
      LWaitGo []; LWaitGo []; LWaitGo []; LWaitGo [];
      LWait true 8; go 0; LThread 0 CallNotify; LThread 0 (Kernel_ok [])]) s Hr Hl E.
  exists s. gets E wait (WPoll true 8) Hw. rewrite Hl. split; [done|]. split; [done|]. by vm_compute.
Qed.
(** C76: a timer about to be submitted. *)
Example C76_nonvacuous : exists s, reachable freebsd true s /\
  threads s !! 0 = Some (PSubmit (CAddFilter (UTimer 1 1000) 7 Level)).
Proof.
  runs freebsd true 1 ([LThread 0 (Call (CAddFilter (UTimer 1 1000) 7 Level)); go 0; go 0]) s Hr Hl E.
  exists s. split; [done|]. gets E threads [PSubmit (CAddFilter (UTimer 1 1000) 7 Level)] Ht. by rewrite Ht.
Qed.

(** C48, C70: a process that is watched under another key than the reserved one has ended, and a descriptor is readable. *)
Example C70_nonvacuous : exists s h b h' e e', reachable freebsd true s /\ log s = h ++ Reported b :: h' /\
  (FRead 10, e) ∈ b /\ (FProc 77, e') ∈ b /\ ~ own_filter freebsd (FRead 10) /\ (noti_filter freebsd) ∈ b.*1 /\
  (forall i u k m, Called i (CAddFilter u k m) ∈ h \/ Called i (CModifyFilter u k m) ∈ h -> k <> NOTIFY_KEY).
Proof.
  runs freebsd true 1
    ([LThread 0 (Call (CAddFilter (UProcess 77 1) 9 Oneshot)); go 0; go 0; LThread 0 (Kernel_ok []); go 0] ++
     do_add 0 10 (ev 7 true false) Level [] ++
     [LHappen (FProc 77) (Some 0%N) true; LHappen (FRead 10) (Some 0%N) true; LThread 0 CallNotify; LThread 0 (Kernel_ok []); go 0;
      LWait true 8; LReport [FProc 77; FRead 10; FUser 0]]) s Hr Hl E.
  exists s. rewrite Hl. eexists [_; _; _; _; _; _; _; _; _; _], _, [], _, _. split; [done|]. split; [vm_compute; reflexivity|].
  split; [right; left|]. split; [left|]. split; [by cbn|]. split; [right; right; left|].
  intros i u k m [H|H]; repeat (apply elem_of_cons in H as [H|H]; [first [discriminate H|injection H as -> -> -> ->; by vm_compute]|]); by apply elem_of_nil in H.
Qed.
(** C73: modify of a filter that was delivered in one-shot mode. *)
Example C73_nonvacuous : exists s s', reachable freebsd true s /\
  threads s !! 0 = Some (PSubmit (CModify 10 (ev 8 true false) Oneshot)) /\
  step freebsd s (LThread 0 (Kernel_ok [])) = Some s' /\ notes (kern s) !! FRead 10 = None.
Proof.
  runs freebsd true 1
    (do_add 0 10 (ev 7 true false) Oneshot [] ++ [LHappen (FRead 10) (Some 0%N) true; LWait true 8; LReport [FRead 10]; LWaitGo [];
     LThread 0 (Call (CModify 10 (ev 8 true false) Oneshot)); go 0]) s Hr Hl E.
  exists s. gets E threads [PSubmit (CModify 10 (ev 8 true false) Oneshot)] Ht.
  gets E (fun s => notes (kern s) !! FRead 10) (@None knote) Hn.
  assert (is_Some (step freebsd s (LThread 0 (Kernel_ok [])))) as [s' Hs].
  { cbn [step]. rewrite Ht. cbn [thread_step lookup list_lookup]. destruct (kevent _ _ _ _). by eexists. }
  exists s'. split; [done|]. split; [by rewrite Ht|]. by split.
Qed.
(** C77: the kernel grants the change of the read filter and refuses that of the write filter. *)
Example C77_nonvacuous : exists s s' a, reachable freebsd true s /\
  threads s !! 0 = Some (PSubmit (CModify 10 (ev 8 true true) Level)) /\
  step freebsd s (LThread 0 (Kernel_ok [None; Some ENOMEM])) = Some s' /\
  log s' = log s ++ [Answered 0 (CModify 10 (ev 8 true true) Level) a] /\ a !! slot (FWrite 10) <> Some None /\ a !! slot (FRead 10) = Some None.
Proof.
  runs freebsd true 1
    (do_add 0 10 (ev 7 true false) Level [] ++ [LThread 0 (Call (CModify 10 (ev 8 true true) Level)); go 0]) s Hr Hl E.
  pose proof (checked_get (fun s => log <$> step freebsd s (LThread 0 (Kernel_ok [None; Some ENOMEM]))) _ _ _ _ _
    (Some (log s ++ [Answered 0 (CModify 10 (ev 8 true true) Level) [None; Some ENOMEM]])) E) as X. rewrite Hl in X.
  specialize (X ltac:(vm_compute; reflexivity)). cbv beta in X.
  destruct (step freebsd s (LThread 0 (Kernel_ok [None; Some ENOMEM]))) as [s'|] eqn:Es; [|done]. injection X as X.
  exists s, s', [None; Some ENOMEM]. gets E threads [PSubmit (CModify 10 (ev 8 true true) Level)] Ht.
  split; [done|]. split; [by rewrite Ht|]. split; [done|]. rewrite X, Hl. done.
Qed.

Print Assumptions C43_add.
Print Assumptions C43_modify.
Print Assumptions C43_delete.
Print Assumptions C43_delete_filter.
Print Assumptions C43_no_collision.
Print Assumptions C44_failed_add_partial.
Print Assumptions C44_failed_add_refuted.
Print Assumptions C44_panicking_add_refuted.
Print Assumptions C45_results.
Print Assumptions C45_receipts.
Print Assumptions C46_installed_partial.
Print Assumptions C46_deleted.
Print Assumptions C46_ignored_error_refuted.
Print Assumptions C47_one_delivery_per_arming.
Print Assumptions C47_always_oneshot.
Print Assumptions C47_armings_are_calls.
Print Assumptions C48_kqueue_refuted.
Print Assumptions C48_kqueue_events_visible_partial.
Print Assumptions C70_reports_are_current.
Print Assumptions C70_own_reports_have_reserved_key.
Print Assumptions C70_once_per_batch.
Print Assumptions C71_level_reported_while_ready.
Print Assumptions C71_news_reported.
Print Assumptions C72_unregistered_unwatched_partial.
Print Assumptions C72_add_races_delete_refuted.
Print Assumptions C73_modify_sets_mode_partial.
Print Assumptions C73_modify_keeps_mode_refuted.
Print Assumptions C74_one_report_per_notification_partial.
Print Assumptions C74_notification_repeats_refuted.
Print Assumptions C75_notification_ends_wait_partial.
Print Assumptions C75_lost_after_failed_wait_refuted.
Print Assumptions C76_filter_installed_partial.
Print Assumptions C76_modify_keeps_mode_refuted.
Print Assumptions C76_ignored_error_refuted.
Print Assumptions C77_refused_unaffected_partial.
Print Assumptions C77_others_unaffected_partial.
Print Assumptions C77_failed_modify_refuted.
