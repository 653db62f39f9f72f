(** Proofs about the kqueue model: reports. *)
From stdpp Require Import prelude list gmap.
From Verif Require Import Bits Types EventModel EventSpec EventProofs KqueueModel KqueueSpec KqueueProofs
  KqueueProofs2.
Local Open Scope nat_scope.

(** *** The log *)
Lemma log_grows c s l s' : step c s l = Some s' -> log s' = log s \/ exists o, log s' = log s ++ [o].
Proof.
  intros Hs. destruct l as [i a|f st w|fd|sl max|fs|e|fts]; cbn [step] in Hs.
  - destruct (threads s !! i) as [p|]; [|done].
    destruct p as [|cl|cl|cl|cl|cl r| |], a as [cl'| | |fts|n fts e]; cbn [thread_step] in Hs; try done.
    all: try (destruct (kevent _ _ _ _)). all: try (destruct (decide _)). all: try (destruct (noti c)).
    all: simplify_eq; simpl; eauto.
  - simplify_eq. simpl. eauto.
  - simplify_eq. simpl. eauto.
  - destruct (wait s); simplify_eq; simpl; eauto.
  - destruct (wait s); try done. destruct (_ && _); simplify_eq. simpl; eauto.
  - destruct (wait s), e; simplify_eq; simpl; eauto.
  - unfold wait_step in Hs. destruct (wait s); try done; try (destruct (noti c)); try done.
    all: try (destruct (decide _)). all: try (destruct (kevent _ _ _ _); destruct (check_receipts _)).
    all: simplify_eq; simpl; eauto.
Qed.

Lemma log_step c excl s h o h' : reachable c excl s -> log s = h ++ o :: h' ->
  exists s1 l s2, reachable c excl s1 /\ legal c excl s1 l /\ step c s1 l = Some s2 /\
    log s1 = h /\ log s2 = h ++ [o].
Proof.
  intros Hr. revert h'. induction Hr as [n|s l s' Hr IH Hl Hs]; intros h' E.
  - exfalso. assert (log (init c n) = []) as E0 by (unfold init; by destruct (noti c)).
    rewrite E0 in E. by destruct h.
  - destruct (log_grows _ _ _ _ Hs) as [El|[x El]].
    + rewrite El in E. by eapply IH.
    + rewrite El in E. destruct h' as [|y h'] using rev_ind.
      * apply app_inj_tail in E as [E ->]. exists s, l, s'. by rewrite El, E.
      * clear IHh'. change (h ++ o :: h' ++ [y]) with (h ++ (o :: h') ++ [y]) in E.
        rewrite app_assoc in E. apply app_inj_tail in E as [E _]. by eapply IH.
Qed.

Lemma report_step c s l s' b : step c s l = Some s' -> log s' = log s ++ [Reported b] ->
  exists sl max fs, l = LReport fs /\ wait s = WPoll sl max /\ may_report (kern s) max fs = true /\
    (sl = true -> fs <> []) /\
    b = map (fun f => to_event (report_of (kern s) f)) fs /\ kern s' = foldl consume (kern s) fs.
Proof.
  intros Hs El.
  assert (Hno : log s' = log s -> False).
  { intros E. rewrite E in El. apply (f_equal length) in El. rewrite app_length in El. simpl in El. lia. }
  assert (Hone : forall x, log s' = log s ++ [x] -> x = Reported b).
  { intros x E. rewrite E in El. by apply app_inj_tail in El as [_ El]. }
  destruct l as [i a|f st w|fd|sl max|fs|e|fts]; cbn [step] in Hs.
  - exfalso. destruct (threads s !! i) as [p|]; [|done].
    destruct p as [|cl|cl|cl|cl|cl r| |], a as [cl'| | |fts|n fts e]; cbn [thread_step] in Hs; try done.
    all: try (destruct (kevent _ _ _ _)). all: try (destruct (decide _)). all: try (destruct (noti c)).
    all: simplify_eq; simpl in *; try (by apply Hno); by specialize (Hone _ eq_refl).
  - simplify_eq. simpl in *. by specialize (Hone _ eq_refl).
  - simplify_eq. simpl in *. by specialize (Hone _ eq_refl).
  - destruct (wait s); simplify_eq; simpl in *. by specialize (Hone _ eq_refl).
  - destruct (wait s) as [|sl max| | | |x|]; try done.
    destruct (may_report (kern s) max fs) eqn:Em; [|done]. simpl in Hs.
    destruct (negb (sl && bool_decide (fs = []))) eqn:En; [|done]. simplify_eq.
    specialize (Hone _ eq_refl). injection Hone as <-. exists sl, max, fs.
    do 3 (split; [done|]). split; [|done]. intros ->. simpl in En.
    apply negb_true_iff, bool_decide_eq_false in En. done.
  - exfalso. destruct (wait s), e; simplify_eq; simpl in *; try (by apply Hno); by specialize (Hone _ eq_refl).
  - exfalso. unfold wait_step in Hs. destruct (wait s); try done; try (destruct (noti c)); try done.
    all: try (destruct (decide _)). all: try (destruct (kevent _ _ _ _); destruct (check_receipts _)).
    all: simplify_eq; simpl in *; try (by apply Hno); by specialize (Hone _ eq_refl).
Qed.

Lemma reported_at c excl s h b h' : reachable c excl s -> log s = h ++ Reported b :: h' ->
  exists s1 s2 sl max fs, reachable c excl s1 /\ log s1 = h /\ step c s1 (LReport fs) = Some s2 /\
    wait s1 = WPoll sl max /\ may_report (kern s1) max fs = true /\
    b = map (fun f => to_event (report_of (kern s1) f)) fs /\ kern s2 = foldl consume (kern s1) fs.
Proof.
  intros Hr E. destruct (log_step _ _ _ _ _ _ Hr E) as (s1 & l & s2 & Hr1 & Hl & Hs & E1 & E2).
  rewrite <- E1 in E2. destruct (report_step _ _ _ _ _ Hs E2) as (sl & max & fs & -> & Hw & Hm & _ & Hb & Hk).
  exists s1, s2, sl, max, fs. done.
Qed.

Lemma in_reports k fs f e : (f, e) ∈ map (fun f => to_event (report_of k f)) fs ->
  f ∈ fs /\ e = (to_event (report_of k f)).2.
Proof.
  intros H. apply elem_of_list_fmap in H as (g & E & Hg). unfold to_event, report_of in E. simpl in E.
  injection E as <- ->. done.
Qed.
Lemma reports_in k fs f : f ∈ fs -> exists e, (f, e) ∈ map (fun f => to_event (report_of k f)) fs.
Proof.
  intros H. exists (to_event (report_of k f)).2. apply elem_of_list_fmap. exists f. done.
Qed.

Lemma no_dup_batch c excl s h b h' : reachable c excl s -> log s = h ++ Reported b :: h' -> NoDup b.*1.
Proof.
  intros Hr E. destruct (reported_at _ _ _ _ _ _ Hr E) as (s1 & s2 & sl & max & fs & _ & _ & _ & _ & Hm & -> & _).
  rewrite reports_fst. by apply may_report_spec in Hm as [? _].
Qed.

(** *** C47 *)
Lemma arms_dec f o : Decision (arms f o).
Proof.
  unfold Decision, arms. destruct (granted f o) as [[[k m]|]|]; [left; eauto|right|right]; by intros (? & ? & ?).
Qed.
Lemma armed_stays_none ks f h h2 : armed ks f h = None -> Forall (fun o => ~ arms f o) h2 ->
  armed ks f (h ++ h2) = None.
Proof.
  intros H1. induction h2 as [|o h2 IH] using rev_ind; intros HF; [by rewrite app_nil_r|].
  apply Forall_app in HF as [HF Ho]. rewrite Forall_singleton in Ho. specialize (IH HF).
  rewrite app_assoc, armed_snoc, IH. unfold arm.
  destruct (granted f o) as [[[k m]|]|] eqn:E; [|done|by destruct o].
  exfalso. apply Ho. by exists k, m.
Qed.

Lemma reported_armed c excl s h b h' f e : reachable c excl s -> log s = h ++ Reported b :: h' ->
  (f, e) ∈ b -> ~ own_filter c f ->
  exists k m, armed (keeps c) f h = Some (k, m) /\ ev_key e = u64_to_key 64 k /\
    (is_fd_filter f -> exists fl, readiness f h = Some fl /\ e = kqueue_to_event 64 k f fl) /\
    ev_readable e = match f with FRead _ | FVnode _ | FProc _ | FSignal _ | FTimer _ => true | _ => false end.
Proof.
  intros Hr E Hin Hf.
  destruct (reported_at _ _ _ _ _ _ Hr E) as (s1 & s2 & sl & max & fs & Hr1 & E1 & _ & _ & Hm & -> & _).
  apply in_reports in Hin as [Hin ->].
  apply may_report_spec in Hm as (_ & Hrep & _). apply Hrep, reportable_spec in Hin as (n & Hn & _ & Hp).
  pose proof (inv_reach _ _ _ Hr1) as Hi. pose proof (iv_note _ _ Hi f Hf) as Hok. rewrite Hn, E1 in Hok.
  destruct (armed (keeps c) f h) as [[k m]|]; [|done]. destruct Hok as (n' & [= <-] & Hu & _).
  exists k, m. split; [done|]. unfold to_event, report_of. simpl. rewrite Hn, Hu. split; [done|]. split; [|done].
  intros Hfd. rewrite <- E1, <- (iv_pend _ _ Hi f Hf Hfd). apply is_pending_iff in Hp as [fl Hfl].
  rewrite Hfl. exists fl. done.
Qed.

Lemma oneshot_once c excl s h1 b1 h2 b2 h3 f e1 e2 k m :
  reachable c excl s -> ~ own_filter c f ->
  log s = h1 ++ Reported b1 :: h2 ++ Reported b2 :: h3 -> (f, e1) ∈ b1 -> (f, e2) ∈ b2 ->
  armed (keeps c) f h1 = Some (k, m) -> mode_oneshot m -> exists o, o ∈ h2 /\ arms f o.
Proof.
  intros Hr Hf E H1 H2 Ha Hm.
  destruct (Forall_Exists_dec (fun o => ~ arms f o) (arms f)) with (l := h2) as [HF|HE].
  { intros x. destruct (arms_dec f x); [right|left]; tauto. }
  2:{ apply Exists_exists in HE as (o & Ho & Hno). eauto. }
  exfalso.
  assert (E' : log s = (h1 ++ Reported b1 :: h2) ++ Reported b2 :: h3) by (by rewrite E, <- app_assoc).
  destruct (reported_armed c excl s _ _ _ f e2 Hr E' H2 Hf) as (k2 & m2 & Ha2 & _).
  rewrite cons_middle, app_assoc in Ha2. rewrite armed_stays_none in Ha2; [done| |done].
  rewrite armed_snoc, Ha. unfold arm. cbn [granted]. rewrite decide_True.
  - by destruct Hm as [->| ->].
  - apply elem_of_list_fmap. by exists (f, e1).
Qed.

(** The mode in force is the one asked for last, if the kernel replaces the flags. *)
Lemma armed_last f h o h' k m : granted f o = Some (Some (k, m)) -> Forall (fun o => granted f o = None) h' ->
  armed false f (h ++ o :: h') = Some (k, m) \/ (armed false f (h ++ o :: h') = None /\ mode_oneshot m).
Proof.
  intros Ho. rewrite cons_middle, app_assoc. induction h' as [|x h' IH] using rev_ind; intros HF.
  - rewrite app_nil_r, armed_snoc. unfold arm. rewrite Ho. left. by destruct (armed false f h) as [[? ?]|].
  - apply Forall_app in HF as [HF Hx]. rewrite Forall_singleton in Hx.
    rewrite app_assoc, armed_snoc. unfold arm. rewrite Hx.
    destruct (IH HF) as [->|[-> Hm]].
    + destruct x; auto. case_decide; auto. destruct m; auto; right; (split; [done|]); [by left|by right].
    + right. by destruct x.
Qed.
(** ... and one of those asked for, in any case. *)
Lemma armed_all ks (P : poll_mode -> Prop) f h :
  Forall (fun o => forall k m, granted f o = Some (Some (k, m)) -> P m) h ->
  forall k m, armed ks f h = Some (k, m) -> P m.
Proof.
  induction h as [|o h IH] using rev_ind; intros HF; [done|].
  apply Forall_app in HF as [HF Ho]. rewrite Forall_singleton in Ho. specialize (IH HF).
  rewrite armed_snoc. unfold arm. intros k m. destruct (granted f o) as [[[k' m']|]|] eqn:E.
  - destruct (armed ks f h) as [[k0 m0]|]; [destruct ks|]; intros [= <- <-]; eauto.
  - done.
  - destruct (armed ks f h) as [[k0 m0]|].
    + destruct o; try (intros [= <- <-]; eauto). case_decide; [|intros [= <- <-]; eauto].
      destruct m0; try done; intros [= <- <-]; eauto.
    + by destruct o.
Qed.

(** *** Readiness is reported *)
Definition due (f : kq_filter) (k : kernel) : Prop :=
  forall n, notes k !! f = Some n -> is_pending k f = true -> kn_active n = true.

Lemma due_reported c excl s sl max fs s' f k m fl :
  reachable c excl s -> ~ own_filter c f -> is_fd_filter f -> wait s = WPoll sl max ->
  armed (keeps c) f (log s) = Some (k, m) -> due f (kern s) -> readiness f (log s) = Some fl ->
  step c s (LReport fs) = Some s' ->
  exists b, log s' = log s ++ [Reported b] /\
    (length b = max \/ (f, kqueue_to_event 64 k f fl) ∈ b).
Proof.
  intros Hr Hf Hfd Hw Ha Hd Hrd Hs. cbn [step] in Hs. rewrite Hw in Hs.
  destruct (may_report (kern s) max fs) eqn:Em; [|done]. simpl in Hs.
  destruct (negb (sl && bool_decide (fs = []))); [|done]. simplify_eq. eexists. split; [done|].
  apply may_report_spec in Em as (_ & _ & _ & Hall). rewrite map_length.
  destruct Hall as [->|Hall]; [by left|right].
  pose proof (inv_reach _ _ _ Hr) as Hi. pose proof (iv_note _ _ Hi f Hf) as Hok. rewrite Ha in Hok.
  destruct Hok as (n & Hn & Hu & _). pose proof (iv_pend _ _ Hi f Hf Hfd) as Hp. rewrite Hrd in Hp.
  assert (Hpd : is_pending (kern s) f = true) by (apply is_pending_iff; rewrite Hp; eauto).
  assert (Hin : f ∈ fs). { apply Hall, reportable_spec. exists n. auto. }
  apply elem_of_list_fmap. exists f. split; [|done].
  unfold to_event, report_of. simpl. by rewrite Hn, Hp, Hu.
Qed.

Lemma report_possible c excl s sl max f k m fl :
  reachable c excl s -> ~ own_filter c f -> is_fd_filter f -> wait s = WPoll sl max -> 0 < max ->
  armed (keeps c) f (log s) = Some (k, m) -> due f (kern s) -> readiness f (log s) = Some fl ->
  exists fs s', step c s (LReport fs) = Some s'.
Proof.
  intros Hr Hf Hfd Hw Hmax Ha Hd Hrd.
  pose proof (inv_reach _ _ _ Hr) as Hi. pose proof (iv_note _ _ Hi f Hf) as Hok. rewrite Ha in Hok.
  destruct Hok as (n & Hn & Hu & _). pose proof (iv_pend _ _ Hi f Hf Hfd) as Hp. rewrite Hrd in Hp.
  assert (Hpd : is_pending (kern s) f = true) by (apply is_pending_iff; rewrite Hp; eauto).
  assert (Hrep : reportable (kern s) f = true) by (apply reportable_spec; exists n; auto).
  set (all := List.filter (reportable (kern s)) (map_to_list (notes (kern s))).*1).
  assert (Hall : forall g, g ∈ all <-> reportable (kern s) g = true).
  { intros g. unfold all. rewrite elem_of_list_In, filter_In, <- elem_of_list_In. split; [tauto|].
    intros Hg. split; [|done]. apply reportable_spec in Hg as (x & Hx & _).
    apply elem_of_list_fmap. exists (g, x). split; [done|]. by apply elem_of_map_to_list. }
  assert (Hnd : NoDup all).
  { unfold all. apply NoDup_ListNoDup, List.NoDup_filter, NoDup_ListNoDup. apply NoDup_fst_map_to_list. }
  exists (take max all).
  assert (Hm : may_report (kern s) max (take max all) = true).
  { apply may_report_spec. split; [|split; [|split]].
    - rewrite <- (take_drop max all) in Hnd. by apply NoDup_app in Hnd as [? _].
    - intros g Hg. apply Hall. rewrite <- (take_drop max all). apply elem_of_app. by left.
    - rewrite take_length. lia.
    - rewrite take_length. destruct (decide (max <= length all)); [left; lia|right].
      intros g Hg. rewrite take_ge by lia. by apply Hall. }
  eexists. cbn [step]. rewrite Hw, Hm. simpl.
  assert (bool_decide (take max all = []) = false) as ->.
  { apply bool_decide_eq_false. intros E. assert (Hin : f ∈ all) by (by apply Hall).
    destruct all as [|x l]; [by apply elem_of_nil in Hin|]. destruct max; [lia|done]. }
  rewrite andb_false_r. done.
Qed.

Lemma level_due c excl s f k m : reachable c excl s -> ~ own_filter c f -> is_fd_filter f ->
  armed (keeps c) f (log s) = Some (k, m) -> ~ mode_edge m -> due f (kern s).
Proof.
  intros Hr Hf [fd Hfd] Ha Hm n Hn Hp.
  pose proof (inv_reach _ _ _ Hr) as Hi. pose proof (iv_note _ _ Hi f Hf) as Hok. rewrite Ha, Hn in Hok.
  destruct Hok as (n' & [= <-] & _ & Hfl). eapply (iv_act _ _ Hi); [done| |done].
  rewrite Hfl. destruct (intersects (nflags f m) EV_CLEAR) eqn:E; [|done].
  apply nflags_clear in E as [E|E]; [done|]. by destruct Hfd as [->| ->].
Qed.
