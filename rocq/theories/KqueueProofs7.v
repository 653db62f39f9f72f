(** Proofs about the kqueue model: the notifier. *)
From stdpp Require Import prelude list gmap.
From Verif Require Import Bits Types EventModel EventSpec EventProofs KqueueModel KqueueSpec KqueueProofs
  KqueueProofs2 KqueueProofs3 KqueueProofs4 KqueueProofs5 KqueueProofs6.
Local Open Scope nat_scope.

Definition nkey : N := key_to_u64 NOTIFY_KEY.
Definition dead (k : kernel) (f : kq_filter) : Prop := is_pending k f = false.

(** The state of the notifier's filter, without the log: [w] is the step wait is at. *)
Definition shape (c : config) (k : kernel) (w : wpc) (rearmed owed sent : bool) : Prop :=
  let f := noti_filter c in
  due f k /\
  (forall n, notes k !! f = Some n -> kn_udata n = nkey) /\
  (owed = true -> (w = Out \/ exists sl max, w = WPoll sl max) -> is_pending k f = true) /\
  match noti c with
  | UserEvent =>
      (exists n, notes k !! f = Some n /\ intersects (kn_flags n) EV_ONESHOT = false /\
         (keeps c = true -> intersects (kn_flags n) EV_CLEAR = true)) /\
      (keeps c = true -> sent = false -> dead k f)
  | SocketPair fd =>
      (forall n, notes k !! f = Some n -> intersects (kn_flags n) EV_ONESHOT = true) /\
      (rearmed = true -> w <> WDrain -> w <> WHas -> w <> WSubmit -> is_Some (notes k !! f)) /\
      (sent = false -> dead k f \/ (w = WDrain /\ notes k !! f = None))
  end.

Lemma shape_same c k k' w r o t : same_at (noti_filter c) k k' -> shape c k w r o t -> shape c k' w r o t.
Proof.
  intros [E1 E2] (H1 & H2 & H3 & H4).
  assert (Ep : is_pending k' (noti_filter c) = is_pending k (noti_filter c)) by (unfold is_pending; by rewrite E2).
  unfold shape. cbv zeta. split; [by eapply due_same|]. rewrite E1, Ep. split; [done|]. split; [done|].
  unfold dead in *. rewrite Ep. done.
Qed.
(** Wait moves on without touching the kernel. *)
Lemma shape_wait c k w w' r o o' t : shape c k w r o t -> (o' = true -> o = true) ->
  (w' <> WDrain \/ w = WDrain) ->
  (o' = true -> (w' = Out \/ exists sl max, w' = WPoll sl max) -> (w = Out \/ exists sl max, w = WPoll sl max)) ->
  (w = WDrain \/ w = WHas \/ w = WSubmit -> w' = WDrain \/ w' = WHas \/ w' = WSubmit \/ r = false) ->
  (w = WDrain -> w' = WDrain) ->
  shape c k w' r o' t.
Proof.
  intros (H1 & H2 & H3 & H4) Ho Hd Hout Hmid Hdr. split; [done|]. split; [done|]. split; [by auto|].
  destruct (noti c) as [|fd]; [done|]. destruct H4 as (H4 & H5 & H6). split; [done|]. split.
  - intros Hr N1 N2 N3. apply H5; [done| | |]; intros ->; destruct Hmid as [?|[?|[?|?]]]; auto; congruence.
  - intros Ht. destruct (H6 Ht) as [?|[? ?]]; auto.
Qed.

Lemma owed_snoc h o : owed (h ++ [o]) = owe (owed h) o.
Proof. unfold owed. by rewrite fold_left_app. Qed.
Lemma rearmed_snoc h o : rearmed (h ++ [o]) = rearm (rearmed h) o.
Proof. unfold rearmed. by rewrite fold_left_app. Qed.
Lemma sent_snoc f h o : sent f (h ++ [o]) = send f (sent f h) o.
Proof. unfold sent. by rewrite fold_left_app. Qed.

Definition ninv (c : config) (s : state) : Prop :=
  shape c (kern s) (wait s) (rearmed (log s)) (owed (log s)) (sent (noti_filter c) (log s)).
(** A log entry that says nothing about notifications. *)
Definition mute (o : obs) : Prop :=
  (forall st, owe st o = st) /\ (forall st, rearm st o = st) /\ (forall f st, send f st o = st).
Lemma ninv_mute c s s' : ninv c s -> wait s' = wait s -> same_at (noti_filter c) (kern s) (kern s') ->
  (log s' = log s \/ exists o, log s' = log s ++ [o] /\ mute o) -> ninv c s'.
Proof.
  intros H Ew Hs Hl. unfold ninv. rewrite Ew.
  assert (rearmed (log s') = rearmed (log s) /\ owed (log s') = owed (log s) /\
          sent (noti_filter c) (log s') = sent (noti_filter c) (log s)) as (-> & -> & ->).
  { destruct Hl as [->|(o & -> & M1 & M2 & M3)]; [done|]. rewrite rearmed_snoc, owed_snoc, sent_snoc. auto. }
  by eapply shape_same.
Qed.

Lemma noti_own c : own_filter c (noti_filter c).
Proof. unfold own_filter, noti_filter. destruct (noti c); auto. Qed.
Lemma user_asks c cl : user_call c cl -> asks cl (noti_filter c) = None.
Proof.
  intros Hu. destruct (asks cl (noti_filter c)) as [w|] eqn:E; [|done]. exfalso.
  eapply user_source_filter; [apply user_call_source, Hu|by eapply asks_source|apply noti_own].
Qed.
Lemma submit_own c k cl n fts a k' : user_call c cl -> key_ok cl ->
  kevent (keeps c) k (take n (default [] (call_changes c cl))) fts = (a, k') -> same_at (noti_filter c) k k'.
Proof.
  intros Hu Hk Hke. pose proof (submit_effect c k cl n fts a k' (noti_filter c) Hk Hke) as He.
  unfold grant in He. rewrite (user_asks c cl Hu) in He. by destruct (a !! _) as [[|]|].
Qed.

Lemma report_shape c k w w' r o t fs : NoDup fs -> (forall f, f ∈ fs -> reportable k f = true) ->
  shape c k w r o t -> (match noti c with UserEvent => w' = WRet | SocketPair _ => w' = WDrain end) ->
  (exists sl max, w = WPoll sl max) ->
  shape c (foldl consume k fs) w' r o (if decide (noti_filter c ∈ fs) then false else t).
Proof.
  intros Hnd Hrep (H1 & H2 & H3 & H4) Hw' (sl & max & ->). set (f := noti_filter c) in *.
  assert (Hnw : ~ (w' = Out \/ exists sl max, w' = WPoll sl max)).
  { destruct (noti c); subst w'; intros [?|(? & ? & ?)]; done. }
  destruct (decide (f ∈ fs)) as [Hin|Hni].
  - destruct (consumes_in k fs f Hnd Hin) as [E1 E2].
    pose proof (Hrep f Hin) as (n & Hn & Ha & Hp)%reportable_spec.
    assert (Ec := consume_self k f n Hn). unfold shape. cbv zeta. fold f. rewrite E1, Ec.
    split; [|split; [|split; [done|]]].
    + intros n' Hn' Hp'. rewrite E1, Ec in Hn'. unfold consumed in Hn'.
      destruct (intersects (kn_flags n) EV_ONESHOT) eqn:Eo; [done|].
      destruct (intersects (kn_flags n) EV_CLEAR) eqn:Ecl; simplify_eq/=; [|done].
      exfalso. apply is_pending_iff in Hp'. rewrite E2 in Hp'. unfold consume in Hp'. rewrite Hn, Eo, Ecl in Hp'. simpl in Hp'.
      unfold f, noti_filter in *. destruct (noti c) as [|fd].
      * simpl in Hp'. rewrite lookup_delete in Hp'. by destruct Hp'.
      * destruct H4 as (H4 & _). rewrite (H4 _ Hn) in Eo. done.
    + intros n' Hn'. rewrite <- (H2 n Hn). unfold consumed in Hn'.
      destruct (intersects (kn_flags n) EV_ONESHOT); [done|]. destruct (intersects (kn_flags n) EV_CLEAR); by simplify_eq/=.
    + destruct (noti c) as [|fd] eqn:En.
      * destruct H4 as ((n0 & Hn0 & Ho & Hk) & H5). assert (n0 = n) as -> by congruence. unfold consumed. rewrite Ho.
        split.
        -- destruct (intersects (kn_flags n) EV_CLEAR) eqn:Ecl; (eexists; split; [reflexivity|]; split; [exact Ho|]); [intros _; exact Ecl|intros Hks; by specialize (Hk Hks)].
        -- intros Hks _. unfold dead. destruct (is_pending (foldl consume k fs) f) eqn:Ep; [|done]. exfalso.
           apply is_pending_iff in Ep. rewrite E2 in Ep. unfold consume in Ep. rewrite Hn, Ho, (Hk Hks) in Ep. simpl in Ep.
           unfold f, noti_filter in Ep. rewrite En in Ep. simpl in Ep. rewrite lookup_delete in Ep. by destruct Ep.
      * destruct H4 as (H4 & H5 & H6). unfold consumed. rewrite (H4 _ Hn).
        split; [done|]. split; [by subst w'|]. intros _. right. done.
  - destruct (consumes_other k fs f Hni) as [E1 E2].
    assert (Hsh : shape c (foldl consume k fs) (WPoll sl max) r o t).
    { eapply (shape_same c k); [by split|]. split; [done|]. split; [done|]. done. }
    destruct Hsh as (G1 & G2 & G3 & G4). split; [done|]. split; [done|]. split; [done|].
    destruct (noti c) as [|fd]; [done|]. destruct G4 as (G4 & G5 & G6). split; [done|]. split; [by subst w'|].
    intros Ht. destruct (G6 Ht) as [?|[? ?]]; [by left|done].
Qed.

Lemma notify_shape c k w r o t k' :
  shape c k w r o t ->
  k' = match noti c with
       | UserEvent => (kevent (keeps c) k [user_trigger] []).2
       | SocketPair fd => happen k (FRead fd) (Some 0%N) true
       end ->
  shape c k' w r true true.
Proof.
  intros (H1 & H2 & H3 & H4) ->. unfold shape. cbv zeta. unfold noti_filter in *.
  destruct (noti c) as [|fd] eqn:En.
  - destruct H4 as ((n & Hn & Ho & Hk) & H5).
    assert (Hx : exists n', notes (kevent (keeps c) k [user_trigger] []).2 !! FUser 0 = Some n' /\ kn_udata n' = nkey /\
       kn_flags n' = (if keeps c then kn_flags n else stored_flags (FUser 0) (ch_flags user_trigger)) /\ kn_active n' = true /\
       is_pending (kevent (keeps c) k [user_trigger] []).2 (FUser 0) = true).
    { cbn [kevent head default]. unfold register.
      assert (intersects (ch_flags user_trigger) EV_DELETE = false) as -> by done.
      assert (intersects (ch_flags user_trigger) EV_ADD = true) as -> by done.
      cbn [ch_filter user_trigger ch_trigger]. rewrite Hn. cbn [fst snd kevent notes pending]. eexists.
      rewrite lookup_insert. split; [done|]. cbn [kn_udata kn_flags kn_active]. split; [done|]. split; [done|].
      unfold is_pending. cbn [pending]. rewrite lookup_insert. rewrite bool_decide_true by eauto. split; [apply orb_true_r|done]. }
    destruct Hx as (n' & E1 & E2 & E3 & E4 & E5). rewrite E1, E5.
    split; [|split; [|split; [done|split; [|done]]]].
    + intros n0 Hn0 _. rewrite E1 in Hn0. by simplify_eq.
    + intros n0 Hn0. by simplify_eq.
    + exists n'. split; [done|]. rewrite E3. destruct (keeps c); [done|]. split; [done|done].
  - rewrite happen_note, decide_True by done.
    assert (is_pending (happen k (FRead fd) (Some 0%N) true) (FRead fd) = true) as Ep.
    { apply is_pending_iff. rewrite happen_pending, decide_True by done. eauto. }
    rewrite Ep. destruct H4 as (H4 & H5 & H6).
    split; [|split; [|split; [done|split; [|split; [|done]]]]].
    + intros n Hn _. rewrite happen_note, decide_True in Hn by done. apply fmap_Some in Hn as (n0 & _ & ->). simpl. apply orb_true_r.
    + intros n Hn. apply fmap_Some in Hn as (n0 & Hn0 & ->). simpl. auto.
    + intros n Hn. apply fmap_Some in Hn as (n0 & Hn0 & ->). simpl. auto.
    + intros Hr N1 N2 N3. destruct (H5 Hr N1 N2 N3) as [n ->]. eauto.
Qed.

Lemma drain_shape c fd k r o t : noti c = SocketPair fd ->
  shape c k WDrain r o t -> shape c (happen k (FRead fd) None false) WHas r o t.
Proof.
  intros En (H1 & H2 & H3 & H4). unfold shape. cbv zeta. unfold noti_filter in *. rewrite En in *.
  destruct H4 as (H4 & H5 & H6).
  assert (Ep : is_pending (happen k (FRead fd) None false) (FRead fd) = false).
  { apply not_true_is_false. intros E. apply is_pending_iff in E.
    rewrite happen_pending, decide_True in E by done. by destruct E. }
  rewrite happen_note, decide_True by done.
  split; [|split; [|split; [|split; [|split]]]].
  - intros n Hn Hp. congruence.
  - intros n Hn. apply fmap_Some in Hn as (n0 & Hn0 & ->). simpl. auto.
  - intros _ [?|(? & ? & ?)]; done.
  - intros n Hn. apply fmap_Some in Hn as (n0 & Hn0 & ->). simpl. auto.
  - done.
  - intros _. by left.
Qed.

Lemma rearm_shape c fd k r o t fts a k' w' : noti c = SocketPair fd ->
  shape c k WSubmit r o t -> kevent (keeps c) k (pair_changes fd) fts = (a, k') ->
  (w' = WRet \/ exists e, w' = WFail e) ->
  shape c k' w' (match a with None :: _ => true | _ => false end) o t.
Proof.
  intros En (H1 & H2 & H3 & H4) Hke Hw. unfold shape. cbv zeta. unfold noti_filter in *. rewrite En in *.
  destruct H4 as (H4 & H5 & H6).
  set (ch := Change (FRead fd) (kqueue_change_flags true Oneshot) nkey 0%N false).
  assert (Hch : pair_changes fd !! 0 = Some ch) by done.
  assert (Hnd : NoDup (map ch_filter (pair_changes fd))).
  { simpl. apply NoDup_cons; split; [by intros ?%elem_of_list_singleton|apply NoDup_singleton]. }
  destruct (kevent_lookup _ _ _ _ _ _ _ _ Hke Hnd Hch) as (k1 & x & k2 & Hreg & Ha & E1 & E1p & E2 & E2p).
  cbn [ch_filter ch] in *.
  destruct (register_add _ _ _ _ _ _ Hreg) as [_ Hx]; [done|done|]. cbn [ch_filter ch] in Hx.
  assert (Hpend : pending k' !! FRead fd = pending k !! FRead fd).
  { eapply kevent_pending_fd; [exact Hke|by exists fd; left|]. repeat (apply Forall_cons; split; [done|]). by apply Forall_nil. }
  assert (Ep : is_pending k' (FRead fd) = is_pending k (FRead fd)) by (unfold is_pending; by rewrite Hpend).
  assert (Hwn : ~ (w' = Out \/ exists sl max, w' = WPoll sl max)).
  { intros [->|(? & ? & ->)]; by destruct Hw as [?|[? ?]]. }
  assert (Hsent : t = false -> dead k' (FRead fd)).
  { intros Ht. unfold dead. rewrite Ep. by destruct (H6 Ht) as [?|[? ?]]. }
  destruct x as [e|].
  - subst k2. assert (Es : notes k' !! FRead fd = notes k !! FRead fd) by congruence.
    rewrite Es. split; [|split; [done|split; [done|split; [done|split]]]].
    + eapply due_same; [by split|done].
    + destruct a as [|[|] a]; done.
    + auto.
  - destruct Hx as (n & Hn & Hu & _ & Hf & Hact). assert (Es : notes k' !! FRead fd = Some n) by congruence.
    assert (Hone : intersects (kn_flags n) EV_ONESHOT = true).
    { rewrite Hf, E1. destruct (notes k !! FRead fd) as [n0|] eqn:En0; [|done].
      destruct (keeps c); [by apply H4|done]. }
    rewrite Es. split; [|split; [|split; [done|split; [|split]]]].
    + intros n' Hn' Hp. rewrite Es in Hn'. simplify_eq. apply Hact. unfold is_pending in *. by rewrite <- E2p.
    + intros n' [= <-]. done.
    + intros n' [= <-]. done.
    + eauto.
    + auto.
Qed.

Lemma own_inside c excl s : reachable c excl s -> forall fd, noti c = SocketPair fd -> SFd fd ∈ sources s.
Proof.
  induction 1 as [n|s l s' Hr IH Hl Hs]; intros fd0 Hfd.
  { unfold init. rewrite Hfd. simpl. set_solver. }
  pose proof (inv_reach _ _ _ Hr) as Hi. specialize (IH fd0 Hfd).
  destruct l as [i a|f st w|fd|sl max|fs|e|fts]; cbn [step] in Hs.
  - destruct (threads s !! i) as [p|] eqn:Ep; [|done].
    destruct p as [|cl|cl|cl|cl|cl r| |], a as [cl'| | |fts|n fts e]; cbn [thread_step] in Hs; try done.
    all: try (destruct (kevent _ _ _ _)). all: try (by simplify_eq).
    + destruct (decide _); simplify_eq; simpl; set_solver.
    + by destruct (decide _); simplify_eq.
    + simplify_eq. simpl. destruct (iv_call _ _ Hi i (PRemove cl) cl Ep eq_refl) as [Hu _].
      unfold user_call in Hu. rewrite Hfd in Hu. set_solver.
    + destruct (noti c); by simplify_eq.
  - by simplify_eq.
  - by simplify_eq.
  - by destruct (wait s); simplify_eq.
  - by destruct (wait s); try done; destruct (_ && _); simplify_eq.
  - by destruct (wait s), e; simplify_eq.
  - unfold wait_step in Hs. destruct (wait s); try done; try (destruct (noti c)); try done.
    all: try (destruct (decide _)). all: try (destruct (kevent _ _ _ _); destruct (check_receipts _)).
    all: by simplify_eq.
Qed.

Lemma ninv_step c excl s l s' : inv c s -> (forall fd, noti c = SocketPair fd -> SFd fd ∈ sources s) -> ninv c s -> legal c excl s l -> step c s l = Some s' -> ninv c s'.
Proof.
  intros Hi Hown Hn Hl Hs.
  destruct l as [i a|g st w|fd|sl max|fs|e|fts]; cbn [step] in Hs.
  - destruct (threads s !! i) as [p|] eqn:Ep; [|done].
    destruct p as [|cl|cl|cl|cl|cl r| |], a as [cl'| | |fts|n fts e]; cbn [thread_step] in Hs; try done.
    + simplify_eq. eapply (ninv_mute c s); try done. right. by eexists.
    + simplify_eq. eapply (ninv_mute c s); try done. by left.
    + destruct (decide _); simplify_eq; (eapply (ninv_mute c s); try done; by left).
    + destruct (decide _); simplify_eq; (eapply (ninv_mute c s); try done; by left).
    + destruct (kevent (keeps c) (kern s) (default [] (call_changes c cl)) fts) as [a k] eqn:Ek. simplify_eq.
      destruct (iv_call _ _ Hi i (PSubmit cl) cl Ep eq_refl) as [Hu Hk].
      eapply (ninv_mute c s); try done; [|right; by eexists].
      eapply (submit_own c (kern s) cl (length (default [] (call_changes c cl)))); try done. rewrite firstn_all. exact Ek.
    + destruct (kevent (keeps c) (kern s) (take n (default [] (call_changes c cl))) fts) as [a k] eqn:Ek. simplify_eq.
      destruct (iv_call _ _ Hi i (PSubmit cl) cl Ep eq_refl) as [Hu Hk].
      eapply (ninv_mute c s); try done; [|right; by eexists]. by eapply submit_own.
    + simplify_eq. eapply (ninv_mute c s); try done. by left.
    + simplify_eq. eapply (ninv_mute c s); try done. right. by eexists.
    + simplify_eq. eapply (ninv_mute c s); try done. by left.
    + unfold ninv.
      assert (log s' = log s ++ [Notified] /\ wait s' = wait s) as [-> ->] by (by destruct (noti c); simplify_eq).
      rewrite rearmed_snoc, owed_snoc, sent_snoc. cbn [owe rearm send].
      eapply notify_shape; [exact Hn|]. by destruct (noti c); simplify_eq.
    + simplify_eq. eapply (ninv_mute c s); try done. by left.
  - simplify_eq. destruct Hl as [Hg _]. eapply (ninv_mute c s); try done; [|right; by eexists].
    cbn [kern emit set_kern]. unfold same_at. rewrite happen_note, happen_pending.
    rewrite !decide_False; [done| |]; intros E; apply Hg; rewrite <- E; apply noti_own.
  - simplify_eq. simpl in Hl. eapply (ninv_mute c s); try done; [|right; by eexists].
    cbn [kern emit set_kern]. unfold same_at. rewrite close_note, close_pending.
    rewrite !decide_False; [done| |]; unfold noti_filter, own_fd in *; destruct (noti c);
      (intros [E|E]; [try done|done]); congruence.
  - destruct (wait s) eqn:Ew; simplify_eq. unfold ninv. cbn [kern wait log emit set_wait].
    rewrite rearmed_snoc, owed_snoc, sent_snoc. cbn [owe rearm send].
    unfold ninv in Hn. rewrite Ew in Hn. eapply shape_wait; [exact Hn|done|by left|auto|intros [?|[?|?]]; done|done].
  - destruct (wait s) as [|sl max| | | |x|] eqn:Ew; try done.
    destruct (may_report (kern s) max fs) eqn:Em; [|done]. simpl in Hs.
    destruct (negb (sl && bool_decide (fs = []))); [|done]. simplify_eq.
    unfold ninv. cbn [kern wait log emit set_wait set_kern]. rewrite rearmed_snoc, owed_snoc, sent_snoc.
    cbn [owe rearm send]. rewrite reports_fst. apply may_report_spec in Em as (Hnd & Hrep & _).
    unfold ninv in Hn. rewrite Ew in Hn. eapply report_shape; [done|done|exact Hn| |eauto]. by destruct (noti c).
  - assert (s' = s \/ ((exists sl max, wait s = WPoll sl max) /\ exists e, s' = emit (set_wait s Out) (WaitErr e))) as [->|[(sl & max & Ew) [x ->]]]; [|done|].
    { destruct (wait s); try done; destruct e; simplify_eq; eauto 10. }
    unfold ninv. cbn [kern wait log emit set_wait]. rewrite rearmed_snoc, owed_snoc, sent_snoc. cbn [owe rearm send].
    unfold ninv in Hn. rewrite Ew in Hn. eapply shape_wait; [exact Hn|done|by left|done|intros [?|[?|?]]; done|done].
  - unfold wait_step in Hs. unfold ninv in Hn |- *. destruct (wait s) eqn:Ew; try done.
    + destruct (noti c) as [|fd] eqn:En; [done|]. simplify_eq. cbn [kern wait log set_wait set_kern]. by apply drain_shape.
    + destruct (noti c) as [|fd] eqn:En; [done|]. destruct (decide (SFd fd ∈ sources s)) as [?|n]; simplify_eq.
      * cbn [kern wait log set_wait]. eapply shape_wait; [exact Hn|done|by left| | |done].
        -- intros _ [?|(? & ? & ?)]; done.
        -- intros _. auto.
      * by destruct n; apply (Hown fd).
    + destruct (noti c) as [|fd] eqn:En; [done|].
      destruct (kevent (keeps c) (kern s) (pair_changes fd) fts) as [a k] eqn:Ek.
      destruct (check_receipts (receipts a)); simplify_eq; cbn [kern wait log emit set_wait set_kern];
        rewrite rearmed_snoc, owed_snoc, sent_snoc; cbn [owe rearm send];
        (eapply rearm_shape; [exact En|exact Hn|exact Ek|eauto]).
    + simplify_eq. cbn [kern wait log emit set_wait]. rewrite rearmed_snoc, owed_snoc, sent_snoc. cbn [owe rearm send].
      eapply shape_wait; [exact Hn|done|by left|done|intros [?|[?|?]]; done|done].
    + simplify_eq. cbn [kern wait log emit set_wait]. rewrite rearmed_snoc, owed_snoc, sent_snoc. cbn [owe rearm send].
      eapply shape_wait; [exact Hn|done|by left|done|intros [?|[?|?]]; done|done].
Qed.

Lemma ninv_reach c excl s : reachable c excl s -> ninv c s.
Proof.
  induction 1 as [n|s l s' Hr IH Hl Hs].
  2:{ eapply ninv_step; [by eapply inv_reach|by eapply own_inside|done|done|done]. }
  unfold ninv, init, shape, noti_filter. cbv zeta. destruct (noti c) as [|fd] eqn:En.
  - cbn [kern wait log].
    assert (E1 : notes (kevent (keeps c) (Kernel ∅ ∅) [user_register] []).2 !! FUser 0 =
                 Some (Knote EV_CLEAR nkey 0%N false)) by (destruct (keeps c); vm_compute; reflexivity).
    assert (E2 : is_pending (kevent (keeps c) (Kernel ∅ ∅) [user_register] []).2 (FUser 0) = false)
      by (destruct (keeps c); vm_compute; reflexivity).
    rewrite E1. split; [|split; [|split; [done|split]]].
    + intros n' Hn Hp. congruence.
    + intros n' [= <-]. done.
    + eexists. split; [done|]. split; [done|done].
    + intros _ _. exact E2.
  - cbn [kern wait log].
    destruct (kevent (keeps c) (Kernel ∅ ∅) (pair_changes fd) []) as [a k] eqn:Ek. cbn [snd].
    assert (Hsub : shape c (Kernel ∅ ∅) WSubmit true false false).
    { unfold shape, noti_filter. cbv zeta. rewrite En. split; [|split; [|split; [done|split; [|split]]]].
      - intros n' Hn. simpl in Hn. by rewrite lookup_empty in Hn.
      - intros n' Hn. simpl in Hn. by rewrite lookup_empty in Hn.
      - intros n' Hn. simpl in Hn. by rewrite lookup_empty in Hn.
      - done.
      - intros _. left. unfold dead, is_pending. apply bool_decide_eq_false. simpl. rewrite lookup_empty. by intros [? ?]. }
    pose proof (rearm_shape c fd _ _ _ _ _ _ _ WRet En Hsub Ek (or_introl eq_refl)) as Hs.
    assert (Ha : match a with None :: _ => true | _ => false end = true).
    { cbn [kevent pair_changes fd_changes head tail default] in Ek.
      destruct (register (keeps c) (Kernel ∅ ∅) _ None) as [x k1] eqn:E1 in Ek.
      destruct (register (keeps c) k1 _ None) as [y k2] eqn:E2 in Ek. injection Ek as <- <-.
      destruct (register_add _ _ _ _ _ _ E1) as [-> _]; done. }
    rewrite Ha in Hs. apply (shape_wait c k WRet Out true false false false) in Hs; [|done|by left|done|intros [?|[?|?]]; done|done].
    unfold shape, noti_filter in Hs. cbv zeta in Hs. rewrite En in Hs. exact Hs.
Qed.

(** *** Consequences *)
Lemma noti_key c excl s h b h' e : reachable c excl s -> log s = h ++ Reported b :: h' ->
  (noti_filter c, e) ∈ b -> ev_key e = NOTIFY_KEY.
Proof.
  intros Hr E Hin.
  destruct (reported_at _ _ _ _ _ _ Hr E) as (s1 & s2 & sl & max & fs & Hr1 & E1 & _ & _ & Hm & -> & _).
  apply in_reports in Hin as [Hin ->].
  apply may_report_spec in Hm as (_ & Hrep & _). apply Hrep, reportable_spec in Hin as (n & Hn & _).
  destruct (ninv_reach _ _ _ Hr1) as (_ & Hk & _). unfold to_event, report_of. cbn [snd rp_udata rp_filter]. rewrite Hn, (Hk n Hn).
  vm_compute. reflexivity.
Qed.

Lemma noti_reportable c excl s : reachable c excl s ->
  (exists sl max, wait s = WPoll sl max) -> owed (log s) = true ->
  (noti c = UserEvent \/ rearmed (log s) = true) -> reportable (kern s) (noti_filter c) = true.
Proof.
  intros Hr (sl & max & Hw) Ho Hre. destruct (ninv_reach _ _ _ Hr) as (H1 & H2 & H3 & H4).
  assert (Hp : is_pending (kern s) (noti_filter c) = true) by (apply H3; eauto).
  assert (exists n, notes (kern s) !! noti_filter c = Some n) as [n Hn].
  { destruct (noti c) as [|fd] eqn:En; [destruct H4 as ((n & Hn & _) & _); eauto|].
    destruct Hre as [?|Hre]; [done|]. destruct H4 as (_ & H5 & _). apply H5; rewrite ?Hw; done. }
  apply reportable_spec. exists n. auto.
Qed.
Lemma noti_sent c excl s h1 b1 h2 b2 h3 : reachable c excl s ->
  (noti c = UserEvent -> keeps c = true) ->
  log s = h1 ++ Reported b1 :: h2 ++ Reported b2 :: h3 ->
  noti_filter c ∈ b1.*1 -> noti_filter c ∈ b2.*1 -> Notified ∈ h2.
Proof.
  intros Hr Hk E H1 H2.
  assert (E' : log s = (h1 ++ Reported b1 :: h2) ++ Reported b2 :: h3) by (by rewrite E, <- app_assoc).
  destruct (reported_at _ _ _ _ _ _ Hr E') as (s1 & s2 & sl & max & fs & Hr1 & E1 & _ & Hw & Hm & -> & _).
  rewrite reports_fst in H2. apply may_report_spec in Hm as (_ & Hrep & _).
  apply Hrep, reportable_spec in H2 as (n & Hn & _ & Hp).
  destruct (sent (noti_filter c) (log s1)) eqn:Es.
  - (* sent after b1 *)
    rewrite E1, cons_middle, app_assoc in Es. clear -Es H1.
    assert (G : forall h, sent (noti_filter c) ((h1 ++ [Reported b1]) ++ h) = true -> Notified ∈ h); [|by apply G].
    intros h. induction h as [|o h IH] using rev_ind.
    + rewrite app_nil_r, sent_snoc. cbn [send]. by rewrite decide_True.
    + rewrite app_assoc, sent_snoc. intros Hs. apply elem_of_app.
      destruct o; cbn [send] in Hs; try (left; by apply IH); [right; by apply elem_of_list_singleton|].
      case_decide; [done|]. left. by apply IH.
  - exfalso. destruct (ninv_reach _ _ _ Hr1) as (_ & _ & _ & H4). rewrite Es in H4. unfold dead in H4.
    destruct (noti c) as [|fd].
    + destruct H4 as [_ H4]. rewrite (H4 (Hk eq_refl) eq_refl) in Hp. done.
    + destruct H4 as (_ & _ & H4). destruct (H4 eq_refl) as [H5|[H5 _]]; congruence.
Qed.
