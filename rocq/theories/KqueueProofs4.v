(** Proofs about the kqueue model: edges, and the set of sources under exclusive use. *)
From stdpp Require Import prelude list gmap.
From Verif Require Import Bits Types EventModel EventSpec EventProofs KqueueModel KqueueSpec KqueueProofs
  KqueueProofs2 KqueueProofs3.
Local Open Scope nat_scope.

(** *** Edges *)
Definition same_at (f : kq_filter) (k k' : kernel) : Prop :=
  notes k' !! f = notes k !! f /\ pending k' !! f = pending k !! f.

Definition quiet (f : kq_filter) (o : obs) : Prop :=
  granted f o = None /\ (forall st w, o <> Happened f st w) /\ (forall b, o = Reported b -> f ∉ b.*1).
Definition says (f : kq_filter) (h h' : list obs) : Prop :=
  h' = h \/ exists o, h' = h ++ [o] /\ quiet f o.
Lemma says_refl f h : says f h h. Proof. by left. Qed.
Lemma says_one f h o : quiet f o -> says f h (h ++ [o]). Proof. right. eauto. Qed.

(** What a step does to a filter that is not the poller's own. *)
Lemma step_at c excl s l s' f : inv c s -> ~ own_filter c f -> legal c excl s l -> step c s l = Some s' ->
  (same_at f (kern s) (kern s') /\ says f (log s) (log s')) \/
  (exists i cl n fts a, threads s !! i = Some (PSubmit cl) /\
     kevent (keeps c) (kern s) (take n (default [] (call_changes c cl))) fts = (a, kern s') /\
     grant f cl a <> None /\ key_ok cl /\
     exists o, log s' = log s ++ [o] /\ granted f o = grant f cl a) \/
  (exists st w, kern s' = happen (kern s) f st w /\ log s' = log s ++ [Happened f st w] /\
     (is_Some st -> is_pending (kern s) f = false -> w = true)) \/
  (exists fd, (f = FRead fd \/ f = FWrite fd) /\ kern s' = close_fd (kern s) fd /\ log s' = log s ++ [Closed fd]) \/
  (exists fs b, f ∈ fs /\ NoDup fs /\ kern s' = foldl consume (kern s) fs /\ log s' = log s ++ [Reported b] /\ b.*1 = fs).
Proof.
  intros Hi Hf Hl Hs.
  destruct l as [i a|g st w|fd|sl max|fs|e|fts]; cbn [step] in Hs.
  - destruct (threads s !! i) as [p|] eqn:Ep; [|done].
    destruct p as [|cl|cl|cl|cl|cl r| |], a as [cl'| | |fts|n fts e]; cbn [thread_step] in Hs; try done.
    all: try (by simplify_eq; left; split; [done|]; first [by apply says_refl|by apply says_one]).
    + destruct (decide (call_source cl ∈ sources s)); simplify_eq; (left; split; [done|apply says_refl]).
    + destruct (decide (call_source cl ∈ sources s)); simplify_eq; (left; split; [done|apply says_refl]).
    + destruct (kevent (keeps c) (kern s) (default [] (call_changes c cl)) fts) as [a k] eqn:Ek. simplify_eq.
      destruct (iv_call _ _ Hi i (PSubmit cl) cl Ep eq_refl) as [_ Hk].
      assert (Ek' : kevent (keeps c) (kern s) (take (length (default [] (call_changes c cl))) (default [] (call_changes c cl))) fts = (a, k))
        by (by rewrite firstn_all).
      pose proof (submit_effect c _ _ _ _ _ _ f Hk Ek') as He.
      destruct (grant f cl a) as [w|] eqn:Eg; [right; left|left; split; [done|]; by apply says_one].
      exists i, cl, (length (default [] (call_changes c cl))), fts, a. rewrite Eg.
      do 2 (split; [done|]). split; [done|]. split; [done|]. eexists. split; [done|]. done.
    + destruct (kevent (keeps c) (kern s) (take n (default [] (call_changes c cl))) fts) as [a k] eqn:Ek. simplify_eq.
      destruct (iv_call _ _ Hi i (PSubmit cl) cl Ep eq_refl) as [_ Hk].
      pose proof (submit_effect c _ _ _ _ _ _ f Hk Ek) as He.
      destruct (grant f cl a) as [w|] eqn:Eg; [right; left|left; split; [done|]; by apply says_one].
      exists i, cl, n, fts, a. rewrite Eg.
      do 2 (split; [done|]). split; [done|]. split; [done|]. eexists. split; [done|]. done.
    + left. split; [|destruct (noti c); simplify_eq; by apply says_one].
      destruct (noti c) as [|fd] eqn:En; simplify_eq; cbn [kern emit set_pc set_kern].
      * by apply (own_trigger c).
      * unfold same_at. rewrite happen_note, happen_pending. rewrite !decide_False; [done| |].
        all: intros ->; apply Hf; unfold own_filter; rewrite En; by left.
  - simplify_eq. destruct Hl as [Hg Hw]. destruct (decide (g = f)) as [->|Hne].
    + right. right. left. exists st, w. done.
    + left. split; [|apply says_one; split; [done|]; by split; [congruence|]].
      cbn [kern emit set_pc set_kern]. unfold same_at. rewrite happen_note, happen_pending. rewrite !decide_False by done. done.
  - simplify_eq. destruct (decide (f = FRead fd \/ f = FWrite fd)) as [Hd|Hd].
    + right. right. right. left. exists fd. done.
    + left. split; [|apply says_one; split; [cbn [granted]; by rewrite decide_False|done]].
      cbn [kern emit set_pc set_kern]. unfold same_at. rewrite close_note, close_pending. by rewrite !decide_False.
  - destruct (wait s); simplify_eq. left. split; [done|]. by apply says_one.
  - destruct (wait s) as [|sl max| | | |x|]; try done.
    destruct (may_report (kern s) max fs) eqn:Em; [|done]. simpl in Hs.
    destruct (negb (sl && bool_decide (fs = []))); [|done]. simplify_eq.
    apply may_report_spec in Em as (Hnd & _).
    destruct (decide (f ∈ fs)) as [Hin|Hni].
    + do 4 right. exists fs. eexists. do 4 (split; [done|]). apply reports_fst.
    + left. split; [by apply consumes_other|]. apply says_one. split; [done|]. split; [done|].
      intros b [= <-]. by rewrite reports_fst.
  - left. split; [|destruct (wait s), e; simplify_eq; first [by apply says_refl|by apply says_one]].
    assert (kern s' = kern s) as E by (destruct (wait s), e; by simplify_eq). unfold same_at. by rewrite E.
  - left. unfold wait_step in Hs. split.
    2:{ destruct (wait s); try done; try (destruct (noti c); [done|]).
        - simplify_eq. apply says_refl.
        - destruct (decide _); simplify_eq; first [by apply says_refl|by apply says_one].
        - destruct (kevent _ _ _ _). destruct (check_receipts _); simplify_eq; by apply says_one.
        - simplify_eq. by apply says_one.
        - simplify_eq. by apply says_one. }
    destruct (wait s); try done.
    + destruct (noti c) as [|fd] eqn:En; [done|]. simplify_eq. cbn [kern emit set_wait set_kern].
      unfold same_at. rewrite happen_note, happen_pending. rewrite !decide_False; [done| |].
      all: intros ->; apply Hf; unfold own_filter; rewrite En; by left.
    + destruct (noti c) as [|fd] eqn:En; [done|]. by destruct (decide (SFd fd ∈ sources s)); simplify_eq.
    + destruct (noti c) as [|fd] eqn:En; [done|].
      pose proof (own_changes c f fd (keeps c) (kern s) fts En Hf) as Hoc.
      destruct (kevent (keeps c) (kern s) (pair_changes fd) fts) as [a k] eqn:Ek. simpl in Hoc.
      by destruct (check_receipts (receipts a)); simplify_eq.
    + simplify_eq. done.
    + simplify_eq. done.
Qed.

Lemma due_same f k k' : same_at f k k' -> due f k -> due f k'.
Proof.
  intros [E1 E2] H n Hn Hp. apply (H n); [congruence|]. apply is_pending_iff. rewrite <- E2. by apply is_pending_iff.
Qed.
Lemma due_happen f k st w : due f k -> (is_Some st -> is_pending k f = false -> w = true) -> due f (happen k f st w).
Proof.
  intros H Hw n Hn Hp. rewrite happen_note, decide_True in Hn by done. rewrite is_pending_iff, happen_pending, decide_True in Hp by done.
  apply fmap_Some in Hn as (n0 & Hn0 & ->). simpl.
  destruct (is_pending k f) eqn:E; [by rewrite (H n0)|]. rewrite Hw by done. apply orb_true_r.
Qed.

Lemma says_snoc f h o : says f h (h ++ [o]) -> quiet f o.
Proof.
  intros [H|(x & H & Hx)].
  - apply (f_equal length) in H. rewrite app_length in H. simpl in H. lia.
  - apply app_inj_tail in H as [_ ->]. done.
Qed.
Lemma news_due c excl s l s' f : inv c s -> ~ own_filter c f -> legal c excl s l -> step c s l = Some s' ->
  news f s s' -> due f (kern s').
Proof.
  intros Hi Hf Hl Hs (o & Ho & Hn).
  destruct (step_at _ _ _ _ _ _ Hi Hf Hl Hs) as [[_ H]|[H|[H|[H|H]]]].
  - exfalso. rewrite Ho in H. apply says_snoc in H as (H1 & H2 & _).
    destruct Hn as [(k & m & Hg)|(st & ->)]; [congruence|by eapply H2].
  - destruct H as (i & cl & n & fts & a & _ & Ek & Hg & Hk & o' & Ho' & Hg').
    rewrite Ho in Ho'. apply app_inj_tail in Ho' as [_ <-].
    destruct Hn as [(k & m & Hgr)|(st & ->)]; [|by rewrite <- Hg' in Hg].
    pose proof (submit_effect c _ _ _ _ _ _ f Hk Ek) as He. rewrite <- Hg', Hgr in He.
    destruct He as (nt & E1 & _ & _ & E4). intros n0 Hn0 Hp. rewrite E1 in Hn0. injection Hn0 as <-. auto.
  - destruct H as (st & w & Ek & Ho' & Hw). rewrite Ho in Ho'. apply app_inj_tail in Ho' as [_ ->].
    destruct Hn as [(k & m & Hgr)|(st' & [= -> ->])]; [done|].
    rewrite Ek. intros n Hn Hp. rewrite happen_note, decide_True in Hn by done.
    apply fmap_Some in Hn as (n0 & _ & ->). simpl. apply orb_true_r.
  - destruct H as (fd & Hfd & Ek & _). intros n Hn1. rewrite Ek, close_note, decide_True in Hn1 by done. done.
  - exfalso. destruct H as (fs & b & _ & _ & _ & Ho' & _). rewrite Ho in Ho'. apply app_inj_tail in Ho' as [_ ->].
    destruct Hn as [(k & m & Hgr)|(st & ?)]; done.
Qed.
Lemma due_step c excl s l s' f : inv c s -> ~ own_filter c f -> legal c excl s l -> step c s l = Some s' ->
  (forall o, log s' = log s ++ [o] -> granted f o = None /\ forall b e, o = Reported b -> (f, e) ∉ b) ->
  due f (kern s) -> due f (kern s').
Proof.
  intros Hi Hf Hl Hs Hq Hd.
  destruct (step_at _ _ _ _ _ _ Hi Hf Hl Hs) as [[H _]|[H|[H|[H|H]]]].
  - by eapply due_same.
  - exfalso. destruct H as (i & cl & n & fts & a & _ & _ & Hg & _ & o & Ho & Hg').
    destruct (Hq o Ho) as [Hq1 _]. congruence.
  - destruct H as (st & w & -> & _ & Hw). by apply due_happen.
  - exfalso. destruct H as (fd & Hfd & _ & Ho). destruct (Hq _ Ho) as [Hq1 _]. cbn [granted] in Hq1.
    by rewrite decide_True in Hq1.
  - exfalso. destruct H as (fs & b & Hin & _ & _ & Ho & Hb). destruct (Hq _ Ho) as [_ Hq2].
    rewrite <- Hb in Hin. apply elem_of_list_fmap in Hin as ([g e] & -> & Hin). by apply (Hq2 b e).
Qed.
Lemma undisturbed_due c excl f s s' : reachable c excl s -> ~ own_filter c f -> undisturbed c excl f s s' ->
  due f (kern s) -> due f (kern s') /\ reachable c excl s'.
Proof.
  intros Hr Hf Hu Hd. induction Hu as [s|s s1 l s2 Hu IH Hl Hs Hq]; [done|].
  destruct (IH Hr Hd) as [Hd1 Hr1]. split; [|by eapply reach_step].
  eapply due_step; try done. by eapply inv_reach.
Qed.

(** *** Receipts *)
Lemma serious_mild x : serious (Receipt EV_ERROR x) = None <-> mild x.
Proof.
  unfold serious, mild. assert (contains EV_ERROR EV_ERROR = true) as E by done. cbn [rc_flags rc_data]. rewrite E. clear E.
  destruct x as [[]|]; split; intros H; try done; auto; by destruct H as [?|[?|?]].
Qed.
Lemma serious_some x e : serious (Receipt EV_ERROR x) = Some e <-> x = Some e /\ ~ mild x.
Proof.
  unfold serious, mild. assert (contains EV_ERROR EV_ERROR = true) as E by done. cbn [rc_flags rc_data]. rewrite E. clear E.
  destruct x as [x|]; [|split; [done|by intros [? _]]].
  split.
  - intros H. assert (x = e) as -> by (destruct x; congruence). split; [done|].
    intros [?|[[= ->]|[= ->]]]; done.
  - intros [[= ->] H]. destruct e; try done; destruct H; auto.
Qed.
Lemma receipts_ok a : check_receipts (receipts a) = Ok tt <-> Forall mild a.
Proof.
  induction a as [|x a IH]; [split; [intros _; by apply Forall_nil|done]|].
  unfold receipts. rewrite map_cons. cbn [check_receipts]. rewrite Forall_cons.
  destruct (serious (Receipt EV_ERROR x)) as [e|] eqn:E.
  - split; [done|]. intros [H _]. apply serious_mild in H. congruence.
  - apply serious_mild in E. rewrite <- IH. unfold receipts. tauto.
Qed.
Lemma receipts_err a r : check_receipts (receipts a) = r -> r <> Ok tt ->
  exists pre e post, r = Err (EOs e) /\ a = pre ++ Some e :: post /\ Forall mild pre /\ ~ mild (Some e).
Proof.
  induction a as [|x a IH]; intros E H; [by simpl in E|].
  unfold receipts in E. rewrite map_cons in E. cbn [check_receipts] in E.
  destruct (serious (Receipt EV_ERROR x)) as [e|] eqn:Es.
  - apply serious_some in Es as [-> Hm]. exists [], e, a. split; [done|]. split; [done|]. split; [|done]. by apply Forall_nil.
  - apply serious_mild in Es. destruct (IH E H) as (pre & e & post & -> & -> & Hp & Hm).
    exists (x :: pre), e, post. split; [done|]. split; [done|]. split; [|done]. by apply Forall_cons.
Qed.
