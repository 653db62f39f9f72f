(** C111: the documentation of [Signal] says that it is one-shot whatever the mode (src/os/kqueue.rs:144-147). *)
From stdpp Require Import prelude list gmap.
From Verif Require Import Bits Types EventModel EventSpec EventProofs KqueueModel KqueueSpec KqueueProofs
  KqueueProofs2 KqueueProofs3 KqueueProofs4 KqueueProofs5 KqueueProofs6 KqueueProofs7 KqueueProofs8 KqueueProofs9 KqueueProps.
Local Open Scope nat_scope.

(** ** Specification *)
(** Filters of the extension trait: signals, processes, timers. *)
Definition extension_filter (f : kq_filter) : Prop := exists u, f = filter_of u.
(** Something happened to the filter. *)
Definition occurrence (f : kq_filter) (o : obs) : Prop := exists fl w, o = Happened f (Some fl) w.
(** The mode in which a call asks for the signal. *)
Definition asks_signal (n : N) (o : obs) (m : poll_mode) : Prop :=
  exists i k, o = Called i (CAddFilter (USignal n) k m) \/ o = Called i (CModifyFilter (USignal n) k m).

(** ** Proofs *)
Lemma register_none ks k ch ft a k' f : register ks k ch ft = (a, k') -> ch_trigger ch = false ->
  pending k !! f = None -> pending k' !! f = None.
Proof.
  unfold register. intros H Ht Hp. destruct ft; [by simplify_eq|]. rewrite Ht in H.
  repeat case_match; simplify_eq/=; try done. apply lookup_delete_None. by right.
Qed.
Lemma kevent_none ks k chs fts a k' f : kevent ks k chs fts = (a, k') -> Forall (fun ch => ch_trigger ch = false) chs ->
  pending k !! f = None -> pending k' !! f = None.
Proof.
  revert k fts a k'. induction chs as [|ch chs IH]; intros k fts a k' H HF Hp; simpl in H; [by simplify_eq|].
  apply Forall_cons in HF as [Hc HF].
  destruct (register ks k ch (default None (head fts))) as [x k1] eqn:E1.
  destruct (kevent ks k1 chs (tail fts)) as [l k2] eqn:E2. simplify_eq.
  eapply IH; [exact E2|done|]. by eapply register_none.
Qed.
Lemma extension_clear f m : extension_filter f -> intersects (nflags f m) EV_CLEAR = true /\ counting f = true.
Proof. intros ([n|p o|i t] & ->); split; destruct m; by vm_compute. Qed.
Lemma extension_not_own c f : extension_filter f -> ~ own_filter c f.
Proof. intros ([n|p o|i t] & ->); unfold own_filter; destruct (noti c); simpl; [done|intros [?|?]; done|done|intros [?|?]; done|done|intros [?|?]; done]. Qed.
Lemma occurrence_dec f o : Decision (occurrence f o).
Proof.
  destruct o as [| | | |g st w| | | | | | |]; try (right; intros (? & ? & ?); discriminate).
  destruct (decide (g = f)) as [->|]; [|right; intros (? & ? & ?); congruence].
  destruct st; [left; do 2 eexists; reflexivity|right; intros (? & ? & ?); congruence].
Defined.

Lemma report_empties c excl s l s' b f : reachable c excl s -> step c s l = Some s' ->
  log s' = log s ++ [Reported b] -> f ∈ b.*1 -> extension_filter f -> pending (kern s') !! f = None.
Proof.
  intros Hr Hs E Hin Hx. pose proof (extension_not_own c f Hx) as Hf. pose proof (inv_reach _ _ _ Hr) as Hi.
  destruct (report_step _ _ _ _ _ Hs E) as (sl & max & fs & _ & _ & Hm & _ & -> & ->).
  apply may_report_spec in Hm as (Hnd & Hrep & _). rewrite reports_fst in Hin.
  destruct (consumes_in (kern s) fs f Hnd Hin) as [_ ->].
  apply Hrep, reportable_spec in Hin as (n & Hn & _). pose proof (iv_note _ _ Hi f Hf) as Hok.
  rewrite Hn in Hok. destruct (armed (keeps c) f (log s)) as [[k m]|]; [|done].
  destruct Hok as (n' & [= <-] & _ & Hfl). destruct (extension_clear f m Hx) as [Hc Hco].
  unfold consume. rewrite Hn, Hfl, Hc, Hco, orb_true_r. simpl.
  destruct (intersects (nflags f m) EV_ONESHOT); simpl; apply lookup_delete.
Qed.
Lemma stays_empty c excl s l s' f : reachable c excl s -> legal c excl s l -> step c s l = Some s' -> extension_filter f ->
  (forall o, log s' = log s ++ [o] -> ~ occurrence f o) -> pending (kern s) !! f = None -> pending (kern s') !! f = None.
Proof.
  intros Hr Hl Hs Hx Hno Hp. pose proof (extension_not_own c f Hx) as Hf. pose proof (inv_reach _ _ _ Hr) as Hi.
  destruct (step_at _ _ _ _ _ _ Hi Hf Hl Hs) as [[[_ ->] _]|[H1|[H1|[H1|H1]]]]; [done|..].
  - destruct H1 as (i & cl & n & fts & a & _ & Hk & _). eapply kevent_none; [exact Hk| |exact Hp].
    destruct (call_changes c cl) as [chs|] eqn:Ec; simpl; [|rewrite take_nil; constructor].
    by apply Forall_take, (call_untriggered _ _ _ Ec).
  - destruct H1 as (st & w & -> & E & _). rewrite happen_pending, decide_True by done.
    destruct st as [fl|]; [|done]. exfalso. apply (Hno _ E). by exists fl, w.
  - destruct H1 as (fd & _ & -> & _). rewrite close_pending. by case_decide.
  - destruct H1 as (fs & b & Hin & _ & _ & E & Hb). eapply report_empties; [exact Hr|exact Hs|exact E|by rewrite Hb|done].
Qed.
Lemma empty_since c excl s f : reachable c excl s -> extension_filter f -> forall h1 b h2 e,
  log s = h1 ++ Reported b :: h2 -> (f, e) ∈ b -> Forall (fun o => ~ occurrence f o) h2 -> pending (kern s) !! f = None.
Proof.
  intros Hr Hx. induction Hr as [n|s l s' Hr IH Hl Hs]; intros h1 b h2 e E Hin HF.
  - exfalso. assert (log (init c n) = []) as E0 by (unfold init; by destruct (noti c)). rewrite E0 in E. by destruct h1.
  - destruct (log_grows _ _ _ _ Hs) as [El|[x El]].
    + eapply stays_empty; try done; [|eapply IH; [by rewrite <- El|done|done]].
      intros o Ho. rewrite Ho in El. apply (f_equal length) in El. rewrite app_length in El. simpl in El. lia.
    + rewrite El in E. destruct h2 as [|y h2 _] using rev_ind.
      * apply app_inj_tail in E as [E ->]. eapply report_empties; try done. apply elem_of_list_fmap. by exists (f, e).
      * change (h1 ++ Reported b :: h2 ++ [y]) with (h1 ++ (Reported b :: h2) ++ [y]) in E.
        rewrite app_assoc in E. apply app_inj_tail in E as [E ->]. apply Forall_app in HF as [HF HFy].
        apply Forall_cons in HFy as [HFy _]. eapply stays_empty; try done; [|by eapply IH].
        intros o Ho. rewrite El in Ho. apply app_inj_tail in Ho as [_ <-]. exact HFy.
Qed.

(** ** C111 *)
(** Between two events about the same signal, process or timer something new has happened to it, whatever the mode. *)
Theorem C111_new_occurrence c excl s f h1 b1 h2 b2 h3 e1 e2 : reachable c excl s -> extension_filter f ->
  log s = h1 ++ Reported b1 :: h2 ++ Reported b2 :: h3 -> (f, e1) ∈ b1 -> (f, e2) ∈ b2 ->
  exists o, o ∈ h2 /\ occurrence f o.
Proof.
  intros Hr Hx E H1 H2. pose proof (occurrence_dec f) as Hdec.
  destruct (Forall_Exists_dec (fun o => ~ occurrence f o) (occurrence f)) with (l := h2) as [HF|HE].
  { intros x. destruct (Hdec x); [right|left]; tauto. }
  2:{ apply Exists_exists in HE as (o & Ho & Hno). eauto. }
  exfalso. change (Reported b1 :: h2 ++ Reported b2 :: h3) with ((Reported b1 :: h2) ++ Reported b2 :: h3) in E. rewrite app_assoc in E.
  destruct (reported_at _ _ _ _ _ _ Hr E) as (s1 & s2 & sl & max & fs & Hr1 & E1 & _ & _ & Hm & -> & _).
  apply in_reports in H2 as [H2 _]. apply may_report_spec in Hm as (_ & Hrep & _).
  apply Hrep, reportable_spec in H2 as (n & _ & _ & Hp). apply is_pending_iff in Hp as [fl Hp].
  rewrite (empty_since c excl s1 f Hr1 Hx _ _ _ _ E1 H1 HF) in Hp. done.
Qed.
(** One-shot, if every call asks for it in a one-shot mode. *)
Theorem C111_oneshot_modes_partial c excl s n h1 b1 h2 b2 h3 e1 e2 : reachable c excl s ->
  (forall o m, o ∈ log s -> asks_signal n o m -> m = Oneshot \/ m = EdgeOneshot) ->
  log s = h1 ++ Reported b1 :: h2 ++ Reported b2 :: h3 -> (FSignal n, e1) ∈ b1 -> (FSignal n, e2) ∈ b2 ->
  exists o', o' ∈ h2 /\ arms (FSignal n) o'.
Proof.
  intros Hr Hm E H1 H2. eapply (C47_always_oneshot c excl s h1); try done.
  { apply extension_not_own. by exists (USignal n). }
  apply Forall_forall. intros o Ho k m Hg.
  destruct (granted_called c excl s (FSignal n) o (k, m) Hr) as (i & cl & Hc & Ha & _); [|done|].
  { rewrite E. apply elem_of_app. by left. }
  apply (Hm _ m Hc). unfold asks_signal. exists i, k.
  destruct cl as [fd ev md|fd ev md|fd|u k' m'|u k' m'|u]; simpl in Ha; unfold wants in Ha; repeat case_decide; simplify_eq; try done.
  all: destruct u; simplify_eq/=; auto.
Qed.
(** The documented behaviour, for every mode: refuted.  The signal is added once, with [Level]; it occurs twice and is delivered twice. *)
Theorem C111_signal_repeats_refuted : exists c s n h1 b1 h2 b2 e1 e2,
  reachable c true s /\ log s = h1 ++ Reported b1 :: h2 ++ [Reported b2] /\ (FSignal n, e1) ∈ b1 /\ (FSignal n, e2) ∈ b2 /\
  (exists i k m, Returned i (CAddFilter (USignal n) k m) (Ok tt) ∈ h1) /\
  (forall i k m o, o ∈ h2 -> o <> Called i (CAddFilter (USignal n) k m) /\ o <> Called i (CModifyFilter (USignal n) k m)) /\
  forall o, o ∈ h2 -> ~ arms (FSignal n) o.
Proof.
  runs freebsd true 1
    ([LThread 0 (Call (CAddFilter (USignal 2) 7 Level)); go 0; go 0; LThread 0 (Kernel_ok []); go 0;
      LHappen (FSignal 2) (Some 0%N) true; LWait true 8; LReport [FSignal 2]; LWaitGo [];
      LHappen (FSignal 2) (Some 0%N) true; LWait true 8; LReport [FSignal 2]]) s Hr Hl E.
  exists freebsd, s, 2%N. rewrite Hl. eexists [_; _; _; _; _], _, [_; _; _], _, _, _.
  split; [done|]. split; [vm_compute; reflexivity|]. split; [left|]. split; [left|].
  split; [do 3 eexists; do 2 right; left|]. split.
  - intros i k m o Ho. repeat (apply elem_of_cons in Ho as [->|Ho]; [done|]). by apply elem_of_nil in Ho.
  - intros o Ho (k & m & Hg). repeat (apply elem_of_cons in Ho as [->|Ho]; [done|]). by apply elem_of_nil in Ho.
Qed.
(** A timer that expires twice is delivered twice, with the expiry in between. *)
Example C111_occurrence_case : exists s h1 b1 h2 b2 e1 e2, reachable freebsd true s /\ extension_filter (FTimer 5) /\
  log s = h1 ++ Reported b1 :: h2 ++ [Reported b2] /\ (FTimer 5, e1) ∈ b1 /\ (FTimer 5, e2) ∈ b2.
Proof.
  runs freebsd true 1
    ([LThread 0 (Call (CAddFilter (UTimer 5 100) 7 Level)); go 0; go 0; LThread 0 (Kernel_ok []); go 0;
      LHappen (FTimer 5) (Some 0%N) true; LWait true 8; LReport [FTimer 5]; LWaitGo [];
      LHappen (FTimer 5) (Some 0%N) true; LWait true 8; LReport [FTimer 5]]) s Hr Hl E.
  exists s. rewrite Hl. eexists [_; _; _; _; _], _, [_; _; _], _, _, _. split; [done|]. split; [by exists (UTimer 5 100)|].
  split; [vm_compute; reflexivity|]. split; left.
Qed.
(** A signal that is always asked for with [Oneshot], and is added again in between by modify_filter. *)
Example C111_oneshot_case : exists s h1 b1 h2 b2 e1 e2, reachable freebsd true s /\
  (forall o m, o ∈ log s -> asks_signal 2 o m -> m = Oneshot \/ m = EdgeOneshot) /\
  log s = h1 ++ Reported b1 :: h2 ++ [Reported b2] /\ (FSignal 2, e1) ∈ b1 /\ (FSignal 2, e2) ∈ b2.
Proof.
  runs freebsd true 1
    ([LThread 0 (Call (CAddFilter (USignal 2) 7 Oneshot)); go 0; go 0; LThread 0 (Kernel_ok []); go 0;
      LHappen (FSignal 2) (Some 0%N) true; LWait true 8; LReport [FSignal 2]; LWaitGo [];
      LThread 0 (Call (CModifyFilter (USignal 2) 9 EdgeOneshot)); go 0; LThread 0 (Kernel_ok []); go 0;
      LHappen (FSignal 2) (Some 0%N) true; LWait true 8; LReport [FSignal 2]]) s Hr Hl E.
  exists s. rewrite Hl. eexists [_; _; _; _; _], _, [_; _; _; _; _; _], _, _, _. split; [done|]. split.
  { intros o m Ho (i & k & Ha). repeat (apply elem_of_cons in Ho as [->|Ho]; [destruct Ha as [Ha|Ha]; try done; injection Ha as ? ? ?; subst; auto|]).
    by apply elem_of_nil in Ho. }
  split; [vm_compute; reflexivity|]. split; left.
Qed.

Print Assumptions C111_new_occurrence.
Print Assumptions C111_oneshot_modes_partial.
Print Assumptions C111_signal_repeats_refuted.
