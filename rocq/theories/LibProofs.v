(** Proofs about [LibModel]. *)
From Coq Require Import NArith ZArith Bool List Lia.
From Verif Require Import Types TimeModel TimeSpec TimeProofs LibModel LibSpec.
Import ListNotations.
Open Scope N_scope.

Lemma reserved_iff k : reserved k <-> (k =? NOTIFY_KEY) = true.
Proof. unfold reserved. rewrite N.eqb_eq. reflexivity. Qed.

Lemma not_reserved_iff k : ~ reserved k <-> (k =? NOTIFY_KEY) = false.
Proof. rewrite reserved_iff. destruct (k =? NOTIFY_KEY); split; congruence. Qed.

Section Reg.
  Context {S F X : Type} (b : backend S F X).
  Lemma add_reserved s src e mode : reserved (ev_key e) ->
    exists er, lib_add_with_mode b s src e mode = (Err er, s) /\ kind er = KInvalidInput /\
    lib_modify_with_mode b s src e mode = (Err er, s) /\
    lib_add b s src e = (Err er, s) /\ lib_modify b s src e = (Err er, s).
  Proof.
    rewrite reserved_iff. intros H.
    unfold lib_add, lib_modify, lib_add_with_mode, lib_modify_with_mode. rewrite H.
    eexists; repeat split.
  Qed.
  Lemma add_forward s src e mode : ~ reserved (ev_key e) ->
    lib_add_with_mode b s src e mode = b_add b s src e mode /\
    lib_modify_with_mode b s src e mode = b_modify b s src e mode /\
    lib_add b s src e = b_add b s src e Oneshot /\
    lib_modify b s src e = b_modify b s src e Oneshot /\
    lib_delete b s src = b_delete b s src.
  Proof.
    rewrite not_reserved_iff. intros H.
    unfold lib_add, lib_modify, lib_add_with_mode, lib_modify_with_mode. rewrite H.
    repeat split.
  Qed.
End Reg.

Lemma iter_seen {X} (c : container X) : seen c (ev_iter c).
Proof.
  induction c as [|e c IH]; cbn; [constructor|].
  destruct (ev_key e =? NOTIFY_KEY) eqn:E; cbn.
  - apply seen_marker; [apply reserved_iff; exact E|exact IH].
  - apply seen_user; [apply not_reserved_iff; exact E|exact IH].
Qed.

Lemma seen_functional {X} (c l1 l2 : list (event X)) : seen c l1 -> seen c l2 -> l1 = l2.
Proof.
  intros H. revert l2. induction H; intros l2 H2; inversion H2; subst; try contradiction; auto.
  f_equal. auto.
Qed.

Lemma iter_iff {X} (c l : list (event X)) : ev_iter c = l <-> seen c l.
Proof.
  split; [intros <-; apply iter_seen|].
  intros H. exact (seen_functional c _ _ (iter_seen c) H).
Qed.

Lemma len_seen {X} (c l : list (event X)) : seen c l -> ev_len c = N.of_nat (length l).
Proof. intros H. apply iter_iff in H. subst. reflexivity. Qed.

Lemma empty_seen {X} (c : list (event X)) : ev_is_empty c = true <-> seen c [].
Proof.
  unfold ev_is_empty, ev_len. rewrite N.eqb_eq. rewrite <- iter_iff.
  destruct (ev_iter c); cbn; split; intros; try reflexivity; try discriminate; lia.
Qed.

Lemma seen_in {X} (c l : list (event X)) : seen c l ->
  forall e, In e l <-> In e c /\ ~ reserved (ev_key e).
Proof.
  induction 1 as [|e c l Hr H IH|e c l Hr H IH]; intros x; cbn.
  - tauto.
  - rewrite IH. split; [intros [->|[? ?]]; tauto|intros [[->|?] ?]; tauto].
  - rewrite IH. split; [tauto|]. intros [[->|?] ?]; tauto.
Qed.

(** *** wait *)

Lemma wait_returns_len {X} dl (ats : list (attempt X)) : forall c nf n,
  wo_res (wait_loop dl ats c nf) = Some (Ok n) ->
  n = ev_len (wo_events (wait_loop dl ats c nf)) /\ wo_notified (wait_loop dl ats c nf) = false.
Proof.
  induction ats as [|a ats IH]; intros c nf n; cbn; [discriminate|].
  destruct (at_run a c (time_left dl (at_now a))) as [[u|e|] c'] eqn:E; cbn.
  - intros H. injection H as <-. split; reflexivity.
  - destruct (is_interrupted e) eqn:Ei; cbn; [apply IH|discriminate].
  - discriminate.
Qed.

Lemma is_interrupted_iff e : is_interrupted e = true <-> kind e = KInterrupted.
Proof. unfold is_interrupted. destruct (kind e); split; congruence. Qed.

Lemma wait_never_interrupted {X} dl (ats : list (attempt X)) : forall c nf e,
  wo_res (wait_loop dl ats c nf) = Some (Err e) ->
  kind e <> KInterrupted /\ wo_notified (wait_loop dl ats c nf) = nf.
Proof.
  induction ats as [|a ats IH]; intros c nf e; cbn; [discriminate|].
  destruct (at_run a c (time_left dl (at_now a))) as [[u|e'|] c'] eqn:E; cbn.
  - discriminate.
  - destruct (is_interrupted e') eqn:Ei; cbn; [apply IH|].
    intros H. injection H as <-. split; [|reflexivity].
    intros Hk. apply is_interrupted_iff in Hk. congruence.
  - discriminate.
Qed.

Lemma wait_error_from {X} dl (ats : list (attempt X)) : forall c nf e,
  wo_res (wait_loop dl ats c nf) = Some (Err e) ->
  exists before a after c0, ats = before ++ a :: after /\
    at_run a c0 (time_left dl (at_now a)) = (Err e, wo_events (wait_loop dl ats c nf)) /\
    (before = [] -> c0 = c) /\ (before <> [] -> seen c0 []).
Proof.
  induction ats as [|a ats IH]; intros c nf e; cbn; [discriminate|].
  destruct (at_run a c (time_left dl (at_now a))) as [[u|e'|] c'] eqn:E; cbn.
  - discriminate.
  - destruct (is_interrupted e') eqn:Ei; cbn.
    + intros H. destruct (IH _ _ _ H) as (b & x & r & c0 & Ea & Er & E0 & E1).
      exists (a :: b), x, r, c0. split; [rewrite Ea; reflexivity|]. split; [exact Er|].
      split; [discriminate|]. intros _. destruct b; [rewrite (E0 eq_refl); constructor|apply E1; discriminate].
    + intros H. injection H as <-. exists [], a, ats, c. repeat split; [exact E|].
      intros H; destruct (H eq_refl).
  - discriminate.
Qed.

Lemma wait_skips_interruptions {X} dl (ints : list (attempt X)) rest : forall c nf,
  (forall a, In a ints -> interrupted a) ->
  let start := match ints with [] => c | _ => [] end in
  wo_res (wait_loop dl (ints ++ rest) c nf) = wo_res (wait_loop dl rest start nf) /\
  wo_events (wait_loop dl (ints ++ rest) c nf) = wo_events (wait_loop dl rest start nf) /\
  wo_notified (wait_loop dl (ints ++ rest) c nf) = wo_notified (wait_loop dl rest start nf) /\
  wo_timeouts (wait_loop dl (ints ++ rest) c nf)
    = map (fun a => time_left dl (at_now a)) ints ++ wo_timeouts (wait_loop dl rest start nf).
Proof.
  induction ints as [|a ints IH]; intros c nf Hi; cbn zeta.
  - repeat split.
  - cbn [app wait_loop map].
    destruct (Hi a (or_introl eq_refl) c (time_left dl (at_now a))) as (e & c' & -> & Hk).
    apply is_interrupted_iff in Hk. rewrite Hk. cbn [wo_res wo_events wo_notified wo_timeouts].
    unfold ev_clear. specialize (IH [] nf (fun x Hx => Hi x (or_intror Hx))). cbn zeta in IH.
    replace (match ints with [] => [] | _ :: _ => [] end) with (@nil (event X)) in IH
      by (destruct ints; reflexivity).
    destruct IH as (H1 & H2 & H3 & H4). rewrite H1, H2, H3, H4. repeat split.
Qed.

Lemma wait_timeouts {X} dl (ats : list (attempt X)) : forall c nf i t,
  nth_error (wo_timeouts (wait_loop dl ats c nf)) i = Some t ->
  exists a, nth_error ats i = Some a /\ t = time_left dl (at_now a).
Proof.
  induction ats as [|a ats IH]; intros c nf i t; cbn.
  - destruct i; discriminate.
  - destruct (at_run a c (time_left dl (at_now a))) as [[u|e'|] c'] eqn:E; cbn;
      [| destruct (is_interrupted e') eqn:Ei; cbn|];
      (destruct i as [|i]; cbn; [intros H; injection H as <-; exists a; split; reflexivity|]);
      try apply IH; destruct i; discriminate.
Qed.

Lemma wait_one_deadline {X} imax start d (ats : list (attempt X)) c nf i t :
  wf_duration d ->
  nth_error (wo_timeouts (lib_wait imax false start (Some d) ats c nf)) i = Some t ->
  exists a, nth_error ats i = Some a /\
    match t with
    | None => (imax < start + ns d)%Z
    | Some l => ns l = remaining start d (at_now a)
    end.
Proof.
  intros Hd H. unfold lib_wait in H.
  destruct (wait_timeouts _ _ _ _ _ _ H) as (a & Ha & Ht). exists a. split; [exact Ha|].
  destruct (deadline_of imax start (Some d)) as [dl|] eqn:E.
  - destruct (time_left_exact imax start d dl (at_now a) Hd E) as (l & Hl & Hn).
    rewrite Hl in Ht. subst t. exact Hn.
  - cbn in Ht. subst t. cbn in E. unfold checked_add in E.
    destruct (start + dur_nanos d <=? imax)%Z eqn:E2; [discriminate|].
    apply Z.leb_gt in E2. exact E2.
Qed.

Lemma wait_no_timeout {X} imax start (ats : list (attempt X)) c nf i t :
  nth_error (wo_timeouts (lib_wait imax false start None ats c nf)) i = Some t -> t = None.
Proof.
  intros H. unfold lib_wait in H.
  destruct (wait_timeouts _ _ _ _ _ _ H) as (a & Ha & Ht). exact Ht.
Qed.

Lemma clock_ok_le {X} start (ats : list (attempt X)) : clock_ok start ats ->
  forall i a, nth_error ats i = Some a -> (start <= at_now a)%Z.
Proof.
  revert start. induction ats as [|x ats IH]; intros start H i a; destruct i; cbn; try discriminate.
  - intros E. injection E as <-. exact (proj1 H).
  - intros E. destruct H as [H1 H2]. pose proof (IH _ H2 i a E). lia.
Qed.

Lemma clock_ok_mono {X} start (ats : list (attempt X)) : clock_ok start ats ->
  forall i j a b, (i <= j)%nat -> nth_error ats i = Some a -> nth_error ats j = Some b ->
  (at_now a <= at_now b)%Z.
Proof.
  revert start. induction ats as [|x ats IH]; intros start H i j a b Hij;
    destruct i; cbn; try discriminate.
  - intros E. injection E as <-. destruct j; cbn.
    + intros E. injection E as <-. lia.
    + intros E. destruct H as [H1 H2]. exact (clock_ok_le _ _ H2 _ _ E).
  - destruct j; [lia|]. cbn. intros Ea Eb. destruct H as [H1 H2].
    exact (IH _ H2 i j a b ltac:(lia) Ea Eb).
Qed.

Lemma wait_timeouts_shrink {X} imax start d (ats : list (attempt X)) c nf i j ti tj :
  wf_duration d -> clock_ok start ats -> (i <= j)%nat ->
  nth_error (wo_timeouts (lib_wait imax false start (Some d) ats c nf)) i = Some (Some ti) ->
  nth_error (wo_timeouts (lib_wait imax false start (Some d) ats c nf)) j = Some (Some tj) ->
  (ns tj <= ns ti <= ns d)%Z.
Proof.
  intros Hd Hc Hij Hi Hj.
  destruct (wait_one_deadline _ _ _ _ _ _ _ _ Hd Hi) as (a & Ha & Hta).
  destruct (wait_one_deadline _ _ _ _ _ _ _ _ Hd Hj) as (b & Hb & Htb).
  pose proof (clock_ok_le _ _ Hc _ _ Ha). pose proof (clock_ok_mono _ _ Hc _ _ _ _ Hij Ha Hb).
  unfold remaining in *. assert (0 <= ns d)%Z by (unfold ns; destruct Hd; lia). lia.
Qed.

(** a non-interrupted final attempt decides the call *)
Lemma wait_decided {X} dl (ints : list (attempt X)) (a : attempt X) rest c nf r c' :
  (forall x, In x ints -> interrupted x) ->
  at_run a (match ints with [] => c | _ => [] end) (time_left dl (at_now a)) = (r, c') ->
  (forall e, r = Err e -> kind e <> KInterrupted) ->
  let o := wait_loop dl (ints ++ a :: rest) c nf in
  wo_events o = c' /\
  match r with
  | Ok _ => wo_res o = Some (Ok (ev_len c')) /\ wo_notified o = false
  | Err e => wo_res o = Some (Err e) /\ wo_notified o = nf
  | Panic => wo_res o = Some Panic
  end.
Proof.
  intros Hi Hr Hk o. subst o.
  destruct (wait_skips_interruptions dl ints (a :: rest) c nf Hi) as (H1 & H2 & H3 & _).
  cbn zeta in *. rewrite H1, H2, H3. cbn [wait_loop].
  replace (at_run a _ (time_left dl (at_now a))) with (r, c') by (destruct ints; symmetry; exact Hr).
  destruct r as [u|e|]; cbn; [repeat split| |split; reflexivity].
  destruct (is_interrupted e) eqn:Ei.
  - apply is_interrupted_iff in Ei. destruct (Hk e eq_refl Ei).
  - cbn. repeat split.
Qed.
