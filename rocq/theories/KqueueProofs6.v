(** Proofs about the kqueue model: results of calls, and the notifier. *)
From stdpp Require Import prelude list gmap.
From Verif Require Import Bits Types EventModel EventSpec EventProofs KqueueModel KqueueSpec KqueueProofs
  KqueueProofs2 KqueueProofs3 KqueueProofs4 KqueueProofs5.
Local Open Scope nat_scope.

(** *** Results *)
Definition at_reply (i : nat) (p : pc) (h : list obs) : Prop :=
  match p with
  | PInsert cl | PHas cl | PSubmit cl => last_reply i h = None
  | PRemove cl => deletes cl = true /\ exists a, last_reply i h = Some (VAnswers a) /\ Forall mild a
  | PRet cl r => result_of cl (last_reply i h) r
  | _ => True
  end.
Lemma last_reply_snoc i h o : last_reply i (h ++ [o]) = reply i (last_reply i h) o.
Proof. unfold last_reply. by rewrite fold_left_app. Qed.
Lemma at_reply_snoc i p h o : reply i (last_reply i h) o = last_reply i h -> at_reply i p h -> at_reply i p (h ++ [o]).
Proof. intros E. unfold at_reply. by rewrite last_reply_snoc, E. Qed.

Lemma at_reply_reach c excl s : reachable c excl s -> forall i p, threads s !! i = Some p -> at_reply i p (log s).
Proof.
  induction 1 as [n|s l s' Hr IH Hl Hs]; intros i0 p0 Hp0.
  { assert (threads (init c n) = replicate n Idle) as E by (unfold init; by destruct (noti c)).
    rewrite E in Hp0. by apply lookup_replicate in Hp0 as [-> _]. }
  (* steps of others *)
  assert (Hother : threads s !! i0 = Some p0 -> (log s' = log s \/ exists o, log s' = log s ++ [o] /\
            forall st, reply i0 st o = st) -> at_reply i0 p0 (log s')).
  { intros H [->|(o & -> & Ho)]; [by apply IH|]. apply at_reply_snoc; [apply Ho|by apply IH]. }
  destruct l as [i a|f st w|fd|sl max|fs|e|fts]; cbn [step] in Hs.
  - destruct (threads s !! i) as [p|] eqn:Ep; [|done].
    destruct (decide (i0 = i)) as [->|Hne].
    + assert (Hlt : i < length (threads s)) by (by eapply lookup_lt_Some).
      pose proof (IH i p Ep) as Hp.
      destruct p as [|cl|cl|cl|cl|cl r| |], a as [cl'| | |fts|n fts e]; cbn [thread_step] in Hs; try done.
      * simplify_eq. simpl in Hp0. rewrite list_lookup_insert in Hp0 by done. injection Hp0 as <-.
        assert (last_reply i (log s ++ [Called i cl']) = None) as E.
        { rewrite last_reply_snoc. cbn [reply]. by rewrite decide_True. }
        destruct cl' as [fd e m|fd e m|fd|u k m|u k m|u]; cbn [entry]; try done.
        destruct (call_changes c (CDeleteFilter u)); cbn [at_reply]; [done|]. simpl log. rewrite E. simpl. auto.
      * simplify_eq. simpl in Hp0. rewrite list_lookup_insert in Hp0 by done. injection Hp0 as <-. done.
      * simpl in Hp. destruct (decide (call_source cl ∈ sources s)); simplify_eq; simpl in Hp0;
          rewrite list_lookup_insert in Hp0 by done; injection Hp0 as <-; simpl; [|done].
        rewrite Hp. simpl. auto.
      * simpl in Hp. destruct (decide (call_source cl ∈ sources s)); simplify_eq; simpl in Hp0;
          rewrite list_lookup_insert in Hp0 by done; injection Hp0 as <-; simpl.
        -- destruct (call_changes c cl); simpl; [done|]. rewrite Hp. simpl. auto.
        -- rewrite Hp. simpl. auto.
      * destruct (kevent _ _ _ _) as [a k]. simplify_eq. simpl in Hp0. rewrite list_lookup_insert in Hp0 by done.
        injection Hp0 as <-. simpl log.
        assert (last_reply i (log s ++ [Answered i cl a]) = Some (VAnswers a)) as E.
        { rewrite last_reply_snoc. cbn [reply]. by rewrite decide_True. }
        assert (check_receipts (receipts a) = Ok tt \/ check_receipts (receipts a) <> Ok tt) as [Eok|Enok].
        { destruct (check_receipts (receipts a)) as [[]| |]; auto. }
        -- rewrite Eok. apply receipts_ok in Eok. cbn [after_submit]. destruct (deletes cl) eqn:Ed; cbn [at_reply]; rewrite E.
           ++ split; [done|]. eauto.
           ++ left. auto.
        -- destruct (receipts_err a _ eq_refl Enok) as (pre & e & post & -> & Ea & H1 & H2).
           cbn [after_submit at_reply]. rewrite E. right. exists pre, e, post. done.
      * destruct (kevent _ _ _ _) as [a k]. simplify_eq. simpl in Hp0. rewrite list_lookup_insert in Hp0 by done.
        injection Hp0 as <-. simpl. rewrite last_reply_snoc. cbn [reply]. by rewrite decide_True.
      * simpl in Hp. destruct Hp as (Hd & a & Ha & Hm). simplify_eq. simpl in Hp0. rewrite list_lookup_insert in Hp0 by done.
        injection Hp0 as <-. simpl. rewrite Ha. simpl. left. split; [done|].
        destruct (decide (call_source cl ∈ sources s)); auto.
      * simplify_eq. simpl in Hp0. rewrite list_lookup_insert in Hp0 by done. by injection Hp0 as <-.
      * simplify_eq. simpl in Hp0. rewrite list_lookup_insert in Hp0 by done. by injection Hp0 as <-.
      * destruct (noti c); simplify_eq; simpl in Hp0; rewrite list_lookup_insert in Hp0 by done; by injection Hp0 as <-.
      * simplify_eq. simpl in Hp0. rewrite list_lookup_insert in Hp0 by done. by injection Hp0 as <-.
    + assert (Hp1 : threads s !! i0 = Some p0).
      { clear Hother IH. destruct p as [|cl|cl|cl|cl|cl r| |], a as [cl'| | |fts|n fts e]; cbn [thread_step] in Hs; try done.
        all: try (destruct (kevent _ _ _ _)). all: try (destruct (decide _)).
        all: try (match goal with H : context [noti ?x] |- _ => destruct (noti x) end).
        all: simplify_eq; simpl in Hp0; rewrite list_lookup_insert_ne in Hp0 by done; done. }
      apply Hother; [done|]. clear Hother IH.
      destruct p as [|cl|cl|cl|cl|cl r| |], a as [cl'| | |fts|n fts e]; cbn [thread_step] in Hs; try done.
      all: try (destruct (kevent _ _ _ _)). all: try (destruct (decide _)).
      all: try (match goal with H : context [noti ?x] |- _ => destruct (noti x) end).
      all: simplify_eq; first [left; reflexivity|right; eexists; split; [reflexivity|]; intros st; cbn [reply]; try (rewrite decide_False by done); reflexivity].
  - simplify_eq. apply Hother; [done|]. right. eexists. split; [reflexivity|done].
  - simplify_eq. apply Hother; [done|]. right. eexists. split; [reflexivity|done].
  - destruct (wait s); simplify_eq. apply Hother; [done|]. right. eexists. split; [reflexivity|done].
  - destruct (wait s); try done. destruct (_ && _); simplify_eq. apply Hother; [done|]. right. eexists. split; [reflexivity|done].
  - destruct (wait s), e; simplify_eq; (apply Hother; [done|]);
      first [left; reflexivity|right; eexists; split; [reflexivity|done]].
  - unfold wait_step in Hs. destruct (wait s); try done; try (destruct (noti c)); try done.
    all: try (destruct (decide _)). all: try (destruct (kevent _ _ _ _); destruct (check_receipts _)).
    all: simplify_eq; (apply Hother; [done|]);
      first [left; reflexivity|right; eexists; split; [reflexivity|done]].
Qed.

Lemma return_at c excl s h i cl r h' : reachable c excl s -> log s = h ++ Returned i cl r :: h' ->
  exists s1, reachable c excl s1 /\ log s1 = h /\ threads s1 !! i = Some (PRet cl r).
Proof.
  intros Hr E. destruct (log_step _ _ _ _ _ _ Hr E) as (s1 & l & s2 & Hr1 & Hl & Hs & E1 & E2).
  exists s1. split; [done|]. split; [done|]. rewrite <- E1 in E2. clear E E1.
  assert (Hno : log s2 = log s1 -> False).
  { intros E. rewrite E in E2. apply (f_equal length) in E2. rewrite app_length in E2. simpl in E2. lia. }
  assert (Hone : forall x, log s2 = log s1 ++ [x] -> x = Returned i cl r).
  { intros x E. rewrite E in E2. by apply app_inj_tail in E2 as [_ E2]. }
  destruct l as [j a|f st w|fd|sl max|fs|e|fts]; cbn [step] in Hs.
  - destruct (threads s1 !! j) as [p|] eqn:Ep; [|done].
    destruct p as [|cl0|cl0|cl0|cl0|cl0 r0| |], a as [cl'| | |fts|n fts e]; cbn [thread_step] in Hs; try done.
    all: try (destruct (kevent _ _ _ _)). all: try (destruct (decide _)).
    all: try (match goal with H : context [noti ?x] |- _ => destruct (noti x) end).
    all: simplify_eq; try (by destruct (Hno eq_refl)); specialize (Hone _ eq_refl); try done.
    by injection Hone as <- <- <-.
  - simplify_eq. by specialize (Hone _ eq_refl).
  - simplify_eq. by specialize (Hone _ eq_refl).
  - destruct (wait s1); simplify_eq. by specialize (Hone _ eq_refl).
  - destruct (wait s1); try done. destruct (_ && _); simplify_eq. by specialize (Hone _ eq_refl).
  - destruct (wait s1), e; simplify_eq; try (by destruct (Hno eq_refl)); by specialize (Hone _ eq_refl).
  - unfold wait_step in Hs. destruct (wait s1); try done; try (destruct (noti c)); try done.
    all: try (destruct (decide _)). all: try (destruct (kevent _ _ _ _); destruct (check_receipts _)).
    all: simplify_eq; try (by destruct (Hno eq_refl)); by specialize (Hone _ eq_refl).
Qed.

Lemma results c excl s h i cl r h' : reachable c excl s -> log s = h ++ Returned i cl r :: h' ->
  result_of cl (last_reply i h) r.
Proof.
  intros Hr E. destruct (return_at _ _ _ _ _ _ _ _ Hr E) as (s1 & Hr1 & <- & Ht).
  by apply (at_reply_reach _ _ _ Hr1 _ _ Ht).
Qed.
