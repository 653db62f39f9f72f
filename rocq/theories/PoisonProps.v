(** C106: what is left of a poller after a wait() that panicked. *)
From stdpp Require Import prelude list.
From Verif Require Import Types PoisonModel PoisonSpec.
Local Open Scope nat_scope.

(** One case for each way a step can go. *)
Ltac cases Hs :=
  match type of Hs with
  | step _ ?s (?i, ?a) = _ =>
      cbn [step] in Hs;
      let q := fresh "q" in destruct (threads s !! i) as [q|] eqn:Hp; [|discriminate Hs];
      destruct q, a; try discriminate Hs; repeat (case_match; try discriminate Hs); injection Hs as <-;
      unfold unwind; cbn [lock flag table threads log set_pc set_lock set_flag set_table emit]
  end.

Definition inside (q : pc) : bool :=
  match q with WEnter | WInside | WFlag _ | WRet _ | WErr _ => true | _ => false end.
Definition of_wait (q : pc) : bool := match q with WTry => true | q => inside q end.
Definition holds_table (q : pc) : bool := match q with WInside | OInside => true | _ => false end.

Record inv (p : policy) (s : state) : Prop := Inv {
  i_lock : forall i q, threads s !! i = Some q -> inside q = true -> lock s = Held i;
  i_held : forall i, lock s = Held i -> exists q, threads s !! i = Some q /\ inside q = true;
  i_pois : lock s = Poisoned <-> panicked (log s);
  i_wait : forall i q, threads s !! i = Some q -> of_wait q = true -> in_wait i (log s);
  i_table : p = Unwrap -> forall i q, threads s !! i = Some q -> holds_table q = true -> table s = Held i;
  i_theld : forall i, table s = Held i -> exists q, threads s !! i = Some q /\ holds_table q = true /\ (q = WInside -> p = Unwrap) /\ p <> NoLock;
  i_tpois : table s = Poisoned -> lock s = Poisoned /\ p = Unwrap
}.

Lemma panicked_snoc h o : panicked (h ++ [o]) <-> panicked h \/ exists i, o = WaitPanic i.
Proof.
  split.
  - intros (i & [H|H%elem_of_list_singleton]%elem_of_app); [left; by exists i|right; by exists i].
  - intros [(i & H)|(i & ->)]; exists i; apply elem_of_app; [by left|right; by left].
Qed.
Lemma panicked_keep h o : (forall i, o <> WaitPanic i) -> panicked (h ++ [o]) <-> panicked h.
Proof. intros N. rewrite panicked_snoc. split; [|by left]. intros [H|(i & H)]; [done|by destruct (N i)]. Qed.
Lemma in_wait_snoc i h o : in_wait i h -> wait_ends i o = false -> in_wait i (h ++ [o]).
Proof.
  intros (h1 & h2 & -> & N) H. exists h1, (h2 ++ [o]). split; [by rewrite <- app_assoc|].
  intros o' [K|K%elem_of_list_singleton]%elem_of_app; [by apply N|by subst].
Qed.
Lemma in_wait_call i h : in_wait i (h ++ [WaitCall i]).
Proof. exists h, []. split; [done|]. intros o H. by apply elem_of_nil in H. Qed.

Lemma inv_step p s l s' : inv p s -> step p s l = Some s' -> inv p s'.
Proof.
  intros HI Hs. destruct l as [i a].
  assert (HL : forall r, <[i := r]> (threads s) !! i = Some r).
  { intros r. apply list_lookup_insert. destruct (threads s !! i) eqn:E; [by eapply lookup_lt_Some|]. cbn [step] in Hs. by rewrite E in Hs. }
  assert (HN : forall j r, i <> j -> <[i := r]> (threads s) !! j = threads s !! j) by (intros j r H; by apply list_lookup_insert_ne).
  split.
  - cases Hs; destruct HI as [I1 I2 I3 I4 I5 I7 I6]; intros j r Hj Hin; (destruct (decide (i = j)) as [<-|Hne];
      [rewrite (HL _) in Hj; injection Hj as <-; first [discriminate Hin|reflexivity|exact (I1 _ _ Hp eq_refl)]
      |rewrite HN in Hj by done; pose proof (I1 _ _ Hj Hin) as K;
       first [exact K|congruence|(pose proof (I1 _ _ Hp eq_refl); congruence)]]).
  - cases Hs; destruct HI as [I1 I2 I3 I4 I5 I7 I6]; intros j Hj; first
      [discriminate Hj
      |injection Hj as <-; eexists; split; [exact (HL _)|reflexivity]
      |destruct (I2 _ Hj) as (r & Hr & Hin); destruct (decide (i = j)) as [<-|Hne];
        [rewrite Hp in Hr; injection Hr as <-; first [discriminate Hin|eexists; split; [exact (HL _)|reflexivity]]
        |exists r; by rewrite HN]
      |pose proof (I1 _ _ Hp eq_refl) as K; rewrite K in Hj; cbn in Hj; discriminate Hj
      |idtac].
  - cases Hs; destruct HI as [I1 I2 I3 I4 I5 I7 I6]; rewrite ?panicked_snoc; first
      [done
      |split; [intros Z; left; by apply I3|intros [Z|(j & [=])]; by apply I3]
      |split; [intros Z; left; left; by apply I3|intros [[Z|(j & [=])]|(j & [=])]; by apply I3]
      |split; [intros _; right; by eexists|done]
      |idtac].
    all: try (pose proof (I1 _ _ Hp eq_refl) as K; split; [intros Z; rewrite K in Z; cbn in Z; discriminate Z|];
      intros [Z|(j & [=])]; apply I3 in Z; congruence).
    all: try (split; [intros [=]|]; intros Z%I3; congruence).
  - cases Hs; destruct HI as [I1 I2 I3 I4 I5 I7 I6]; intros j r Hj Hin; (destruct (decide (i = j)) as [<-|Hne];
      [rewrite HL in Hj; injection Hj as <-; first [discriminate Hin|apply in_wait_call|exact (I4 _ _ Hp eq_refl)
        |repeat (apply in_wait_snoc; [|reflexivity]); exact (I4 _ _ Hp eq_refl)]
      |rewrite HN in Hj by done; pose proof (I4 _ _ Hj Hin) as K;
       repeat (apply in_wait_snoc; [|cbn; by rewrite ?bool_decide_eq_false_2 by done]); exact K]).
  - intros ->. cases Hs; destruct HI as [I1 I2 I3 I4 I5 I7 I6]; intros j r Hj Hin; (destruct (decide (i = j)) as [<-|Hne];
      [rewrite HL in Hj; injection Hj as <-; first [discriminate Hin|reflexivity|exact (I5 eq_refl _ _ Hp eq_refl)]
      |rewrite HN in Hj by done; pose proof (I5 eq_refl _ _ Hj Hin) as K; first [exact K|congruence|idtac]]).
    all: try (pose proof (I5 eq_refl _ _ Hp eq_refl); congruence).
    all: rewrite K; by rewrite decide_False by done.
  - cases Hs; intros j Hj.
    all: try (injection Hj as <-; eexists; split; [exact (HL _)|]; split; [reflexivity|split; by intros]).
    all: try match type of Hj with release ?m = _ => destruct m eqn:Em; cbn in Hj; discriminate Hj end.
    all: try match type of Hj with match ?m with _ => _ end = _ =>
      destruct m as [|j'|] eqn:Em; try discriminate Hj; destruct (decide (j' = i)); [discriminate Hj|injection Hj as ->; rename Em into Hj] end.
    all: destruct HI as [I1 I2 I3 I4 I5 I7 I6]; destruct (I7 _ Hj) as (r & Hr & Hin & Hu & Hw); destruct (decide (i = j)) as [<-|Hne]; [|exists r; by rewrite HN].
    all: rewrite Hp in Hr; injection Hr as <-; first [discriminate Hin|done|discriminate (Hu eq_refl)|by destruct Hw].
  - cases Hs; intros Ht; try done; try (exact (i_tpois _ _ HI Ht)).
    all: try match type of Ht with release ?m = _ => destruct m eqn:Em; cbn in Ht; try discriminate Ht; clear Ht; rename Em into Ht end.
    all: try match type of Ht with match ?m with _ => _ end = _ => destruct m as [|j'|] eqn:Em; [discriminate Ht| |] end.
    all: destruct HI as [I1 I2 I3 I4 I5 I7 I6].
    all: try (destruct (I6 Ht) as [K1 K2]; pose proof (I1 _ _ Hp eq_refl); congruence).
    all: try (destruct (I6 Ht) as [K1 K2]; congruence).
    all: try (exact (I6 Ht)).
    all: split; [done|].
    all: try (exact (proj2 (I6 Em))).
    all: destruct (decide (j' = i)) as [->|]; [|discriminate Ht].
    all: destruct (I7 _ Em) as (r & Hr & Hin & Hu & Hw); rewrite Hp in Hr; injection Hr as <-; first [discriminate Hin|exact (Hu eq_refl)].
Qed.

Lemma inv_ok p n s : reachable p n s -> inv p s.
Proof.
  induction 1 as [|s l s' Hr IH Hs]; [|by eapply inv_step].
  split; cbn; try done.
  - intros i q H. apply lookup_replicate in H as [-> _]. done.
  - split; [done|]. intros (i & H). by apply elem_of_nil in H.
  - intros i q H. apply lookup_replicate in H as [-> _]. done.
  - intros _ i q H. apply lookup_replicate in H as [-> _]. done.
Qed.

(** What a step adds to the log. *)
Lemma step_log p s i a s' : inv p s -> step p s (i, a) = Some s' ->
  exists d, log s' = log s ++ d /\
    (d = [] \/ d = [NotifySent i; NotifyRet i] \/
     (exists o, d = [o] /\ lock s = Held i /\ (forall j, o <> Skipped j) /\ is_sent o = false) \/
     (exists o, d = [o] /\ ~ wait_works o /\ (forall j, o <> Skipped j) /\ is_sent o = false) \/
     (d = [Skipped i] /\ threads s !! i = Some WTry /\ lock s <> Free)).
Proof.
  intros HI Hs. cases Hs; rewrite <- ?app_assoc; cbn [app].
  all: try (exists []; rewrite app_nil_r; split; [done|]; by left).
  all: try (eexists; split; [done|]; right; right; right; left; eexists; split; [done|]; split; [by intros []|]; by split).
  all: try (eexists; split; [done|]; right; right; right; right; split; [done|]; split; [done|congruence]).
  all: try (eexists; split; [done|]; right; left; done).
  all: try (eexists; split; [done|]; right; right; left; eexists; split; [done|]; split; [exact (i_lock _ _ HI _ _ Hp eq_refl)|]; by split).
  exfalso. destruct (i_tpois _ _ HI) as [K _]; [done|]. pose proof (i_lock _ _ HI _ _ Hp eq_refl). congruence.
Qed.

(** wait() gives up without waiting only because another thread is in wait(), as long as no wait() has panicked.
    MISSING: what C106_refuted shows. *)
Theorem C106_partial p n s : reachable p n s ->
  forall h1 i h2, log s = h1 ++ Skipped i :: h2 -> ~ panicked h1 -> exists j, j <> i /\ in_wait j h1.
Proof.
  induction 1 as [|s [k a] s' Hr IH Hs]; intros h1 i h2 E N; [by destruct h1|].
  pose proof (inv_ok _ _ _ Hr) as HI.
  destruct (step_log _ _ _ _ _ HI Hs) as (d & Ed & Hd). rewrite Ed in E.
  apply app_eq_inv in E as [(h & E1 & E2)|(h & -> & E2)].
  { destruct h as [|o h]; [|injection E2 as <- ->; by eapply IH].
    rewrite app_nil_r in E1. cbn in E2. subst h1.
    destruct Hd as [->|[->|[(o & -> & _ & K & _)|[(o & -> & _ & K & _)|(-> & Hp & Hl)]]]]; try discriminate E2.
    - injection E2 as <- _. by destruct (K i).
    - injection E2 as <- _. by destruct (K i).
    - injection E2 as <- _. destruct (lock s) as [|j|] eqn:El; [done| |by destruct (proj1 (i_pois _ _ HI) El); destruct N; eexists].
      destruct (i_held _ _ HI _ El) as (q & Hq & Hin). exists j. split.
      + intros ->. rewrite Hp in Hq. injection Hq as <-. discriminate Hin.
      + eapply (i_wait _ _ HI); [exact Hq|]. by destruct q. }
  destruct Hd as [->|[->|[(o & -> & _ & K & _)|[(o & -> & _ & K & _)|(-> & Hp & Hl)]]]].
  - by destruct h.
  - destruct h as [|? [|? [|]]]; discriminate E2.
  - destruct h as [|? []]; try discriminate E2. injection E2 as -> _. by destruct (K i).
  - destruct h as [|? []]; try discriminate E2. injection E2 as -> _. by destruct (K i).
  - destruct h as [|? []]; try discriminate E2. injection E2 as <- _. rewrite app_nil_r in *.
    destruct (lock s) as [|j|] eqn:El; [done| |by destruct (proj1 (i_pois _ _ HI) El); destruct N; eexists].
    destruct (i_held _ _ HI _ El) as (q & Hq & Hin). exists j. split.
    + intros ->. rewrite Hp in Hq. injection Hq as <-. discriminate Hin.
    + eapply (i_wait _ _ HI); [exact Hq|]. by destruct q.
Qed.

(** After a wait() has panicked, no call of wait() asks the backend, returns events, fails or panics again: each one gives
    up. *)
Theorem C106_disabled_for_ever p n s : reachable p n s ->
  forall h1 i h2, log s = h1 ++ WaitPanic i :: h2 -> forall o, o ∈ h2 -> ~ wait_works o.
Proof.
  induction 1 as [|s [k a] s' Hr IH Hs]; intros h1 i h2 E o Ho; [by destruct h1|].
  pose proof (inv_ok _ _ _ Hr) as HI.
  destruct (step_log _ _ _ _ _ HI Hs) as (d & Ed & Hd). rewrite Ed in E.
  apply app_eq_inv in E as [(h & E1 & E2)|(h & -> & E2)].
  - destruct h as [|x h].
    + destruct Hd as [->|[->|[(o' & -> & _)|[(o' & -> & _)|(-> & _)]]]]; try discriminate E2;
        injection E2 as _ ->; by apply elem_of_nil in Ho.
    + injection E2 as <- ->. apply elem_of_app in Ho as [Ho|Ho]; [by eapply IH|].
      destruct Hd as [->|[->|[(o' & -> & El & _)|[(o' & -> & N & _)|(-> & _)]]]].
      * by apply elem_of_nil in Ho.
      * intros W. apply elem_of_cons in Ho as [->|Ho%elem_of_list_singleton]; [done|by subst].
      * assert (lock s = Poisoned); [|congruence]. apply (i_pois _ _ HI). exists i. rewrite E1. set_solver.
      * apply elem_of_list_singleton in Ho as ->. done.
      * apply elem_of_list_singleton in Ho as ->. by intros [].
  - destruct Hd as [->|[->|[(o' & -> & _)|[(o' & -> & _)|(-> & _)]]]].
    + by destruct h.
    + destruct h as [|? [|? [|]]]; discriminate E2.
    + destruct h as [|? []]; try discriminate E2. injection E2 as _ <-. by apply elem_of_nil in Ho.
    + destruct h as [|? []]; try discriminate E2. injection E2 as _ <-. by apply elem_of_nil in Ho.
    + destruct h as [|? []]; discriminate E2.
Qed.

(** Threads about to notify the backend. *)
Fixpoint senders (l : list pc) : nat :=
  match l with [] => 0 | q :: l => (match q with NSend => 1 | _ => 0 end) + senders l end.
Definition sends (q : pc) : nat := match q with NSend => 1 | _ => 0 end.
Lemma senders_insert l i q r : l !! i = Some q -> senders (<[i := r]> l) + sends q = senders l + sends r.
Proof.
  revert i. induction l as [|x l IH]; intros [|i] H; try discriminate H; cbn in H.
  - injection H as ->. change (<[0 := r]> (q :: l)) with (r :: l). cbn [senders]. unfold sends. destruct q, r; lia.
  - change (<[S i := r]> (x :: l)) with (x :: <[i := r]> l). cbn [senders]. specialize (IH _ H). lia.
Qed.
Lemma senders_le l : senders l <= length l.
Proof. induction l as [|[] l IH]; cbn; lia. Qed.
Definition pot (s : state) : nat := senders (threads s) + if flag s then 0 else 1.

Lemma app_nil_end_eq {A} (l d : list A) : l = l ++ d -> [] = d.
Proof. intros E. rewrite <- (app_nil_r l) in E at 1. by apply app_inv_head in E. Qed.
Lemma pot_step p s i a s' : inv p s -> step p s (i, a) = Some s' ->
  forall d, log s' = log s ++ d -> lock s = Poisoned -> sent d + pot s' <= pot s.
Proof.
  intros HI Hs d E Hl.
  cases Hs; pose proof (i_lock _ _ HI _ _ Hp) as Z; try (specialize (Z eq_refl); congruence).
  all: cbn [log emit set_pc set_lock set_flag set_table] in E; rewrite <- ?app_assoc in E; first [apply app_inv_head in E|apply app_nil_end_eq in E]; subst d.
  all: unfold pot; cbn [flag emit threads set_pc set_lock set_flag set_table].
  all: match goal with |- context [<[_ := ?r]> _] => pose proof (senders_insert _ _ _ r Hp) as K end.
  all: unfold sent; cbn [sends List.filter is_sent length app] in K |- *; try destruct (flag s); try discriminate; lia.
Qed.

Lemma threads_len p n s : reachable p n s -> length (threads s) = n.
Proof.
  induction 1 as [|s [i a] s' Hr IH Hs]; [apply replicate_length|]. cases Hs; by rewrite insert_length.
Qed.
Lemma sent_app h k : sent (h ++ k) = sent h + sent k.
Proof. unfold sent. by rewrite List.filter_app, app_length. Qed.
Lemma panic_pot p s i a s' : inv p s -> step p s (i, a) = Some s' -> forall j, log s' = log s ++ [WaitPanic j] ->
  threads s' !! i = Some Dead.
Proof.
  intros HI Hs j.
  assert (HL : forall r, <[i := r]> (threads s) !! i = Some r).
  { intros r. apply list_lookup_insert. destruct (threads s !! i) eqn:E; [by eapply lookup_lt_Some|]. cbn [step] in Hs. by rewrite E in Hs. }
  cases Hs; intros E; rewrite <- ?app_assoc in E; try apply app_inv_head in E; try apply app_nil_end_eq in E; try discriminate E; exact (HL _).
Qed.
Lemma senders_other l i q : l !! i = Some q -> q <> NSend -> senders l + 1 <= length l.
Proof.
  revert i. induction l as [|x l IH]; intros [|i] H N; try discriminate H; cbn in H.
  - injection H as ->. cbn [senders length]. pose proof (senders_le l). destruct q; try done; lia.
  - cbn [senders length]. specialize (IH _ H N). destruct x; lia.
Qed.

(** ... and the backend is notified at most once for each thread of the program, however often notify() is called. *)
Theorem C106_notify_swallowed p n s : reachable p n s ->
  forall h1 i h2, log s = h1 ++ WaitPanic i :: h2 -> sent h2 <= n.
Proof.
  intros R.
  assert (G : forall h1 i h2, log s = h1 ++ WaitPanic i :: h2 -> sent h2 + pot s <= n).
  2: { intros h1 i h2 E. specialize (G _ _ _ E). lia. }
  induction R as [|s [k a] s' Hr IH Hs]; intros h1 i h2 E; [by destruct h1|].
  pose proof (inv_ok _ _ _ Hr) as HI.
  destruct (step_log _ _ _ _ _ HI Hs) as (d & Ed & Hd). rewrite Ed in E.
  assert (B : forall j, d = [WaitPanic j] -> pot s' <= n).
  { intros j ->. pose proof (panic_pot _ _ _ _ _ HI Hs _ Ed) as K.
    assert (L : length (threads s') = n) by (eapply threads_len, reach_step; eauto).
    pose proof (senders_other _ _ _ K ltac:(done)). unfold pot. destruct (flag s'); lia. }
  apply app_eq_inv in E as [(h & E1 & E2)|(h & -> & E2)].
  - destruct h as [|x h].
    + cbn in E2. destruct Hd as [->|[->|[(o' & -> & _)|[(o' & -> & _)|(-> & _)]]]]; try discriminate E2;
        injection E2 as E2 ->; subst; cbn; eapply B; done.
    + injection E2 as <- ->. rewrite sent_app. specialize (IH _ _ _ E1).
      assert (Hl : lock s = Poisoned). { apply (i_pois _ _ HI). exists i. rewrite E1. set_solver. }
      pose proof (pot_step _ _ _ _ _ HI Hs _ Ed Hl). lia.
  - destruct Hd as [->|[->|[(o' & -> & _)|[(o' & -> & _)|(-> & _)]]]].
    + by destruct h.
    + destruct h as [|? [|? [|]]]; discriminate E2.
    + destruct h as [|? []]; try discriminate E2. injection E2 as -> <-. cbn. by eapply B.
    + destruct h as [|? []]; try discriminate E2. injection E2 as -> <-. cbn. by eapply B.
    + destruct h as [|? []]; discriminate E2.
Qed.

(** add, modify and delete panic for the lock's sake only on the backend that unwraps it ... *)
Theorem C106_ops_recover p n s i : reachable p n s -> OpPanic i ∈ log s -> p = Unwrap.
Proof.
  induction 1 as [|s [k a] s' Hr IH Hs]; intros Z; [by apply elem_of_nil in Z|].
  revert Z. cases Hs; rewrite ?elem_of_app, ?elem_of_list_singleton; intros Z; try (by apply IH); try done.
  all: try (destruct Z as [Z|[=]]; by apply IH).
  all: try (destruct Z as [[Z|[=]]|[=]]; by apply IH).
Qed.

(** ... only after a wait() has panicked; and once one of them has panicked, none comes to an end any more. *)
Theorem C106_ops_stay_dead p n s : reachable p n s ->
  forall h1 i h2, log s = h1 ++ OpPanic i :: h2 -> panicked h1 /\ forall j, OpDone j ∉ h2.
Proof.
  intros R.
  assert (G : forall h1 i h2, log s = h1 ++ OpPanic i :: h2 -> table s = Poisoned /\ panicked h1 /\ forall j, OpDone j ∉ h2).
  2: { intros h1 i h2 E. by destruct (G _ _ _ E). }
  induction R as [|s [k a] s' Hr IH Hs]; intros h1 i h2 E; [by destruct h1|].
  pose proof (inv_ok _ _ _ Hr) as HI. pose proof (C106_ops_recover _ _ _ i Hr) as HU.
  assert (D : (exists d, log s' = log s ++ d /\ (forall j, OpPanic j ∉ d) /\
      (table s = Poisoned -> p = Unwrap -> table s' = Poisoned /\ forall j, OpDone j ∉ d)) \/
    (exists j, log s' = log s ++ [OpPanic j] /\ table s = Poisoned /\ table s' = Poisoned)).
  { clear E IH. cases Hs; rewrite <- ?app_assoc; cbn [app].
    all: try (right; eexists; done).
    all: left; try (exists []; rewrite app_nil_r; split; [done|]; split; [intros j H'; by apply elem_of_nil in H'|]; intros Et Eu;
       split; [first [done|by rewrite Et]|intros j H'; by apply elem_of_nil in H']).
    all: eexists; split; [done|]; split; [intros j H'; set_solver|]; intros Et Eu.
    all: try (split; [first [done|by rewrite Et]|intros j H'; set_solver]).
    all: try (pose proof (i_lock _ _ HI _ _ Hp eq_refl); destruct (i_tpois _ _ HI); [done|congruence]).
    all: pose proof (i_table _ _ HI Eu _ _ Hp eq_refl); congruence. }
  destruct D as [(d & Ed & Nd & Hd)|(j & Ed & Et & Et')]; rewrite Ed in E.
  - apply app_eq_inv in E as [(h & E1 & E2)|(h & -> & E2)].
    + destruct h as [|x h].
      * cbn in E2. subst d. destruct (Nd i). set_solver.
      * injection E2 as <- ->. destruct (IH _ _ _ E1) as (Et & Hp & Hn).
        destruct (Hd Et) as [Et' Hd']. { apply HU. rewrite E1. set_solver. }
        split; [done|]. split; [done|]. intros j. rewrite elem_of_app. specialize (Hn j). specialize (Hd' j). tauto.
    + subst d. destruct (Nd i). set_solver.
  - apply app_eq_inv in E as [(h & E1 & E2)|(h & -> & E2)].
    + destruct h as [|x h].
      * rewrite app_nil_r in E1. injection E2 as _ ->. split; [done|]. split; [|intros ? H'; by apply elem_of_nil in H'].
        rewrite <- E1. apply (i_pois _ _ HI), (i_tpois _ _ HI), Et.
      * injection E2 as <- ->. destruct (IH _ _ _ E1) as (_ & Hp & Hn). split; [done|]. split; [done|].
        intros j'. rewrite elem_of_app. specialize (Hn j'). set_solver.
    + destruct h as [|? []]; try discriminate E2. injection E2 as _ <-. rewrite app_nil_r. split; [done|].
      split; [|intros ? H'; by apply elem_of_nil in H']. apply (i_pois _ _ HI), (i_tpois _ _ HI), Et.
Qed.

Fixpoint run (p : policy) (s : state) (ls : list (nat * act)) : option state :=
  match ls with [] => Some s | l :: ls => match step p s l with Some s' => run p s' ls | None => None end end.
Lemma run_reach p n ls : forall s s', reachable p n s -> run p s ls = Some s' -> reachable p n s'.
Proof.
  induction ls as [|l ls IH]; intros s s' R E; cbn in E; [by injection E as <-|].
  destruct (step p s l) as [s1|] eqn:Es; [|discriminate E]. eapply IH; [|exact E]. by eapply reach_step.
Qed.

(** One thread waits and panics inside the backend; the other one then calls wait(), twice, and a panic is all there
    ever was. *)
Definition bad : list (nat * act) :=
  [(0, CallWait); (0, Go); (0, Go); (0, Panics); (1, CallWait); (1, Go); (1, CallNotify); (1, Go); (1, Go); (1, CallNotify); (1, Go);
   (1, CallWait); (1, Go)].
Definition bad_log : list obs :=
  [WaitCall 0; Asked 0; WaitPanic 0; WaitCall 1; Skipped 1; NotifyCall 1; NotifySent 1; NotifyRet 1; NotifyCall 1; NotifyRet 1;
   WaitCall 1; Skipped 1].

(** On every backend a wait() can give up although no thread is waiting: after a panic, also one that the program has
    caught, the poller is of no use any more, and wait() says so with Ok(0), at once. *)
Theorem C106_refuted p : exists s, reachable p 2 s /\ log s = bad_log /\ ~ skips_are_contention (log s) /\
  forall h1 i h2, log s = h1 ++ Skipped i :: h2 -> forall j, j <> i -> ~ in_wait j h1.
Proof.
  destruct (run p (init 2) bad) as [s|] eqn:E; [|by destruct p].
  exists s. assert (L : log s = bad_log) by (destruct p; vm_compute in E; injection E as <-; reflexivity).
  assert (N : forall h1 i h2, log s = h1 ++ Skipped i :: h2 -> forall j, j <> i -> ~ in_wait j h1).
  { intros h1 i h2 El j Nj (k1 & k2 & -> & Hk). rewrite L in El. unfold bad_log in El.
    assert (Hi : i = 1). { assert (Skipped i ∈ bad_log) as Z by (unfold bad_log; rewrite El; set_solver). unfold bad_log in Z. set_solver. }
    subst i. rewrite <- app_assoc in El. cbn [app] in El.
    destruct k1 as [|? k1]; injection El as E1 El.
    - subst j. destruct k2 as [|? [|? k2]]; try discriminate El. injection El as <- <- El.
      specialize (Hk (WaitPanic 0)). cbn in Hk. discriminate Hk. set_solver.
    - assert (Z : WaitCall j ∈ [Asked 0; WaitPanic 0; WaitCall 1; Skipped 1; NotifyCall 1; NotifySent 1; NotifyRet 1; NotifyCall 1;
         NotifyRet 1; WaitCall 1; Skipped 1]) by (rewrite El; set_solver). set_solver. }
  split; [eapply run_reach; [apply reach_init|exact E]|]. split; [done|]. split; [|done].
  intros S. destruct (S [WaitCall 0; Asked 0; WaitPanic 0; WaitCall 1] 1 [NotifyCall 1; NotifySent 1; NotifyRet 1; NotifyCall 1; NotifyRet 1;
    WaitCall 1; Skipped 1]) as (j & Nj & Hj); [by rewrite L|].
  eapply N; [rewrite L; exact (eq_refl (([WaitCall 0; Asked 0; WaitPanic 0; WaitCall 1]) ++ Skipped 1 :: _))|exact Nj|exact Hj].
Qed.

(** With poll(2) the operations panic as well, and with kqueue and IOCP they do not. *)
Example C106_ops_case :
  option_map log (run Unwrap (init 2) [(0, CallWait); (0, Go); (0, Go); (0, Panics); (1, CallOp); (1, Go)]) =
    Some [WaitCall 0; Asked 0; WaitPanic 0; OpCall 1; OpPanic 1] /\
  option_map log (run Recover (init 2) [(0, CallWait); (0, Go); (0, Go); (0, Panics); (1, CallOp); (1, Go); (1, Go)]) =
    Some [WaitCall 0; Asked 0; WaitPanic 0; OpCall 1; OpDone 1].
Proof. split; vm_compute; reflexivity. Qed.

(** A panic of add() and one of notify(), caught by the program, leave the locks as they are: wait() waits.  The notification
    whose sending panicked stays pending until a wait() returns, as with a failed one (C11). *)
Example C106_own_panics_case : forall p,
  option_map log (run p (init 4) [(0, CallOp); (0, Panics); (1, CallNotify); (1, Go); (1, Panics); (2, CallNotify); (2, Go);
     (3, CallWait); (3, Go); (3, Go); (3, Return 0); (3, Go); (3, Go); (2, CallNotify); (2, Go); (2, Go)]) =
    Some [OpCall 0; OpOwnPanic 0; NotifyCall 1; NotifyPanic 1; NotifyCall 2; NotifyRet 2; WaitCall 3; Asked 3; WaitRet 3 0;
      NotifyCall 2; NotifySent 2; NotifyRet 2].
Proof. by intros []; vm_compute. Qed.

(** Without a panic: the second thread gives up because the first one is waiting. *)
Example C106_partial_case :
  option_map log (run Unwrap (init 2)
    [(0, CallWait); (0, Go); (0, Go); (1, CallWait); (1, Go); (0, Return 1); (0, Go); (0, Go)]) =
  Some [WaitCall 0; Asked 0; WaitCall 1; Skipped 1; WaitRet 0 1].
Proof. vm_compute. reflexivity. Qed.

Print Assumptions C106_partial.
Print Assumptions C106_disabled_for_ever.
Print Assumptions C106_notify_swallowed.
Print Assumptions C106_ops_recover.
Print Assumptions C106_ops_stay_dead.
Print Assumptions C106_refuted.
