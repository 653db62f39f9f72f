(** C109: on completion ports concurrent calls answer as if they were made one after another. *)
From stdpp Require Import prelude list gmap.
From Verif Require Import Bits Types EventModel Pool IocpModel IocpSpec IocpLinSpec IocpLinProofs IocpRuns.
Local Open Scope nat_scope.

(** Any number of threads, sockets and waitables, any schedule, any refusals of the system: there
    are moments at which the calls take effect, each between the call and the return, such that one
    after another they explain every answer and what is registered. *)
Theorem C109_as_if_one_at_a_time c s : reachable c s -> exists h, explains h s.
Proof. apply explained. Qed.

(** ** What [stages] says *)

(** Items of thread [i]. *)
Definition of (i : nat) (t : item) : Prop :=
  match t with Seen (Called j _) | Seen (Returned j _ _) | Effect j _ _ => j = i | _ => False end.
Lemma of_dec i t : of i t \/ ~ of i t.
Proof. destruct t as [[]|j c a|x]; cbn; try (right; by intros []); match goal with |- ?j = _ \/ _ => destruct (decide (j = i)); auto end. Qed.
Lemma stages_inv i h t g' : stages i (h ++ [t]) g' -> exists g, stages i h g /\ ends i g t g'.
Proof.
  intros H. remember (h ++ [t]) as x eqn:E. destruct H as [|h1 g t1 g' H X]; [by destruct h|].
  apply app_inj_tail in E as [-> ->]. by exists g.
Qed.
Lemma stages_prefix i h1 : forall h2 g, stages i (h1 ++ h2) g -> exists g1, stages i h1 g1.
Proof.
  induction h2 as [|t h2 IH] using rev_ind; intros g H; [rewrite app_nil_r in H; by exists g|].
  rewrite app_assoc in H. apply stages_inv in H as (g0 & H & _). by eapply IH.
Qed.
Lemma ends_other i g t g' : ends i g t g' -> ~ of i t -> g' = g.
Proof. destruct t as [[]| |]; cbn; try done; by case_decide; intros ?. Qed.
Lemma called_before i h c : stages i h (InCall c) -> exists ha hb, h = ha ++ Seen (Called i c) :: hb /\ Forall (fun t => ~ of i t) hb.
Proof.
  induction h as [|t h IH] using rev_ind; intros H; [inversion H as [|? ? ? ? ? ? E]; by destruct h|].
  apply stages_inv in H as (g & H & X).
  pose proof (of_dec i t) as D.
  destruct D as [D|D].
  - destruct t as [[]|j c' a|]; cbn in D; try done; subst; cbn in X; rewrite decide_True in X by done.
    + destruct X as [_ [= ->]]. by exists h, [].
    + by destruct X as (? & _ & _ & ?).
    + by destruct X as [_ ?].
  - pose proof (ends_other _ _ _ _ X D) as <-. destruct (IH H) as (ha & hb & -> & F). exists ha, (hb ++ [t]).
    rewrite <-app_assoc. split; [done|]. apply Forall_app. split; [done|]. by constructor.
Qed.
Lemma effect_before i h c a : stages i h (Effected c a) ->
  exists ha hb hc, h = ha ++ Seen (Called i c) :: hb ++ Effect i c a :: hc /\ Forall (fun t => ~ of i t) hb /\ Forall (fun t => ~ of i t) hc.
Proof.
  induction h as [|t h IH] using rev_ind; intros H; [inversion H as [|? ? ? ? ? ? E]; by destruct h|].
  apply stages_inv in H as (g & H & X).
  pose proof (of_dec i t) as D.
  destruct D as [D|D].
  - destruct t as [[]|j c' a'|]; cbn in D; try done; subst; cbn in X; rewrite decide_True in X by done.
    + by destruct X as [_ ?].
    + by destruct X as (? & _ & _ & ?).
    + destruct X as [-> [= -> ->]]. destruct (called_before _ _ _ H) as (ha & hb & -> & F). exists ha, hb, [].
      rewrite <-app_assoc. done.
  - pose proof (ends_other _ _ _ _ X D) as <-. destruct (IH H) as (ha & hb & hc & -> & F1 & F2). exists ha, hb, (hc ++ [t]).
    rewrite <-app_assoc. cbn. rewrite <-app_assoc. split; [done|]. split; [done|]. apply Forall_app. split; [done|]. by constructor.
Qed.
(** Every call that returned took effect once, between call and return, and its answer fits. *)
Theorem C109_effect_within_call i h g h1 c r h2 : stages i h g -> h = h1 ++ Seen (Returned i c r) :: h2 ->
  exists a ha hb hc, h1 = ha ++ Seen (Called i c) :: hb ++ Effect i c a :: hc /\ answers c a r
    /\ Forall (fun t => ~ of i t) hb /\ Forall (fun t => ~ of i t) hc.
Proof.
  intros H ->. change (Seen (Returned i c r) :: h2) with ([Seen (Returned i c r)] ++ h2) in H. rewrite app_assoc in H.
  apply stages_prefix in H as (g1 & H). apply stages_inv in H as (g0 & H & X). cbn in X. rewrite decide_True in X by done.
  destruct X as (a & -> & A & _). destruct (effect_before _ _ _ _ H) as (ha & hb & hc & E & F). by exists a, ha, hb, hc.
Qed.

(** ** A consequence that can be seen from outside *)

Definition drops (k : N + N) (t : item) : Prop :=
  match t with Effect _ c Carried => kind_of c = KDelete k | Closed x => k = inl x | _ => False end.
Lemma reg_some h t : is_Some (reg_step h t) -> is_Some h.
Proof. destruct t; cbn; [done| |]; by destruct h; [|intros []]. Qed.
Lemma fold_some h R : is_Some (fold_left reg_step h R) -> is_Some R.
Proof. revert R. induction h as [|t h IH]; intros R; cbn; [done|]. intros H%IH. by apply reg_some in H. Qed.
Lemma kept_or_dropped k V : forall R, is_Some (R !! k) -> (exists t, t ∈ V /\ drops k t) \/
  forall R', fold_left reg_step V (Some R) = Some R' -> is_Some (R' !! k).
Proof.
  induction V as [|t V IH]; intros R H; [right; by intros R' [= <-]|]. cbn [fold_left].
  destruct (reg_step (Some R) t) as [R1|] eqn:E; [|right; intros R' X; exfalso; assert (Y : is_Some (fold_left reg_step V None)) by (by rewrite X); apply fold_some in Y; by destruct Y].
  assert (D : drops k t \/ is_Some (R1 !! k)).
  { destruct t as [o|i c a|x]; cbn in E.
    - injection E as <-. by right.
    - unfold perform in E. destruct (kind_of c) as [k' v|k' v|k'|] eqn:K, a; cbn in E; try done; try (destruct (R !! k') eqn:Rk; try done); simplify_eq; try (by right).
      + right. destruct (decide (k = k')) as [->|]; [by rewrite lookup_insert|by rewrite lookup_insert_ne].
      + right. destruct (decide (k = k')) as [->|]; [by rewrite lookup_insert|by rewrite lookup_insert_ne].
      + destruct (decide (k = k')) as [->|]; [by left|right; by rewrite lookup_delete_ne].
    - injection E as <-. destruct (decide (k = inl x)) as [->|]; [by left|right; by rewrite lookup_delete_ne]. }
  destruct D as [D|D]; [left; exists t; split; [constructor|done]|].
  destruct (IH R1 D) as [(t' & Ht & D')|D']; [left; exists t'; split; [by constructor|done]|by right].
Qed.
Lemma two_adds k U E V E' W i c v i' c' v' R :
  after (U ++ E :: V ++ E' :: W) = Some R -> E = Effect i c Carried -> E' = Effect i' c' Carried ->
  kind_of c = KAdd k v -> kind_of c' = KAdd k v' -> exists t, t ∈ V /\ drops k t.
Proof.
  intros A -> -> K K'. unfold after in A. rewrite fold_left_app in A. cbn [fold_left] in A. rewrite fold_left_app in A. cbn [fold_left] in A.
  assert (X : is_Some (reg_step (fold_left reg_step V (reg_step (fold_left reg_step U (Some ∅)) (Effect i c Carried))) (Effect i' c' Carried))) by (eapply fold_some; rewrite A; done).
  destruct (fold_left reg_step U (Some ∅)) as [R0|]; [|apply reg_some in X; apply fold_some in X; by destruct X].
  cbn [reg_step mbind option_bind] in X. unfold perform at 2 in X. rewrite K in X.
  destruct (R0 !! k) eqn:R0k; [assert (Y : is_Some (fold_left reg_step V None)) by (destruct (fold_left reg_step V None); [done|by destruct X]); apply fold_some in Y; by destruct Y|].
  destruct (kept_or_dropped k V (<[k:=v]> R0)) as [|D]; [by rewrite lookup_insert|done|]. exfalso.
  destruct (fold_left reg_step V (Some (<[k:=v]> R0))) as [R1|]; [|by destruct X]. cbn in X. unfold perform in X. rewrite K' in X.
  destruct (D R1 eq_refl) as [y Hy]. rewrite Hy in X. by destruct X.
Qed.

Lemma split_visible h o : forall l1 l2, visible h = l1 ++ o :: l2 -> exists h1 h2, h = h1 ++ Seen o :: h2 /\ visible h1 = l1 /\ visible h2 = l2.
Proof.
  induction h as [|t h IH]; intros l1 l2 H; [by destruct l1|].
  destruct t as [o'|i c a|x].
  - change (visible (Seen o' :: h)) with (o' :: visible h) in H. destruct l1 as [|y l1]; cbn in H.
    + injection H as -> <-. by exists [], h.
    + injection H as -> H. destruct (IH _ _ H) as (h1 & h2 & -> & <- & <-). by exists (Seen y :: h1), h2.
  - destruct (IH _ _ H) as (h1 & h2 & -> & <- & <-). by exists (Effect i c a :: h1), h2.
  - destruct (IH _ _ H) as (h1 & h2 & -> & <- & <-). by exists (Closed x :: h1), h2.
Qed.
Lemma in_visible h o : Seen o ∈ h -> o ∈ visible h.
Proof. intros H. unfold visible. apply elem_of_list_omap. by exists (Seen o). Qed.

(** If two adds of a source succeeded, its deletion was asked for before the second returned, or
    AFD reported a closed socket. *)
Theorem C109_second_add c s k i c1 v1 j c2 v2 l1 l2 l3 :
  reachable c s -> log s = l1 ++ Returned i c1 (Ok tt) :: l2 ++ Returned j c2 (Ok tt) :: l3 ->
  kind_of c1 = KAdd k v1 -> kind_of c2 = KAdd k v2 ->
  (exists t c3, Called t c3 ∈ l1 ++ l2 /\ kind_of c3 = KDelete k) \/ close_reported (l1 ++ l2).
Proof.
  intros (h & EL & ST & CR & R & AR & _)%explained E K1 K2. rewrite <-EL in E.
  destruct (split_visible h (Returned i c1 (Ok tt)) _ _ E) as (h1 & h2' & -> & <- & E2).
  destruct (split_visible h2' (Returned j c2 (Ok tt)) _ _ E2) as (h2 & h3 & -> & <- & _). clear E E2 EL.
  destruct (ST i) as (gi & Si). destruct (ST j) as (gj & Sj).
  destruct (C109_effect_within_call _ _ _ _ _ _ _ Si eq_refl) as (a1 & A1 & B1 & C1 & E1 & AN1 & _ & _).
  assert (EQ : h1 ++ Seen (Returned i c1 (Ok tt)) :: h2 ++ Seen (Returned j c2 (Ok tt)) :: h3 = (h1 ++ Seen (Returned i c1 (Ok tt)) :: h2) ++ Seen (Returned j c2 (Ok tt)) :: h3) by (rewrite <-app_assoc; done).
  destruct (C109_effect_within_call _ _ _ _ _ _ _ Sj EQ) as (a2 & A2 & B2 & C2 & E2 & AN2 & _ & F2).
  assert (a1 = Carried) as ->. { destruct a1; [done| |]; unfold answers in AN1; rewrite K1 in AN1; [done|]. by destruct AN1 as [?|[? ?]]. }
  assert (a2 = Carried) as ->. { destruct a2; [done| |]; unfold answers in AN2; rewrite K2 in AN2; [done|]. by destruct AN2 as [?|[? ?]]. }
  assert (D : exists t, t ∈ h1 ++ Seen (Returned i c1 (Ok tt)) :: h2 /\ drops k t).
  { remember (h1 ++ Seen (Returned i c1 (Ok tt)) :: h2) as H1 eqn:EH.
    assert (X1 : exists P Q, H1 = P ++ Effect i c1 Carried :: Q /\ Seen (Returned i c1 (Ok tt)) ∈ Q).
    { exists (A1 ++ Seen (Called i c1) :: B1), (C1 ++ Seen (Returned i c1 (Ok tt)) :: h2). split; [|set_solver].
      rewrite EH, E1, <-!app_assoc. cbn. rewrite <-!app_assoc. done. }
    assert (X2 : exists P, H1 = P ++ Effect j c2 Carried :: C2).
    { exists (A2 ++ Seen (Called j c2) :: B2). rewrite E2, <-!app_assoc. done. }
    destruct X1 as (P1 & Q1 & X1 & IN). destruct X2 as (P2 & X2).
    assert (Z : exists U V W e e', H1 = U ++ e :: V ++ e' :: W /\ ((e = Effect i c1 Carried /\ e' = Effect j c2 Carried) \/ (e = Effect j c2 Carried /\ e' = Effect i c1 Carried))).
    { pose proof X1 as X3. rewrite X2 in X3. apply app_eq_inv in X3 as [(l & Y1 & Y2)|(l & Y1 & Y2)]; destruct l as [|y l]; cbn in Y2.
      - injection Y2 as -> -> ->. exfalso. rewrite Forall_forall in F2. apply (F2 _ IN). done.
      - injection Y2 as <- Y2. exists P1, l, C2, (Effect i c1 Carried), (Effect j c2 Carried). split; [|by left]. rewrite X2, Y1, <-app_assoc. done.
      - injection Y2 as -> -> ->. exfalso. rewrite Forall_forall in F2. apply (F2 _ IN). done.
      - injection Y2 as <- Y2. exists P2, l, Q1, (Effect j c2 Carried), (Effect i c1 Carried). split; [|by right]. rewrite X1, Y1, <-app_assoc. done. }
    destruct Z as (U & V & W & e & e' & -> & Z). rewrite EQ in AR. rewrite <-app_assoc in AR. cbn in AR. rewrite <-app_assoc in AR. cbn in AR.
    destruct Z as [[-> ->]|[-> ->]].
    - destruct (two_adds k _ _ _ _ _ _ _ v1 _ _ v2 _ AR eq_refl eq_refl K1 K2) as (t & Ht & Dt). exists t. split; [set_solver|done].
    - destruct (two_adds k _ _ _ _ _ _ _ v2 _ _ v1 _ AR eq_refl eq_refl K2 K1) as (t & Ht & Dt). exists t. split; [set_solver|done]. }
  assert (VI : forall o, o ∈ visible (h1 ++ Seen (Returned i c1 (Ok tt)) :: h2) -> o ∈ visible h1 ++ visible h2 \/ o = Returned i c1 (Ok tt)).
  { intros o. rewrite visible_app. cbn. rewrite !elem_of_app, elem_of_cons. tauto. }
  destruct D as (t & Ht & Dt). apply elem_of_list_split in Ht as (P & Q & EH). destruct t as [o|i3 c3 [| |]|x]; cbn in Dt; try done.
  - left. destruct (ST i3) as (g3 & S3). rewrite EQ, EH, <-app_assoc in S3. cbn in S3.
    change (Effect i3 c3 Carried :: Q ++ ?z) with ([Effect i3 c3 Carried] ++ Q ++ z) in S3. rewrite app_assoc in S3.
    apply stages_prefix in S3 as (g4 & S4). apply stages_inv in S4 as (g5 & S5 & X). cbn in X. rewrite decide_True in X by done. destruct X as [-> _].
    apply called_before in S5 as (ha & hb & -> & _). exists i3, c3. split; [|done].
    destruct (VI (Called i3 c3)) as [|]; [|done|done]. rewrite EH. apply in_visible. set_solver.
  - right. rewrite EQ, EH, <-app_assoc in CR. destruct (CR P x _ eq_refl) as (n & b & e & IN & CL). exists n, b, e. split; [|done].
    destruct (VI (Done n b e)) as [|]; [|done|done]. rewrite EH, visible_app. apply elem_of_app. by left.
Qed.

(** ** Cases *)

(** A modify finds the socket; another thread deletes it and adds it anew; then the first thread sets
    the interest of the old packet and returns.  The modify took effect before the delete. *)
Definition overtaken : list label :=
  add 0 5 (rd 7) Level ++ [by_ 0 (CModify 5 (wr 8) Level); t 0] ++ delete_ 1 5 ++ add 1 5 (rd 9) Oneshot ++ [t 0; t 0; t 0; t 0].
Example C109_case : exists c s, valid c /\ reachable c s
  /\ Returned 0 (CModify 5 (wr 8) Level) (Ok tt) ∈ log s /\ Returned 1 (CDelete 5) (Ok tt) ∈ log s
  /\ (p ← holds s (inl 5%N); given p (log s)) = Some (rd 9, Oneshot)
  /\ exists h1 h2, log s = h1 ++ Returned 1 (CAdd 5 (rd 9) Oneshot) (Ok tt) :: h2 /\ Armed (PSock 0) (wr 8) Level ∈ h2.
Proof.
  sees (fun s => (log s, p ← holds s (inl 5%N); given p (log s))) cfg 2 overtaken s H R X. clear H. injection X as X1 X2.
  exists cfg, s. split; [unfold valid; cbn; lia|]. split; [done|]. split; [rewrite X1; in_list|]. split; [rewrite X1; in_list|]. split; [exact X2|].
  clear X2. match type of X1 with _ = ?l => exists (take 11 l), (drop 12 l) end. rewrite X1. split; [reflexivity|]. cbn. in_list.
Qed.
Print Assumptions C109_as_if_one_at_a_time.
Print Assumptions C109_effect_within_call.
Print Assumptions C109_second_add.
Print Assumptions C109_case.
