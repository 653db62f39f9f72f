(** The calls around a completion port come to rest: a measure of the work that is left. *)
From stdpp Require Import prelude list gmap.
From Verif Require Import Bits Types EventModel Pool IocpModel IocpSpec IocpProofs IocpProofs2 IocpProofs3 IocpProofs4 IocpProofs5 IocpProofs6 IocpProofs7 IocpProofs8 IocpProofs9 IocpProofs10 IocpProofs11 IocpProofs12 IocpProofs18 IocpLiveSpec.
Local Open Scope nat_scope.

(** ** Weights: of a queued update, of the call of update_packet, of a completion in the batch and in the port *)
Definition w_pend (N : nat) : nat := 2 * N + 6.
Definition w_upd (N : nat) : nat := w_pend N + 2 * N.
Definition w_batch (N : nat) : nat := w_upd N + 14.
Definition w_queue (N : nat) : nat := w_batch N + 6.

(** [e]: the queue of updates is empty. *)
Definition u_work (e : bool) (u : upc) : nat :=
  match u with
  | UDo => 1
  | UDrainDo _ _ => 5
  | ULoad => if e then 2 else 3
  | UPush => if e then 1 else 2
  | UDrain 0 => if e then 3 else 4
  | UDrain (S _) => if e then 3 else 1
  end.
Definition t_work (N : nat) (e : bool) (q : pc) : nat :=
  match q with
  | Out => 0
  | Ret _ _ => 1
  | Upd _ _ u => w_upd N + u_work e u + 1
  | AInsert _ _ | MSet _ _ => w_upd N + 5
  | AMake _ | MLook _ => w_upd N + 6
  | DBegin _ _ => 2
  | DRemove _ => 3
  | Post _ _ => w_queue N + 2
  | NSwap _ => w_queue N + 3
  end.
Definition w_work (N : nat) (e : bool) (w : wpc) : nat :=
  match w with
  | WOut | WDead _ _ _ => 0
  | WEnd _ | WFail _ _ _ => 1
  | WBlock _ _ => 1
  | WDrain _ => 2
  | WDrainDo _ _ => 3
  | WSwap _ => 3
  | WFeed _ _ b => w_batch N * length b + 5
  | WGot _ _ b => w_batch N * length b + 6
  | WUpd _ _ b _ _ u => w_batch N * length b + w_upd N + u_work e u + 5
  | WOpen _ _ _ b => w_batch N * length b + w_upd N + 10
  end.
Definition is_nil {A} (l : list A) : bool := match l with [] => true | _ => false end.
Definition work_of (N : nat) (q : list pid) (p : list pid) (ts : list pc) (w : wpc) : nat :=
  w_queue N * length q + w_pend N * length p + sum_list_with (t_work N (is_nil p)) ts + w_work N (is_nil p) w.
Definition work (s : state) : nat := work_of (S (length (threads s))) (queue (sys s)) (pending s) (threads s) (waiter s).

(** ** Arithmetic *)
Lemma u_work_change e e' u : u_work e' u <= u_work e u + 2.
Proof. destruct u as [| | |[|]|], e, e'; cbn; lia. Qed.
Lemma t_work_change N e e' q : t_work N e' q <= t_work N e q + 2.
Proof. destruct q; cbn; try lia. pose proof (u_work_change e e' u). lia. Qed.
Lemma w_work_change N e e' w : w_work N e' w <= w_work N e w + 2.
Proof. destruct w; cbn; try lia. pose proof (u_work_change e e' u). lia. Qed.
Definition slack (e e' : bool) : nat := if Bool.eqb e e' then 0 else 2.
Lemma slack_le e e' : slack e e' <= 2.
Proof. destruct e, e'; cbn; lia. Qed.
Lemma t_work_slack N e e' q : t_work N e' q <= t_work N e q + slack e e'.
Proof. unfold slack. destruct e, e'; cbn [Bool.eqb]; try lia; apply t_work_change. Qed.
Lemma w_work_slack N e e' q : w_work N e' q <= w_work N e q + slack e e'.
Proof. unfold slack. destruct e, e'; cbn [Bool.eqb]; try lia; apply w_work_change. Qed.
Lemma sum_slack (f g : pc -> nat) d ts : (forall x, g x <= f x + d) -> sum_list_with g ts <= sum_list_with f ts + d * length ts.
Proof. intros H. induction ts as [|x ts IH]; cbn; [lia|]. specialize (H x). lia. Qed.
Lemma sum_insert (f g : pc -> nat) d ts i q q' : (forall x, g x <= f x + d) -> ts !! i = Some q ->
  sum_list_with g (<[i:=q']> ts) + f q <= sum_list_with f ts + g q' + d * length ts.
Proof.
  intros H. revert i. induction ts as [|x ts IH]; intros i Hi; [done|]. destruct i as [|i]; simplify_eq/=.
  - pose proof (sum_slack f g d ts H). lia.
  - specialize (IH _ Hi). specialize (H x). lia.
Qed.

(** What the steps of update_packet cost the queue and the others. *)
Lemma ustep_work N c s p u o s' x : valid c -> 1 <= N -> ustep c s p u o = (s', x) ->
  queue (sys s') = queue (sys s) /\ threads s' = threads s /\ waiter s' = waiter s /\
  w_pend N * length (pending s') + slack (is_nil (pending s)) (is_nil (pending s')) * N
    + (match x with inl u' => u_work (is_nil (pending s')) u' | inr _ => 0 end) <
  w_pend N * length (pending s) + (match x with inl _ => 0 | inr _ => w_upd N end) + u_work (is_nil (pending s)) u.
Proof.
  intros V HN H. unfold ustep in H. unfold valid in V.
  assert (Sl : forall e, slack e e = 0) by (by intros []).
  destruct u as [| | |[|j]|j q].
  - simplify_eq. split_and!; try done. rewrite Sl. destruct (polling s'), (is_nil (pending s')); cbn; lia.
  - assert (X : queue (sys (do_update s p o).2) = queue (sys s)) by apply update_queue.
    assert (Y : pending (do_update s p o).2 = pending s) by done.
    assert (Z : threads (do_update s p o).2 = threads s) by done. assert (W : waiter (do_update s p o).2 = waiter s) by done.
    destruct (do_update s p o) as [r s1]. cbn [fst snd] in *. simplify_eq. split_and!; try done. rewrite Y, Sl. cbn. lia.
  - case_decide as D; simplify_eq.
    + split_and!; try done. cbn. rewrite app_length. cbn. unfold w_upd.
      assert (slack (is_nil (pending s)) (is_nil (pending s ++ [p])) <= 2) by apply slack_le.
      destruct (is_nil (pending s)); nia.
    + split_and!; try done. rewrite Sl. destruct (pending s') as [|y l] eqn:E; [cbn in D; lia|]. destruct (capacity c); [lia|]. cbn. lia.
  - simplify_eq. split_and!; try done. rewrite Sl. destruct (is_nil (pending s')); cbn; lia.
  - destruct (pending s) as [|y l] eqn:E; simplify_eq.
    + rewrite E. split_and!; try done. cbn. lia.
    + split_and!; try done. cbn. assert (slack false (is_nil l) <= 2) by apply slack_le. unfold w_pend in *. nia.
  - assert (X : queue (sys (do_update s q o).2) = queue (sys s)) by apply update_queue.
    assert (Y : pending (do_update s q o).2 = pending s) by done.
    assert (Z : threads (do_update s q o).2 = threads s) by done. assert (W : waiter (do_update s q o).2 = waiter s) by done.
    destruct (do_update s q o) as [r s1]. cbn [fst snd] in *. destruct r; simplify_eq; split_and!; try done; cbn [pending emit emits set_mem]; rewrite Y, Sl; [|cbn; lia..].
    destruct (is_nil (pending s)), j; cbn; lia.
Qed.

(** ** Steps *)
Lemma work_thread N q q' p p' ts w i t t' :
  S (length ts) = N -> ts !! i = Some t ->
  w_queue N * length q' + w_pend N * length p' + slack (is_nil p) (is_nil p') * N + t_work N (is_nil p') t' <
  w_queue N * length q + w_pend N * length p + t_work N (is_nil p) t ->
  work_of N q' p' (<[i:=t']> ts) w < work_of N q p ts w.
Proof.
  intros HN Hi H. unfold work_of.
  pose proof (sum_insert (t_work N (is_nil p)) (t_work N (is_nil p')) (slack (is_nil p) (is_nil p')) ts i t t' (t_work_slack N _ _) Hi).
  pose proof (w_work_slack N (is_nil p) (is_nil p') w). nia.
Qed.
(** The same with the room that the step itself leaves. *)
Lemma work_thread' N q p ts w i t t' k :
  S (length ts) = N -> ts !! i = Some t -> t_work N (is_nil p) t' + w_queue N * k < t_work N (is_nil p) t -> forall q', length q' <= length q + k ->
  work_of N q' p (<[i:=t']> ts) w < work_of N q p ts w.
Proof.
  intros HN Hi H q' Hq. eapply work_thread; [done..|]. assert (slack (is_nil p) (is_nil p) = 0) as -> by (by destruct (is_nil p)). nia.
Qed.
Lemma thread_work c s i q o s' : valid c -> tinv s -> threads s !! i = Some q -> thread_step c s i q (Go o) = Some s' ->
  length (threads s') = length (threads s) /\ work s' < work s.
Proof.
  intros V T Hi H. set (N := S (length (threads s))).
  assert (Fin : forall q' s1 k, s' = set_pc s1 i q' -> threads s1 = threads s -> pending s1 = pending s -> waiter s1 = waiter s ->
     length (queue (sys s1)) <= length (queue (sys s)) + k -> t_work N (is_nil (pending s)) q' + w_queue N * k < t_work N (is_nil (pending s)) q ->
     length (threads s') = length (threads s) /\ work s' < work s).
  { intros q' s1 k -> Et Ep Ew Eq L. unfold work. cbn [threads queue sys pending waiter set_pc]. rewrite Et, insert_length. split; [done|].
    rewrite Ep, Ew. eapply work_thread'; done. }
  destruct q; cbn [thread_step] in H.
  - done.
  - destruct o as [e|].
    + simplify_eq. eapply (Fin _ s 0); try done; cbn; lia.
    + destruct (new_packet (pmem s) c0) as [[[m p] ob]|]; cbn in H; [|done]. simplify_eq. eapply (Fin _ _ 0); try done; cbn; lia.
  - destruct (insert_packet s c0 p) as [s1|] eqn:E; simplify_eq.
    + assert (threads s1 = threads s /\ pending s1 = pending s /\ waiter s1 = waiter s /\ queue (sys s1) = queue (sys s)) as (E1 & E2 & E3 & E4).
      { unfold insert_packet in E. repeat case_match; simplify_eq; done. }
      eapply (Fin _ s1 0); try done; [rewrite E4; lia|]. cbn. destruct (is_nil (pending s)); cbn; lia.
    + eapply (Fin _ _ 0); try done; cbn; lia.
  - destruct (lookup_packet s c0) as [p|]; simplify_eq; eapply (Fin _ _ 0); try done; cbn; lia.
  - destruct (do_set s c0 p) as [[s1 b]|] eqn:E; cbn in H; [|done]. 
    assert (threads s1 = threads s /\ pending s1 = pending s /\ waiter s1 = waiter s /\ queue (sys s1) = queue (sys s)) as (E1 & E2 & E3 & E4).
    { unfold do_set in E. destruct c0, p; try done; (destruct (_ !! n); cbn in E; [|done]); repeat case_match; simplify_eq; done. }
    destruct b; simplify_eq; (eapply (Fin _ _ 0); try done; [cbn; rewrite E4; lia|cbn; try destruct (is_nil (pending s)); cbn; lia]).
  - destruct (ustep c s p u o) as [s1 x] eqn:E. injection H as <-.
    destruct (ustep_work N c s p u o s1 x V ltac:(unfold N; lia) E) as (E1 & E2 & E3 & E4). unfold work. cbn [threads queue sys pending waiter set_pc].
    rewrite insert_length, E2. split; [done|]. rewrite E1, E3. fold N. eapply work_thread; [done..|].
    assert (slack (is_nil (pending s)) (is_nil (pending s1)) <= 2) by apply slack_le.
    unfold N in *. destruct x; cbn [t_work]; lia.
  - destruct (lookup_packet s c0) as [p|]; simplify_eq; [|eapply (Fin _ _ 0); try done; cbn; lia].
    eapply (Fin _ (remove_packet s c0) 0); try (by destruct c0); [destruct c0; cbn; lia|cbn; lia].
  - assert (X : queue (sys (do_delete s p o).2) = queue (sys s)) by apply delete_queue.
    assert (Y : pending (do_delete s p o).2 = pending s) by done.
    assert (Z : threads (do_delete s p o).2 = threads s) by done. assert (W : waiter (do_delete s p o).2 = waiter s) by done.
    destruct (do_delete s p o) as [r s1]. cbn [fst snd] in *. simplify_eq. eapply (Fin _ s1 0); try done; [rewrite X; lia|cbn; lia].
  - case_match; simplify_eq; eapply (Fin _ _ 0); try done; cbn; lia.
  - destruct (do_post (set_mem s (clone (pmem s) p)) p o) as [r s1] eqn:E.
    assert (threads s1 = threads s /\ pending s1 = pending s /\ waiter s1 = waiter s /\ length (queue (sys s1)) <= length (queue (sys s)) + 1) as (E1 & E2 & E3 & E4).
    { unfold do_post in E. destruct o; simplify_eq; split_and!; try done; cbn; [lia|]. rewrite app_length. cbn. lia. }
    simplify_eq. eapply (Fin _ s1 1); try done; cbn; lia.
  - simplify_eq. eapply (Fin Out (emit s (Returned i c0 r)) 0); try done; cbn; lia.
Qed.

(** ** The waiting thread *)
Lemma work_wait N q q' p p' ts w w' :
  S (length ts) = N ->
  w_queue N * length q' + w_pend N * length p' + slack (is_nil p) (is_nil p') * N + w_work N (is_nil p') w' <
  w_queue N * length q + w_pend N * length p + w_work N (is_nil p) w ->
  work_of N q' p' ts w' < work_of N q p ts w.
Proof.
  intros HN H. unfold work_of.
  pose proof (sum_slack (t_work N (is_nil p)) (t_work N (is_nil p')) (slack (is_nil p) (is_nil p')) ts (t_work_slack N _ _)). nia.
Qed.
Definition has_room (s : state) : Prop := forall l, wloc (waiter s) = Some l -> 0 < lc_cap l.
Lemma wait_work c s a s' : valid c -> has_room s -> own (LWaiter a) = true -> wait_step c s a = Some s' ->
  length (threads s') = length (threads s) /\ work s' < work s.
Proof.
  intros V Rm O H. set (N := S (length (threads s))).
  assert (Sl : forall e, slack e e = 0) by (by intros []).
  assert (Fin : threads s' = threads s ->
     w_queue N * length (queue (sys s')) + w_pend N * length (pending s') + slack (is_nil (pending s)) (is_nil (pending s')) * N + w_work N (is_nil (pending s')) (waiter s') <
     w_queue N * length (queue (sys s)) + w_pend N * length (pending s) + w_work N (is_nil (pending s)) (waiter s) ->
     length (threads s') = length (threads s) /\ work s' < work s).
  { intros Et L. rewrite Et. split; [done|]. unfold work. rewrite Et. by apply work_wait. }
  unfold wait_step in H. unfold has_room in Rm. destruct (waiter s) eqn:Ew; cbn [wloc] in Rm; destruct a; cbn in O; try done; try (by destruct b).
  - simplify_eq. apply Fin; [done|]. cbn. rewrite Sl. lia.
  - destruct (pending s) as [|q r] eqn:Ep; simplify_eq; (apply Fin; [done|]).
    + cbn. rewrite Ep. cbn. lia.
    + cbn. pose proof (slack_le false (is_nil r)). unfold w_pend in *. nia.
  - assert (X : queue (sys (do_update s q o).2) = queue (sys s)) by apply update_queue.
    assert (Y : pending (do_update s q o).2 = pending s) by done. assert (Z : threads (do_update s q o).2 = threads s) by done.
    destruct (do_update s q o) as [r s1]. cbn [fst snd] in *. simplify_eq. apply Fin; [done|]. cbn [sys pending set_waiter waiter]. rewrite X, Y, Sl. destruct r; cbn; lia.
  - case_decide as D; simplify_eq. apply Fin; [done|]. cbn. rewrite Sl, drop_length, take_length. specialize (Rm _ eq_refl).
    destruct (queue (sys s)) as [|y r]; [done|]. cbn [length]. unfold w_queue. nia.
  - simplify_eq. apply Fin; [done|]. cbn. rewrite Sl. lia.
  - destruct b as [|p b].
    + case_match; simplify_eq; (apply Fin; [done|]); cbn; rewrite Sl; lia.
    + simplify_eq. apply Fin; [done|]. cbn. rewrite Sl. unfold w_batch. nia.
  - assert (K : forall s1 w1, s' = set_waiter s1 w1 -> threads s1 = threads s -> pending s1 = pending s -> queue (sys s1) = queue (sys s) ->
      w_work N (is_nil (pending s)) w1 < w_work N (is_nil (pending s)) (WOpen l zero p b) -> length (threads s') = length (threads s) /\ work s' < work s).
    { intros s1 w1 -> E1 E2 E3 L. apply Fin; [done|]. cbn [sys pending set_waiter waiter]. rewrite E2, E3, Sl. lia. }
    destruct p; cbn [feed_step] in H.
    + destruct (socks (pmem s) !! n) as [k|]; cbn [mbind option_bind] in H; [|done]. destruct (feed_sock k) as [k'|k'|k' r].
      * destruct (sources s !! sk_socket k) as [n'|]; [|simplify_eq; eapply (K _ _ eq_refl); try done; cbn; lia].
        case_decide; [simplify_eq; eapply (K _ _ eq_refl); try done; cbn; lia|].
        set (s2 := set_maps _ _ _) in H. assert (X : queue (sys (do_delete s2 (PSock n') o).2) = queue (sys s)) by apply delete_queue.
        assert (Y : pending (do_delete s2 (PSock n') o).2 = pending s) by done. assert (Z : threads (do_delete s2 (PSock n') o).2 = threads s) by done.
        destruct (do_delete s2 (PSock n') o) as [r s3]. cbn [fst snd] in *. destruct r; simplify_eq; (eapply (K _ _ eq_refl); first [exact X|exact Y|exact Z|cbn; lia]).
      * simplify_eq. eapply (K (emit (set_mem s _) (Fed _ _))); try done; cbn; lia.
      * simplify_eq. eapply (K (emit (set_mem s _) (Fed _ _))); try done. cbn. destruct (is_nil (pending s)); cbn; lia.
    + destruct (wtbs (pmem s) !! n) as [k|]; cbn [mbind option_bind] in H; [|done]. destruct (feed_wtb k) as [k1 e1]. simplify_eq.
      eapply (K (emit (set_mem s _) (Fed _ _))); try done. cbn. destruct (is_nil (pending s)); cbn; lia.
    + destruct (customs (pmem s) !! n) as [k|]; cbn [mbind option_bind] in H; [|done]. simplify_eq. eapply (K (emit (set_mem s _) (Fed _ _))); try done; cbn; lia.
    + simplify_eq. eapply (K (emit (set_mem s _) (Fed _ _))); try done; cbn; lia.
  - destruct (ustep c s p u o) as [s1 x] eqn:E.
    destruct (ustep_work N c s p u o s1 x V ltac:(unfold N; lia) E) as (E1 & E2 & E3 & E4).
    destruct x as [u'|[[]|e|]]; simplify_eq; (apply Fin; [done|]); cbn [sys pending set_waiter waiter abandon emits set_mem]; rewrite E1; cbn [w_work]; lia.
  - simplify_eq. apply Fin; [done|]. cbn. rewrite Sl. lia.
  - simplify_eq. apply Fin; [done|]. cbn. rewrite Sl. lia.
Qed.

(** ** Steps from outside *)
Definition grant (N : nat) : nat := w_queue N + 6.
Lemma work_same N q q' p ts ts' w w' k :
  length q' <= length q + k -> sum_list_with (t_work N (is_nil p)) ts' <= sum_list_with (t_work N (is_nil p)) ts ->
  w_work N (is_nil p) w' <= w_work N (is_nil p) w -> work_of N q' p ts' w' <= work_of N q p ts w + w_queue N * k.
Proof. intros. unfold work_of. nia. Qed.
Lemma outside_work c s l s' : own l = false -> step c s l = Some s' ->
  length (threads s') = length (threads s) /\ work s' <= work s + grant (S (length (threads s))).
Proof.
  intros O H. set (N := S (length (threads s))).
  assert (Sl : forall e, slack e e = 0) by (by intros []).
  assert (K : threads s' = threads s -> pending s' = pending s -> waiter s' = waiter s -> length (queue (sys s')) <= length (queue (sys s)) + 1 ->
     length (threads s') = length (threads s) /\ work s' <= work s + grant N).
  { intros E1 E2 E3 E4. rewrite E1. split; [done|]. unfold work. rewrite E1, E2, E3. fold N.
    pose proof (work_same N (queue (sys s)) (queue (sys s')) (pending s) (threads s) (threads s) (waiter s) (waiter s) 1 E4 ltac:(lia) ltac:(lia)). unfold grant. lia. }
  assert (W : forall d, threads s' = threads s -> pending s' = pending s -> queue (sys s') = queue (sys s) -> w_work N (is_nil (pending s)) (waiter s') <= w_work N (is_nil (pending s)) (waiter s) + d ->
     d <= 5 -> length (threads s') = length (threads s) /\ work s' <= work s + grant N).
  { intros d E1 E2 E3 E4 D. rewrite E1. split; [done|]. unfold work. rewrite E1, E2, E3. fold N. unfold work_of, grant. lia. }
  destruct l as [i [cl|o]| | cap d old | a | | |]; cbn in O; try done; cbn [step] in H.
  - destruct (threads s !! i) as [q|] eqn:Hi; [|done]. cbn in H. destruct q; try done. injection H as <-. unfold work. cbn [threads emit emits set_pc pending sys waiter].
    rewrite insert_length. split; [done|]. fold N. unfold work_of.
    pose proof (sum_insert (t_work N (is_nil (pending s))) (t_work N (is_nil (pending s))) 0 (threads s) i Out (entry cl) ltac:(intros; lia) Hi) as X.
    assert (t_work N (is_nil (pending s)) (entry cl) <= grant N).
    { unfold grant, w_queue, w_batch, entry. destruct cl; try case_match; cbn; unfold w_queue, w_batch; lia. }
    cbn [t_work] in X. lia.
  - injection H as <-. by apply K; try (cbn; lia).
  - destruct (waiter s) eqn:Ew; try done. injection H as <-. apply (W 3); try done; cbn; lia.
  - destruct a; try done; cbn in H; unfold wait_step in H; destruct (waiter s) eqn:Ew; try done; try (by destruct b); injection H as <-.
    + apply (W 5); try done; cbn; lia.
    + apply (W 5); try done; cbn; lia.
  - destruct (ops (sys s) !! i) as [x|]; [|done]. cbn in H. destruct (socks (pmem s) !! op_pk x) as [y|]; [|done]. cbn in H. injection H as <-.
    apply K; try done. cbn. rewrite app_length. cbn. lia.
  - destruct (waits (sys s) !! h) as [x|]; [|done]. cbn in H. injection H as <-. apply K; try done. cbn. lia.
  - destruct (cbs (sys s) !! j) as [[n|n]|]; [| |done]; cbn in H.
    + destruct (wtbs (pmem s) !! n) as [x|]; [|done]. cbn in H. injection H as <-. apply K; try done. cbn. lia.
    + injection H as <-. destruct o; cbn; apply K; try done; cbn; [lia|]. rewrite app_length. cbn. lia.
Qed.
Lemma wait_cap c s a s' l' : wait_step c s a = Some s' -> wloc (waiter s') = Some l' -> exists l, wloc (waiter s) = Some l /\ lc_cap l' = lc_cap l.
Proof.
  assert (Put : forall l p r, lc_cap (put l p r) = lc_cap l) by (by intros l p []).
  unfold wait_step. intros H W. destruct (waiter s) eqn:Ew; try done; exists l; (split; [done|]).
  - destruct a; try done. injection H as <-. cbn in W. by injection W as <-.
  - destruct a; try done. destruct (pending s); injection H as <-; cbn in W; by injection W as <-.
  - destruct a; try done. destruct (do_update s q o) as [r s1]. injection H as <-. cbn in W. destruct r; try done; cbn in W; by injection W as <-.
  - destruct a; try done; [| |case_decide; [done|]]; injection H as <-; cbn in W; by injection W as <-.
  - destruct a; try done. injection H as <-. cbn in W. by injection W as <-.
  - destruct b, a; try done; try case_match; injection H as <-; cbn in W; by injection W as <-.
  - destruct a; try done. destruct p; cbn [feed_step] in H.
    + destruct (socks (pmem s) !! n) as [k|]; cbn [mbind option_bind] in H; [|done]. destruct (feed_sock k) as [k'|k'|k' r].
      * destruct (sources s !! sk_socket k) as [n'|]; [|injection H as <-; done]. case_decide; [injection H as <-; done|].
        destruct (do_delete _ (PSock n') o) as [r s3]. destruct r; injection H as <-; cbn in W; try done; by injection W as <-.
      * injection H as <-. cbn in W. by injection W as <-.
      * injection H as <-. cbn in W. by injection W as <-.
    + destruct (wtbs (pmem s) !! n) as [k|]; cbn [mbind option_bind] in H; [|done]. destruct (feed_wtb k). injection H as <-. cbn in W. by injection W as <-.
    + destruct (customs (pmem s) !! n) as [k|]; cbn [mbind option_bind] in H; [|done]. injection H as <-. cbn in W. by injection W as <-.
    + injection H as <-. cbn in W. by injection W as <-.
  - destruct a; try done. destruct (ustep c s p u o) as [s1 [u'|[[]|e|]]]; injection H as <-; cbn in W; try done; injection W as <-; done.
  - destruct a; try done. by injection H as <-.
  - destruct a; try done. by injection H as <-.
Qed.
Lemma room_reach c s : reachable c s -> has_room s.
Proof.
  induction 1 as [n|s l s' R IH L H]; [by intros l|]. pose proof (tinv_reach _ _ R) as T. unfold has_room in *. destruct l; cbn in H.
  - destruct (threads s !! i) as [q|] eqn:Hq; [|done]. cbn in H. destruct (thread_log _ _ _ _ _ _ T Hq H) as (E & _). by rewrite E.
  - by injection H as <-.
  - destruct (waiter s); try done. injection H as <-. cbn in L |- *. intros l [= <-]. done.
  - intros l' Hl. destruct (wait_cap _ _ _ _ _ H Hl) as (l0 & H0 & ->). by apply IH.
  - destruct (ops (sys s) !! i) as [x|]; [|done]. cbn in H. destruct (socks (pmem s) !! op_pk x) as [y|]; [|done]. cbn in H. by injection H as <-.
  - destruct (waits (sys s) !! h) as [x|]; [|done]. cbn in H. by injection H as <-.
  - destruct (cbs (sys s) !! j) as [[n|n]|]; [| |done]; cbn in H.
    + destruct (wtbs (pmem s) !! n) as [x|]; [|done]. cbn in H. by injection H as <-.
    + injection H as <-. by destruct o.
Qed.
Lemma own_work c s l s' : valid c -> reachable c s -> own l = true -> step c s l = Some s' -> length (threads s') = length (threads s) /\ work s' < work s.
Proof.
  intros V R O H. destruct l as [i [|o]| | | a | | |]; try done.
  - cbn in H. destruct (threads s !! i) as [q|] eqn:Hq; [|done]. cbn in H. eapply thread_work; try done. by eapply tinv_reach.
  - eapply wait_work; try done. by eapply room_reach.
Qed.
Lemma goes_reachable c s a e s' : reachable c s -> goes c s a e s' -> reachable c s'.
Proof. intros R. induction 1; [done| |]; by eapply reach_step. Qed.
Lemma goes_work c s a e s' : valid c -> reachable c s -> goes c s a e s' ->
  length (threads s') = length (threads s) /\ a + work s' <= work s + grant (S (length (threads s))) * e.
Proof.
  intros V R G. induction G as [|a e s1 l s2 G [L W] O Le H|a e s1 l s2 G [L W] O Le H]; [split; [done|lia]| |]; pose proof (goes_reachable _ _ _ _ _ R G) as R1.
  - destruct (own_work _ _ _ _ V R1 O H) as [L2 W2]. split; [congruence|lia].
  - destruct (outside_work _ _ _ _ O H) as [L2 W2]. rewrite L in W2. split; [congruence|lia].
Qed.

(** ** Nobody is stuck *)
Lemma thread_goes c s i q : tinv s -> threads s !! i = Some q -> q <> Out -> exists s', step c s (LThread i (Go None)) = Some s'.
Proof.
  intros T Hi Nq. pose proof (t_pc _ T _ _ Hi) as P. cbn [step]. rewrite Hi. cbn [mbind option_bind]. destruct q; cbn [thread_step]; cbn [pc_ok] in P; try done.
  - destruct c0; try done; cbn; by eexists.
  - destruct (insert_packet s c0 p); by eexists.
  - destruct (lookup_packet s c0); by eexists.
  - destruct P as [P1 P2]. destruct c0; try done; destruct p; try done; destruct P2 as (k & E & _); unfold do_set; rewrite E; cbn; by eexists.
  - destruct (ustep c s p u None). by eexists.
  - destruct (lookup_packet s c0); by eexists.
  - destruct (do_delete s p None). by eexists.
  - case_match; by eexists.
  - cbn. by eexists.
  - by eexists.
Qed.
Lemma waiter_goes c s : tinv s ->
  match waiter s with
  | WOut | WDead _ _ _ => True
  | WBlock _ _ => queue (sys s) <> [] -> exists s', step c s (LWaiter WEvents) = Some s'
  | _ => exists a s', own (LWaiter a) = true /\ step c s (LWaiter a) = Some s'
  end.
Proof.
  intros T. pose proof (t_wait _ T) as P. cbn [step]. unfold wait_step. destruct (waiter s) eqn:Ew; try done.
  - by exists (WGo None); eexists.
  - exists (WTime 0%N). destruct (pending s); by eexists.
  - exists (WGo None). destruct (do_update s q None). by eexists.
  - intros Q. rewrite decide_False by done. by eexists.
  - by exists (WGo None); eexists.
  - exists (WGo None). destruct b; [case_match|]; by eexists.
  - exists (WGo None). cbn in P. apply Forall_cons in P as [P _]. destruct p; cbn [feed_step]; cbn in P.
    + destruct P as [k ->]. cbn [mbind option_bind]. destruct (feed_sock k) as [k'|k'|k' r]; [|by eexists..].
      destruct (sources s !! sk_socket k) as [n'|]; [|by eexists]. case_decide; [by eexists|]. destruct (do_delete _ (PSock n') None) as [r s3]. by eexists.
    + destruct P as [k ->]. cbn [mbind option_bind]. destruct (feed_wtb k). by eexists.
    + destruct P as [k ->]. by eexists.
    + by eexists.
  - exists (WGo None). destruct (ustep c s p u None). by eexists.
  - by exists (WGo None); eexists.
  - by exists (WGo None); eexists.
Qed.
Lemma rests_or_goes c s : reachable c s -> resting s \/ exists l s', own l = true /\ legal s l /\ step c s l = Some s'.
Proof.
  intros R. pose proof (tinv_reach _ _ R) as T.
  set (busy := fun q : pc => match q with Out => false | _ => true end). destruct (cnt busy (threads s)) as [|k] eqn:E.
  2: { destruct (cnt_pos busy (threads s) ltac:(lia)) as (i & q & Hi & Nq).
       destruct (thread_goes c s i q T Hi) as [s' H]; [by intros ->|]. right. by exists (LThread i (Go None)), s'. }
  assert (A : forall i q, threads s !! i = Some q -> q = Out).
  { intros i q Hi. pose proof (proj1 (cnt_zero busy (threads s)) E _ _ Hi). by destruct q. }
  pose proof (waiter_goes c s T) as W. unfold resting. destruct (waiter s) eqn:Ew; try (by left); try (destruct W as (a & s' & O & H); right; by exists (LWaiter a), s').
  destruct (decide (queue (sys s) = [])) as [Q|Q]; [by left|]. destruct (W Q) as [s' H]. right. by exists (LWaiter WEvents), s'.
Qed.
Lemma comes_to_rest c s : valid c -> reachable c s -> exists a s', goes c s a 0 s' /\ resting s'.
Proof.
  intros V. remember (work s) as n eqn:En. revert s En. induction (lt_wf n) as [n _ IH]. intros s -> R.
  destruct (rests_or_goes c s R) as [Rs|(l & s1 & O & L & H)]; [exists 0, s; by split; [constructor|]|].
  destruct (own_work _ _ _ _ V R O H) as [_ W]. destruct (IH _ W s1 eq_refl) as (a & s' & G & Rs); [by eapply reach_step|].
  exists (S a), s'. split; [|done]. clear IH W Rs. remember 0 as e eqn:Ee in G. induction G as [|a e s2 l2 s3 G IH O2 L2 H2|]; [|subst|done].
  - eapply goes_own; [constructor|done..].
  - eapply goes_own; [by apply IH|done..].
Qed.

(** ** A wait() that is due returns *)
Lemma wait_out c s l s' : tinv s -> step c s l = Some s' -> waiter s <> WOut -> waiter s' = WOut -> exists r evs, log s' = log s ++ [WaitRet r evs].
Proof.
  intros T H W W'. destruct (step_cases _ _ _ _ H) as [(i & q & a & _ & Hq & X)|[(a & _ & X)|[(cap & d0 & old & Ew & ->)|X]]].
  - destruct (thread_log _ _ _ _ _ _ T Hq X) as (E & _). congruence.
  - clear H. unfold wait_step in X. destruct (waiter s) eqn:Ew; try done.
    + destruct a; try done. by injection X as <-.
    + destruct a; try done. destruct (pending s); by injection X as <-.
    + destruct a; try done. destruct (do_update s q o) as [r s1]. injection X as <-. by destruct r.
    + destruct a; try done; [| |case_decide; [done|]]; by injection X as <-.
    + destruct a; try done. by injection X as <-.
    + destruct b, a; try done; try case_match; by injection X as <-.
    + destruct a; try done. destruct p; cbn [feed_step] in X.
      * destruct (socks (pmem s) !! n) as [k|]; cbn [mbind option_bind] in X; [|done]. destruct (feed_sock k) as [k'|k'|k' r]; [|by injection X as <-..].
        destruct (sources s !! sk_socket k) as [n'|]; [|by injection X as <-]. case_decide; [by injection X as <-|].
        destruct (do_delete _ (PSock n') o) as [r s3]. by destruct r; injection X as <-.
      * destruct (wtbs (pmem s) !! n) as [k|]; cbn [mbind option_bind] in X; [|done]. destruct (feed_wtb k). by injection X as <-.
      * destruct (customs (pmem s) !! n) as [k|]; cbn [mbind option_bind] in X; [|done]. by injection X as <-.
      * by injection X as <-.
    + destruct a; try done. destruct (ustep c s p u o) as [s1 [u'|[[]|e|]]]; by injection X as <-.
    + destruct a; try done. injection X as <-. by eexists _, _.
    + destruct a; try done. injection X as <-. by eexists _, _.
  - done.
  - destruct (env_log _ _ _ _ H X) as (E & _). congruence.
Qed.
Lemma goes_log c s a e s' : reachable c s -> goes c s a e s' ->
  exists d, log s' = log s ++ d /\ (waiter s <> WOut -> waiter s' = WOut -> exists r evs, WaitRet r evs ∈ d).
Proof.
  intros R G.
  assert (St : forall s1 l s2 d, reachable c s1 -> log s1 = log s ++ d -> (waiter s <> WOut -> waiter s1 = WOut -> exists r evs, WaitRet r evs ∈ d) ->
     step c s1 l = Some s2 -> exists d', log s2 = log s ++ d' /\ (waiter s <> WOut -> waiter s2 = WOut -> exists r evs, WaitRet r evs ∈ d')).
  { intros s1 l s2 d R1 E W H. pose proof (tinv_reach _ _ R1) as T. destruct (step_log _ _ _ _ T H) as [d1 E1]. exists (d ++ d1). split; [by rewrite E1, E, app_assoc|].
    intros N0 N2. destruct (waiter s1) eqn:Ew.
    1: { destruct (W N0 eq_refl) as (r & evs & Hi). exists r, evs. apply elem_of_app. by left. }
    all: destruct (wait_out _ _ _ _ T H) as (r & evs & E2); [by rewrite Ew|done|]; rewrite E1 in E2; apply app_inv_head in E2 as ->;
      exists r, evs; apply elem_of_app; right; by constructor. }
  induction G as [|a e s1 l s2 G IH O L H|a e s1 l s2 G IH O L H].
  - exists []. rewrite app_nil_r. by split.
  - destruct IH as (d & E & W). exact (St _ _ _ _ (goes_reachable _ _ _ _ _ R G) E W H).
  - destruct IH as (d & E & W). exact (St _ _ _ _ (goes_reachable _ _ _ _ _ R G) E W H).
Qed.
Lemma since_kept start fin reset d x : x.2 = true -> Forall (fun o => reset o = false) d -> (fold_left (since_step start fin reset) d x).2 = true.
Proof.
  revert x. induction d as [|o d IH]; intros x Hx F; [done|]. apply Forall_cons in F as [F1 F2]. cbn. apply IH; [|done].
  unfold since_step. rewrite F1. repeat case_match; cbn; try done. by rewrite Hx.
Qed.
Lemma due_returns c s a e s' : reachable c s -> waiter s <> WOut -> notify_due (log s) -> no_wait_failed (log s) ->
  goes c s a e s' -> resting s' -> Fault PWake ∉ log s' ->
  (exists r evs d, log s' = log s ++ d /\ WaitRet r evs ∈ d) \/ exists n b e, Done n b e ∈ log s' /\ intersects e AFD_LOCAL_CLOSE = true.
Proof.
  intros R W Du Nf G Rs NF. pose proof (goes_reachable _ _ _ _ _ R G) as R'. destruct (goes_log _ _ _ _ _ R G) as (d & E & Wd).
  destruct (decide (Exists (fun o => wait_end o = true) d)) as [X|X].
  { apply Exists_exists in X as (o & Ho & Eo). destruct o; try done. left. eauto. }
  assert (Wn : forall r evs, WaitRet r evs ∉ d) by (intros r evs Hi; apply X, Exists_exists; by eexists; split; [exact Hi|]).
  destruct Rs as [Th Rw]. destruct (waiter s') eqn:Ew; try done.
  - destruct (Wd W eq_refl) as (r & evs & Hi). by apply Wn in Hi.
  - destruct (due_posted c s' l zero R') as [Q|[i Hi]]; try done.
    + unfold notify_due, since. rewrite E, fold_left_app. apply since_kept; [exact Du|]. apply Forall_forall. intros o Ho. destruct o; try done. by apply Wn in Ho.
    + intros e0 evs. rewrite E. intros [Hi|Hi]%elem_of_app; [by apply Nf in Hi|by apply Wn in Hi].
    + rewrite Rw in Q. by apply not_elem_of_nil in Q.
    + by apply Th in Hi.
  - right. destruct (IocpProofs10.dead_reach _ _ R') as (n & b0 & e0 & Hi); [by rewrite Ew|]. eauto.
Qed.
