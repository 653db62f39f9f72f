(** Consequences of the invariants of the event-port model. *)
From stdpp Require Import prelude list gmap.
From Verif Require Import Bits Types EventModel EventSpec EventProofs PortModel PortSpec PortProofs.
Local Open Scope nat_scope.

(* ------------------------------------------------------------------ *)
(** ** Histories *)

Lemma step_log s l s' : step s l = Some s' -> exists o, log s' = log s ++ [o].
Proof.
  destruct l as [fd e m f|fd e m f|fd f|f|fd m|fd|max o]; cbn [step]; intros H.
  - destruct (add _ _ _ _ _). injection H as <-. by eexists.
  - destruct (modify _ _ _ _ _). injection H as <-. by eexists.
  - destruct (delete_fd _ _ _). injection H as <-. by eexists.
  - destruct (notify _ _). injection H as <-. by eexists.
  - injection H as <-. by eexists.
  - injection H as <-. by eexists.
  - destruct (wait _ _ _) as [[[r b] k']|]; [|done]. injection H as <-. by eexists.
Qed.

Lemma reach_at s h1 o h2 :
  reachable s -> log s = h1 ++ o :: h2 ->
  exists s1 l s2, reachable s1 /\ legal l /\ step s1 l = Some s2 /\ log s1 = h1 /\ log s2 = h1 ++ [o].
Proof.
  intros Hr. revert h2. induction Hr as [|s l s' Hr IH Hl Hs]; intros h2 E.
  { cbn in E. by destruct h1. }
  destruct (step_log _ _ _ Hs) as [o' L]. rewrite L in E.
  destruct h2 as [|x h2 _] using rev_ind.
  - apply app_inj_tail in E as [E1 ->]. exists s, l, s'. by rewrite E1 in *.
  - rewrite app_comm_cons, app_assoc in E. apply app_inj_tail in E as [E1 _]. by eapply IH.
Qed.

Lemma linv_reach s : reachable s -> linv s.
Proof.
  induction 1; [|by eapply linv_step]. split; intros fd; cbn.
  - unfold ready. cbn. by rewrite lookup_empty.
  - apply lookup_empty.
Qed.

(* ------------------------------------------------------------------ *)
(** ** Words and keys *)

Lemma registered_key s fd e : reachable s -> registered fd (log s) = Some e -> key_ok e.
Proof.
  intros Hr. revert e. induction Hr as [|s l s' Hr IH Hl Hs]; intros e; [done|].
  destruct (step_log _ _ _ Hs) as [o L]. rewrite L, registered_app. unfold after.
  destruct (registers fd o) as [e1|] eqn:R.
  - intros [= <-]. destruct l as [g x m f|g x m f|g f|f|g m|g|max w]; cbn [step] in Hs.
    + destruct (add _ _ _ _ _) as [r k]. injection Hs as <-. cbn in L. apply app_inj_tail in L as [_ <-].
      cbn in R, Hl. destruct r; [|done..]. case_decide; [|done]. by injection R as <-.
    + destruct (modify _ _ _ _ _) as [r k]. injection Hs as <-. cbn in L. apply app_inj_tail in L as [_ <-].
      cbn in R, Hl. destruct r; [|done..]. case_decide; [|done]. by injection R as <-.
    + destruct (delete_fd _ _ _) as [r k]. injection Hs as <-. cbn in L. by apply app_inj_tail in L as [_ <-].
    + destruct (notify _ _) as [r k]. injection Hs as <-. cbn in L. by apply app_inj_tail in L as [_ <-].
    + injection Hs as <-. cbn in L. by apply app_inj_tail in L as [_ <-].
    + injection Hs as <-. cbn in L. by apply app_inj_tail in L as [_ <-].
    + destruct (wait _ _ _) as [[[r b] k']|]; [|done]. injection Hs as <-. cbn in L.
      by apply app_inj_tail in L as [_ <-].
  - destruct o as [| |g [| |]| | | |]; try (by apply IH);
      try (case_decide; [done|by apply IH]).
Qed.

Lemma happened_small s h1 fd m h2 :
  reachable s -> log s = h1 ++ Happened fd m :: h2 -> truncate POLL_ALL m = m.
Proof.
  intros Hr E. destruct (reach_at _ _ _ _ Hr E) as (s1 & l & s2 & _ & Hl & Hs & E1 & E2).
  rewrite <- E1 in E2. clear E1 E.
  destruct l as [g x y f|g x y f|g f|f|g y|g|max w]; cbn [step] in Hs.
  - destruct (add _ _ _ _ _) as [r k]. injection Hs as <-. cbn in E2. by apply app_inj_tail in E2 as [_ ?].
  - destruct (modify _ _ _ _ _) as [r k]. injection Hs as <-. cbn in E2. by apply app_inj_tail in E2 as [_ ?].
  - destruct (delete_fd _ _ _) as [r k]. injection Hs as <-. cbn in E2. by apply app_inj_tail in E2 as [_ ?].
  - destruct (notify _ _) as [r k]. injection Hs as <-. cbn in E2. by apply app_inj_tail in E2 as [_ ?].
  - injection Hs as <-. cbn in E2. apply app_inj_tail in E2 as [_ [= -> ->]]. done.
  - injection Hs as <-. cbn in E2. by apply app_inj_tail in E2 as [_ ?].
  - destruct (wait _ _ _) as [[[r b] k']|]; [|done]. injection Hs as <-. cbn in E2.
    by apply app_inj_tail in E2 as [_ ?].
Qed.

Definition small (m : N) : Prop := truncate POLL_ALL m = m.
Lemma small_lor a b : small a -> small b -> small (N.lor a b).
Proof. unfold small, truncate. intros Ha Hb. by rewrite N.land_lor_distr_l, Ha, Hb. Qed.
Lemma small_land a b : small a -> small (N.land a b).
Proof.
  unfold small, truncate. intros Ha.
  by rewrite <- N.land_assoc, (N.land_comm b), N.land_assoc, Ha.
Qed.

Lemma small_words fd h :
  (forall h1 g m h2, h = h1 ++ Happened g m :: h2 -> small m) ->
  small (readiness fd h) /\ small (flags_since fd h).
Proof.
  induction h as [|o h IH] using rev_ind; intros H; [done|].
  destruct IH as [I1 I2].
  { intros h1 g m h2 ->. apply (H h1 g m (h2 ++ [o])). by rewrite <- app_assoc. }
  assert (B : small (became fd (readiness fd h) o)).
  { destruct o; cbn; try done; case_decide; try done. by apply (H h fd0 m []). }
  rewrite readiness_app, flags_app. split; [done|].
  destruct (registers fd o); [done|]. destruct o; try done.
  case_decide; [|done]. apply small_lor; [done|]. by apply (H h fd0 m []).
Qed.

Lemma flags_small s fd : reachable s -> small (flags_since fd (log s)).
Proof. intros Hr. apply small_words. intros h1 g m h2 E. by eapply happened_small. Qed.
Lemma readiness_small s fd : reachable s -> small (readiness fd (log s)).
Proof. intros Hr. apply small_words. intros h1 g m h2 E. by eapply happened_small. Qed.

Lemma always_bits b : bit ALWAYS b <-> b = b_hup \/ b = b_err \/ b = b_nval.
Proof.
  unfold bit, ALWAYS, b_hup, b_err, b_nval.
  change POLLERR with (2 ^ 3)%N. change POLLHUP with (2 ^ 4)%N. change POLLNVAL with (2 ^ 5)%N.
  rewrite !N.lor_spec, !N.pow2_bits_eqb, !orb_true_iff, !N.eqb_eq. intuition congruence.
Qed.

Lemma wanted_bits e m b : bit (wanted e m) b <-> asked e b /\ bit m b.
Proof.
  unfold wanted, matching.
  assert (E : bit (N.land m (N.lor (port_interest e) ALWAYS)) b <->
              bit m b /\ (bit (port_interest e) b \/ bit ALWAYS b)).
  { unfold bit. by rewrite N.land_spec, N.lor_spec, andb_true_iff, orb_true_iff. }
  rewrite E, port_interest_bits, always_bits. unfold asked. tauto.
Qed.

Lemma nonzero_bits m : m <> 0%N <-> exists b, bit m b.
Proof.
  split.
  - intros H. exists (N.log2 m). by apply N.bit_log2.
  - intros (b & H) ->. unfold bit in H. by rewrite N.bits_0 in H.
Qed.

(* ------------------------------------------------------------------ *)
(** ** Batches *)

Lemma step_wait s max o s' h r b :
  step s (LWait max o) = Some s' -> log s' = h ++ [WaitRet o r b] ->
  wait (kern s) max o = Some (r, b, kern s') /\ h = log s.
Proof.
  cbn [step]. destruct (wait _ _ _) as [[[r' b'] k']|]; [|done]. intros [= <-]. cbn.
  intros E. by apply app_inj_tail in E as [-> [= -> ->]].
Qed.

Lemma reach_wait s h1 o r b h2 :
  reachable s -> log s = h1 ++ WaitRet o r b :: h2 ->
  exists s1 max s2, reachable s1 /\ 0 < max /\ step s1 (LWait max o) = Some s2 /\ log s1 = h1
    /\ log s2 = h1 ++ [WaitRet o r b] /\ wait (kern s1) max o = Some (r, b, kern s2).
Proof.
  intros Hr E. destruct (reach_at _ _ _ _ Hr E) as (s1 & l & s2 & R1 & Hl & Hs & E1 & E2).
  assert (exists max, l = LWait max o) as [max ->].
  { rewrite <- E1 in E2. clear E1 E.
    destruct l as [g x y f|g x y f|g f|f|g y|g|max w]; cbn [step] in Hs.
    - destruct (add _ _ _ _ _) as [? k]. injection Hs as <-. cbn in E2. by apply app_inj_tail in E2 as [_ ?].
    - destruct (modify _ _ _ _ _) as [? k]. injection Hs as <-. cbn in E2. by apply app_inj_tail in E2 as [_ ?].
    - destruct (delete_fd _ _ _) as [? k]. injection Hs as <-. cbn in E2. by apply app_inj_tail in E2 as [_ ?].
    - destruct (notify _ _) as [? k]. injection Hs as <-. cbn in E2. by apply app_inj_tail in E2 as [_ ?].
    - injection Hs as <-. cbn in E2. by apply app_inj_tail in E2 as [_ ?].
    - injection Hs as <-. cbn in E2. by apply app_inj_tail in E2 as [_ ?].
    - destruct (wait _ _ _) as [[[r' b'] k']|]; [|done]. injection Hs as <-. cbn in E2.
      apply app_inj_tail in E2 as [_ [= -> _ _]]. by eexists. }
  exists s1, max, s2. pose proof (step_wait _ _ _ _ _ _ _ Hs E2) as [W _]. done.
Qed.

Lemma wait_batch k max o r b k' :
  wait k max o = Some (r, b, k') -> b <> [] ->
  o = GEvents /\ r = Ok tt /\ b = map to_event (map (report_of k) (take max (queue k)))
  /\ k' = Kernel (foldl retrieve (assocs k) (take max (queue k))) (drop max (queue k)) (masks k).
Proof.
  unfold wait. destruct o as [|e].
  - case_decide; [done|]. unfold getn. intros [= <- <- <-]. done.
  - destruct e; intros [= <- <- <-]; done.
Qed.

Lemma batch_items s max o r b k' x ev :
  wait (kern s) max o = Some (r, b, k') -> (x, ev) ∈ b ->
  x ∈ queue (kern s) /\ x ∈ take max (queue (kern s)) /\ ev = (to_event (report_of (kern s) x)).2.
Proof.
  intros W H. destruct (wait_batch _ _ _ _ _ _ W) as (-> & -> & -> & ->).
  { intros ->. by apply elem_of_nil in H. }
  rewrite map_map in H. apply elem_of_list_fmap in H as (y & E & Hy).
  assert (y = x) as ->.
  { injection E as -> _. destruct y; cbn; [by destruct (assocs _ !! _)|done]. }
  split; [|split; [done|by rewrite <- E]].
  by apply elem_of_take in Hy as (i & Hi & _); apply elem_of_list_lookup_2 in Hi.
Qed.

(** User events carry the reserved key. *)
Definition own_item : item := IUser 3 (key_to_u64 NOTIFY_KEY).
Lemma queue_step s l s' x :
  step s l = Some s' -> x ∈ users (queue (kern s')) -> x ∈ users (queue (kern s)) \/ x = own_item.
Proof.
  assert (F : forall k fd m, users (queue (fire k fd m)) = users (queue k)).
  { intros k fd m. unfold fire. destruct (assocs k !! fd); [|done]. destruct (is_empty _); [done|].
    cbn. destruct (is_empty _); [|done]. rewrite users_app. cbn. apply app_nil_r. }
  destruct l as [g e m f|g e m f|g f|f|g y|g|max w]; cbn [step]; intros H.
  1,2: unfold add, modify, associate in H; destruct m, f; injection H as <-; cbn [kern]; rewrite ?F; cbn [queue];
    rewrite ?users_unqueue; by left.
  - unfold delete_fd, dissociate in H. destruct f; [injection H as <-; by left|].
    destruct (assocs (kern s) !! g); injection H as <-; cbn [kern forget queue]; rewrite ?users_unqueue; by left.
  - unfold notify in H. destruct f; injection H as <-; [by left|]. cbn [kern send queue].
    rewrite users_app, elem_of_app. cbn. rewrite elem_of_list_singleton. tauto.
  - injection H as <-. cbn [kern]. rewrite F. by left.
  - injection H as <-. cbn [kern forget queue]. rewrite users_unqueue. by left.
  - unfold wait in H. destruct w as [|e].
    + case_decide; [done|]. unfold getn in H. injection H as <-. cbn [kern queue]. intros Hx. left.
      rewrite <- (take_drop max (queue (kern s))), users_app, elem_of_app. by right.
    + destruct e; injection H as <-; by left.
Qed.

Lemma own_items s e u : reachable s -> IUser e u ∈ queue (kern s) -> IUser e u = own_item.
Proof.
  intros Hr H.
  assert (Hu : IUser e u ∈ users (queue (kern s))).
  { unfold users. rewrite elem_of_list_In, filter_In, <- elem_of_list_In. done. }
  clear H. induction Hr as [|s l s' Hr IH Hl Hs]; [by apply elem_of_nil in Hu|].
  destruct (queue_step _ _ _ _ Hs Hu) as [?| ?]; auto.
Qed.

Theorem reports_current s h1 o r b h2 fd ev :
  reachable s -> log s = h1 ++ WaitRet o r b :: h2 -> (IFd fd, ev) ∈ b ->
  exists e, registered fd h1 = Some e
    /\ ev = port_to_event 64 (key_to_u64 (ev_key e)) (wanted e (flags_since fd h1))
    /\ ev_key ev = ev_key e /\ ev_extra ev = wanted e (flags_since fd h1)
    /\ wanted e (flags_since fd h1) <> 0%N.
Proof.
  intros Hr E H. destruct (reach_wait _ _ _ _ _ _ Hr E) as (s1 & max & s2 & R1 & _ & Hs & E1 & E2 & W).
  destruct (batch_items _ _ _ _ _ _ _ _ W H) as (Hq & _ & ->).
  apply (ki_queued _ (kinv_reach _ R1)) in Hq as (a & Ha & Hf).
  pose proof (li_assoc _ (linv_reach _ R1) fd) as L. rewrite Ha in L. unfold entry in L.
  rewrite E1 in L. destruct (registered fd h1) as [e|] eqn:Re; [|done]. injection L as ->.
  exists e. cbn in Hf. cbn [report_of]. rewrite Ha. cbn [to_event rp_user rp_events as_user as_fired snd].
  repeat split; try done.
  - unfold port_to_event. cbn [ev_key]. apply key_roundtrip; [done|].
    rewrite <- E1 in Re. by destruct (registered_key _ _ _ R1 Re).
  - unfold port_to_event. cbn [ev_extra]. unfold wanted, matching. apply small_land.
    rewrite <- E1. by apply flags_small.
Qed.

Theorem reports_own s h1 o r b h2 x y ev :
  reachable s -> log s = h1 ++ WaitRet o r b :: h2 -> (IUser x y, ev) ∈ b -> ev_key ev = NOTIFY_KEY.
Proof.
  intros Hr E H. destruct (reach_wait _ _ _ _ _ _ Hr E) as (s1 & max & s2 & R1 & _ & Hs & E1 & E2 & W).
  destruct (batch_items _ _ _ _ _ _ _ _ W H) as (Hq & _ & ->).
  apply own_items in Hq as [= -> ->]; [|done]. vm_compute. reflexivity.
Qed.

(** Only deliveries end a registration silently; so between two deliveries there is a new one. *)
Lemma registered_none fd h h2 :
  registered fd h = None -> (forall o, o ∈ h2 -> registers fd o = None) ->
  registered fd (h ++ h2) = None.
Proof.
  intros H. induction h2 as [|o h2 IH] using rev_ind; intros N; [by rewrite app_nil_r|].
  rewrite app_assoc, registered_app, IH.
  - unfold after. rewrite (N o) by (rewrite elem_of_app, elem_of_list_singleton; by right).
    destruct o as [| |g [| |]| | | |]; by case_decide.
  - intros x Hx. apply N. rewrite elem_of_app. by left.
Qed.

Theorem one_delivery s h1 o1 h2 o2 h3 fd :
  reachable s -> log s = h1 ++ o1 :: h2 ++ o2 :: h3 -> delivers fd o1 -> delivers fd o2 ->
  exists o, o ∈ h2 /\ registers fd o <> None.
Proof.
  intros Hr E D1 D2.
  destruct (Forall_Exists_dec (fun o => registers fd o = None) (fun o => registers fd o <> None)
              (fun o => match registers fd o as r return {r = None} + {r <> None} with
                        | None => left eq_refl | Some e => right (fun H => eq_ind (Some e) (fun x => match x with Some _ => True | None => False end) I None H) end)
              h2) as [N|X].
  - exfalso. destruct o2 as [| | | | | |o2 r2 b2]; try done.
    assert (R : registered fd (h1 ++ [o1]) = None).
    { rewrite registered_app. destruct o1 as [| | | | | |]; try done. unfold after. cbn [registers].
      by rewrite decide_True. }
    cbn in D2. apply elem_of_list_fmap in D2 as ([x ev] & Ex & Hx). cbn in Ex. subst x.
    assert (E' : log s = ((h1 ++ [o1]) ++ h2) ++ WaitRet o2 r2 b2 :: h3) by (rewrite E, <- !app_assoc; done).
    destruct (reports_current _ _ _ _ _ _ _ _ Hr E' Hx) as (e & Re & _).
    rewrite registered_none in Re; [done|done|]. intros o Ho. by apply (proj1 (Forall_forall _ _) N).
  - apply Exists_exists in X. destruct X as (o & Ho & X). by exists o.
Qed.

Theorem once_per_batch s h1 o r b h2 :
  reachable s -> log s = h1 ++ WaitRet o r b :: h2 -> NoDup (fds (b.*1)).
Proof.
  intros Hr E. destruct (reach_wait _ _ _ _ _ _ Hr E) as (s1 & max & s2 & R1 & _ & Hs & E1 & E2 & W).
  destruct b as [|x b]; [constructor|].
  destruct (wait_batch _ _ _ _ _ _ W) as (_ & _ & Hb & _); [done|]. rewrite Hb.
  change (NoDup (fds (map fst (map to_event (map (report_of (kern s1)) (take max (queue (kern s1)))))))).
  rewrite report_items.
  pose proof (ki_nodup _ (kinv_reach _ R1)) as N.
  rewrite <- (take_drop max (queue (kern s1))), fds_app in N.
  by apply NoDup_app in N as (? & _).
Qed.

(* ------------------------------------------------------------------ *)
(** ** Waiting *)

Theorem wait_answers s max o s' :
  step s (LWait max o) = Some s' ->
  match o with
  | GFail ETIME => log s' = log s ++ [WaitRet o (Ok tt) []]
  | GFail e => log s' = log s ++ [WaitRet o (Err (EOs e)) []]
  | GEvents => exists b, b <> [] /\ log s' = log s ++ [WaitRet o (Ok tt) b] \/ max = 0
  end.
Proof.
  cbn [step]. unfold wait. destruct o as [|e].
  - case_decide as D; [done|]. unfold getn. intros [= <-]. cbn [log].
    exists (map to_event (map (report_of (kern s)) (take max (queue (kern s))))).
    destruct max; [by right|]. left. split; [|done]. destruct (queue (kern s)); done.
  - by destruct e; intros [= <-].
Qed.

Lemma fail_unchanged s max e s' :
  step s (LWait max (GFail e)) = Some s' -> kern s' = kern s.
Proof. cbn [step]. unfold wait. destruct e; by intros [= <-]. Qed.

(** A descriptor that is registered and ready is queued. *)
Lemma flags_cover fd h e b :
  registered fd h = Some e -> bit (readiness fd h) b -> bit (flags_since fd h) b.
Proof.
  revert e. induction h as [|o h IH] using rev_ind; intros e; [done|].
  rewrite registered_app, readiness_app, flags_app. unfold after.
  destruct (registers fd o) as [e1|] eqn:R; [done|].
  destruct o as [| |g [| |]| |g m|g|]; cbn [became]; try (by apply IH);
    try (case_decide; [done|by apply IH]).
  destruct (decide (delivers fd (Happened g m))); [done|].
  destruct (decide (g = fd)); [|by apply IH].
  intros _ Hb. unfold bit. rewrite N.lor_spec, orb_true_iff. by right.
Qed.

Lemma ready_queued s fd e b :
  reachable s -> registered fd (log s) = Some e -> asked e b -> bit (readiness fd (log s)) b ->
  IFd fd ∈ queue (kern s).
Proof.
  intros Hr Re Ha Hb. apply (ki_queued _ (kinv_reach _ Hr)).
  rewrite (li_assoc _ (linv_reach _ Hr)). unfold entry. rewrite Re. eexists. split; [done|]. cbn.
  apply nonzero_bits. exists b. apply wanted_bits. split; [done|]. by eapply flags_cover.
Qed.

Lemma wait_proceeds s max : queue (kern s) <> [] -> exists s', step s (LWait max GEvents) = Some s'.
Proof. intros H. cbn [step]. unfold wait, getn. rewrite decide_False by done. eauto. Qed.

(** What is in the queue stays, in order, until it is retrieved. *)
Definition ahead (fd : Z) (q : list item) : option nat := fst <$> list_find (fun x => x = IFd fd) q.

Lemma ahead_some fd q i : ahead fd q = Some i <-> exists q1 q2, q = q1 ++ IFd fd :: q2 /\ IFd fd ∉ q1 /\ length q1 = i.
Proof.
  unfold ahead. rewrite fmap_Some. split.
  - intros ([j x] & F & ->). apply list_find_Some in F as (L & -> & N). cbn.
    exists (take j q), (drop (S j) q). rewrite take_drop_middle by done. split; [done|]. split.
    + intros (k & Hk & Hj)%elem_of_take. by eapply N.
    + rewrite take_length. apply lookup_lt_Some in L. lia.
  - intros (q1 & q2 & -> & N & <-). exists (length q1, IFd fd). split; [|done].
    apply list_find_Some. split; [by apply list_lookup_middle|]. split; [done|].
    intros k y Hk Hl ->. apply N. rewrite lookup_app_l in Hk by done. by eapply elem_of_list_lookup_2.
Qed.

Lemma unqueue_app l1 l2 fd : unqueue (l1 ++ l2) fd = unqueue l1 fd ++ unqueue l2 fd.
Proof. apply List.filter_app. Qed.
Lemma unqueue_length l fd : length (unqueue l fd) <= length l.
Proof. induction l as [|x l IH]; [done|]. rewrite unqueue_cons. case_decide; cbn [length]; lia. Qed.

Lemma ahead_unqueue fd g q i :
  g <> fd -> ahead fd q = Some i -> exists j, ahead fd (unqueue q g) = Some j /\ j <= i.
Proof.
  intros N H. apply ahead_some in H as (q1 & q2 & -> & Hn & <-).
  exists (length (unqueue q1 g)). split; [|apply unqueue_length].
  apply ahead_some. exists (unqueue q1 g), (unqueue q2 g). split; [|split; [|done]].
  - rewrite unqueue_app, unqueue_cons, decide_True by congruence. done.
  - rewrite elem_unqueue. tauto.
Qed.
Lemma ahead_app fd q q' i : ahead fd q = Some i -> ahead fd (q ++ q') = Some i.
Proof.
  intros H. apply ahead_some in H as (q1 & q2 & -> & Hn & <-). apply ahead_some.
  exists q1, (q2 ++ q'). by rewrite <- app_assoc.
Qed.
Lemma ahead_fire fd q i k g m : queue k = q -> ahead fd q = Some i -> ahead fd (queue (fire k g m)) = Some i.
Proof.
  intros <- H. unfold fire. destruct (assocs k !! g); [|done]. destruct (is_empty _); [done|].
  cbn. destruct (is_empty _); [by apply ahead_app|done].
Qed.

Lemma ahead_step fd s l s' i :
  step s l = Some s' -> ~ touches fd l -> (forall max o, l <> LWait max o) ->
  ahead fd (queue (kern s)) = Some i -> exists j, ahead fd (queue (kern s')) = Some j /\ j <= i.
Proof.
  intros H T Nw A. destruct l as [g e m f|g e m f|g f|f|g y|g|max w]; cbn [step touches] in *.
  1,2: unfold add, modify, associate in H; destruct m, f; injection H as <-; cbn [kern]; eauto;
    destruct (ahead_unqueue fd g _ _ T A) as (j & Hj & L); exists j; split; [|done];
    by eapply ahead_fire; [done|].
  - unfold delete_fd, dissociate in H. destruct f; [injection H as <-; eauto|].
    destruct (assocs (kern s) !! g); injection H as <-; cbn [kern forget queue]; eauto.
    by apply ahead_unqueue.
  - unfold notify in H. destruct f; injection H as <-; [eauto|]. cbn. exists i. split; [|done]. by apply ahead_app.
  - injection H as <-. exists i. split; [|done]. cbn [kern]. by eapply ahead_fire; [done|].
  - injection H as <-. by apply ahead_unqueue.
  - by destruct (Nw max w).
Qed.

Lemma ahead_wait fd s max o s' i :
  step s (LWait max o) = Some s' -> 0 < max ->
  (forall b, log s' = log s ++ [WaitRet o (Ok tt) b] -> IFd fd ∉ b.*1) ->
  ahead fd (queue (kern s)) = Some i ->
  exists j, ahead fd (queue (kern s')) = Some j /\ j + match o with GEvents => 1 | _ => 0 end <= i.
Proof.
  intros H M N A. destruct o as [|e].
  2: { rewrite (fail_unchanged _ _ _ _ H). exists i. split; [done|lia]. }
  cbn [step] in H. unfold wait, getn in H. case_decide as D; [done|]. injection H as <-. cbn [kern log queue] in *.
  specialize (N _ eq_refl).
  change (IFd fd ∉ map fst (map to_event (map (report_of (kern s)) (take max (queue (kern s)))))) in N.
  rewrite report_items in N. apply ahead_some in A as (q1 & q2 & E & Hn & <-). rewrite E in *.
  assert (max <= length q1).
  { destruct (decide (max <= length q1)) as [|X]; [done|]. exfalso. apply N.
    rewrite take_app_ge by lia. rewrite elem_of_app. right.
    destruct (max - length q1) eqn:Z; [lia|]. cbn. by left. }
  exists (length q1 - max). split; [|lia]. apply ahead_some.
  exists (drop max q1), q2. rewrite drop_app_le by done. split; [done|]. split; [|apply drop_length].
  intros X. apply Hn. rewrite <- (take_drop max q1), elem_of_app. by right.
Qed.

Lemma ignored_ahead fd n s s' i :
  ignored fd n s s' -> ahead fd (queue (kern s)) = Some i ->
  exists j, ahead fd (queue (kern s')) = Some j /\ j + n <= i.
Proof.
  induction 1 as [s|n s s1 l s2 H IH Hl T Hs Nw|n s s1 max o s2 H IH Hl Hs N]; intros A.
  - exists i. split; [done|lia].
  - destruct (IH A) as (j & Hj & L). destruct (ahead_step _ _ _ _ _ Hs T Nw Hj) as (j' & Hj' & L').
    exists j'. split; [done|lia].
  - destruct (IH A) as (j & Hj & L). destruct (ahead_wait _ _ _ _ _ _ Hs Hl N Hj) as (j' & Hj' & L').
    exists j'. split; [done|]. destruct o; lia.
Qed.

Theorem not_forgotten fd n s s' e b (regs : list Z) :
  reachable s -> ignored fd n s s' ->
  registered fd (log s) = Some e -> asked e b -> bit (readiness fd (log s)) b ->
  (forall g, registered g (log s) <> None -> g ∈ regs) ->
  n < length regs + length (users (queue (kern s))) /\ IFd fd ∈ queue (kern s').
Proof.
  intros Hr I Re Ha Hb Hregs. pose proof (ready_queued _ _ _ _ Hr Re Ha Hb) as Q.
  assert (exists i, ahead fd (queue (kern s)) = Some i) as [i A].
  { apply elem_of_list_split_l in Q as (q1 & q2 & -> & Hn). exists (length q1). apply ahead_some. eauto. }
  destruct (ignored_ahead _ _ _ _ _ I A) as (j & Hj & L).
  apply ahead_some in A as (q1 & q2 & E & Hn & Hi). split.
  - assert (length (fds (queue (kern s))) <= length regs).
    { apply submseteq_length, NoDup_submseteq; [apply (kinv_reach _ Hr)|].
      intros g Hg%elem_of_fds. apply (ki_queued _ (kinv_reach _ Hr)) in Hg as (a & Hg & _).
      rewrite (li_assoc _ (linv_reach _ Hr)) in Hg. unfold entry in Hg. apply Hregs.
      by destruct (registered g (log s)). }
    pose proof (length_split (queue (kern s))) as X. rewrite E in X at 1. rewrite app_length in X. cbn in X. lia.
  - apply ahead_some in Hj as (? & ? & -> & _). rewrite elem_of_app. right. by left.
Qed.

(* ------------------------------------------------------------------ *)
(** ** Notifications *)

Lemma sent_app h o : sent (h ++ [o]) = sent h + match o with NotifyRet (Ok _) => 1 | _ => 0 end.
Proof.
  unfold sent. rewrite List.filter_app, app_length. f_equal. by destruct o as [| | |[| |]| | |].
Qed.
Lemma told_app h o : told (h ++ [o]) = told h + match o with WaitRet _ _ b => length (List.filter is_own b) | _ => 0 end.
Proof. unfold told. rewrite map_app, list_sum_app. cbn. lia. Qed.

Lemma own_batch k l : length (List.filter is_own (map to_event (map (report_of k) l))) = length (users l).
Proof.
  induction l as [|x l IH]; [done|]. cbn [map List.filter users].
  assert (is_own (to_event (report_of k x)) = match x with IUser _ _ => true | _ => false end) as ->.
  { destruct x; cbn; [by destruct (assocs k !! fd)|done]. }
  destruct x; cbn [length]; fold (users l); congruence.
Qed.

Lemma fire_users k fd m : users (queue (fire k fd m)) = users (queue k).
Proof.
  unfold fire. destruct (assocs k !! fd); [|done]. destruct (is_empty _); [done|].
  cbn. destruct (is_empty _); [|done]. rewrite users_app. cbn. apply app_nil_r.
Qed.

Lemma notifications s : reachable s -> sent (log s) = told (log s) + length (users (queue (kern s))).
Proof.
  induction 1 as [|s l s' Hr IH Hl Hs]; [done|].
  destruct l as [g e m f|g e m f|g f|f|g y|g|max w]; cbn [step] in Hs.
  1,2: unfold add, modify, associate in Hs; destruct m, f; injection Hs as <-; cbn [kern log];
    rewrite sent_app, told_app, ?fire_users; cbn [queue]; rewrite ?users_unqueue; lia.
  - unfold delete_fd, dissociate in Hs. destruct f; [injection Hs as <-; cbn [kern log]; rewrite sent_app, told_app; lia|].
    destruct (assocs (kern s) !! g); injection Hs as <-; cbn [kern log forget queue];
      rewrite sent_app, told_app, ?users_unqueue; lia.
  - unfold notify in Hs. destruct f; injection Hs as <-; cbn [kern log send queue];
      rewrite sent_app, told_app, ?users_app, ?app_length; cbn; lia.
  - injection Hs as <-; cbn [kern log]. rewrite sent_app, told_app, fire_users. cbn [queue]. lia.
  - injection Hs as <-; cbn [kern log forget queue]. rewrite sent_app, told_app, users_unqueue. lia.
  - unfold wait in Hs. destruct w as [|e].
    + case_decide; [done|]. unfold getn in Hs. injection Hs as <-. cbn [kern log queue].
      rewrite sent_app, told_app, own_batch.
      rewrite <- (take_drop max (queue (kern s))), users_app, app_length in IH. lia.
    + destruct e; injection Hs as <-; cbn [kern log]; rewrite sent_app, told_app; cbn; lia.
Qed.
