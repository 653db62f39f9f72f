(** What is owed to a registered waitable handle (C107). *)
From stdpp Require Import prelude list gmap.
From Verif Require Import Bits Types EventModel Pool IocpModel IocpSpec IocpProofs IocpProofs2 IocpProofs3 IocpProofs4 IocpProofs5 IocpProofs6 IocpProofs7 IocpProofs8 IocpProofs11 IocpProofs12.
Local Open Scope nat_scope.

(* ------------------------------------------------------------------ *)
(** ** A waitable that waits has a wait; one that is cancelled was removed *)

Definition watched (st : nat -> option wstatus) (k : kern) (h : list obs) : Prop :=
  (forall n x, st n = Some (WWaiting x) -> waits k !! x = Some n \/ CbStart n ∈ cbs k)
  /\ (forall n, st n = Some WCancelled -> Removed (PWait n) ∈ h).
Lemma watched_ext st st' k k' h h' : watched st k h -> (forall n, st' n = st n) -> waits k' = waits k -> cbs k' = cbs k ->
  (forall n, Removed (PWait n) ∈ h -> Removed (PWait n) ∈ h') -> watched st' k' h'.
Proof.
  intros [A B] ES EW EC EH. split.
  - intros n x. rewrite ES, EW, EC. apply A.
  - intros n. rewrite ES. intros X. by apply EH, B.
Qed.
Lemma watched_update m k p o h : IocpProofs2.winv (status_of m) k -> watched (status_of m) k h ->
  watched (status_of (ef_mem (update m k p o))) (ef_sys (update m k p o)) h.
Proof.
  intros W I. unfold update, afd_poll, afd_cancel. destruct p as [n|n|n|]; try exact I.
  - repeat case_match; cbn [ef_mem ef_sys]; try exact I; (eapply watched_ext; [exact I|done..]).
  - destruct (wtbs m !! n) as [w|] eqn:E; [|exact I]. case_match; [exact I|].
    destruct (wt_status w) eqn:Es; try exact I. destruct o; [exact I|].
    cbn [ef_mem ef_sys]. destruct I as [A B]. set (w' := wt_with w (wt_interest w) (wt_mode w) (WWaiting (fresh k))).
    assert (S : forall j, status_of (clone (set_wtb m n w') (PWait n)) j = if decide (j = n) then Some (WWaiting (fresh k)) else status_of m j).
    { intros j. exact (status_wtb m n w' w j E). }
    split.
    + intros j x. rewrite S. cbn [waits cbs]. case_decide as D.
      * intros [= <-]. left. rewrite lookup_insert. by subst.
      * intros X. destruct (A _ _ X) as [Y|Y]; [left|by right]. rewrite lookup_insert_ne; [done|]. pose proof (w_fresh _ _ W _ _ X). lia.
    + intros j. rewrite S. case_decide; [done|]. apply B.
Qed.
Lemma watched_delete m k p o h : IocpProofs2.winv (status_of m) k -> watched (status_of m) k h ->
  watched (status_of (ef_mem (begin_delete m k p o))) (ef_sys (begin_delete m k p o)) (h ++ [Removed p]).
Proof.
  intros W I.
  assert (I' : watched (status_of m) k (h ++ [Removed p])).
  { eapply watched_ext; [exact I|done..|]. intros j X. apply elem_of_app. by left. }
  unfold begin_delete, afd_cancel. destruct p as [n|n|n|]; try exact I'.
  - repeat case_match; cbn [ef_mem ef_sys]; try exact I'; (eapply watched_ext; [exact I'|done..]).
  - destruct (wtbs m !! n) as [w|] eqn:E; [|exact I'].
    set (w' := wt_with w (wt_interest w) (wt_mode w) WCancelled).
    assert (S : forall j, status_of (set_wtb m n w') j = if decide (j = n) then Some WCancelled else status_of m j).
    { intros j. exact (status_wtb m n w' w j E). }
    assert (C : forall j, status_of (set_wtb m n w') j = Some WCancelled -> Removed (PWait j) ∈ h ++ [Removed (PWait n)]).
    { intros j. rewrite S. case_decide; [subst|apply I']. intros _. apply elem_of_app. right. constructor. }
    assert (D : forall k', cbs k' = cbs k -> (forall x j, j <> n -> waits k !! x = Some j -> waits k' !! x = Some j) ->
      watched (status_of (set_wtb m n w')) k' (h ++ [Removed (PWait n)])).
    { intros k' EC EW. split; [|exact C]. intros j x. rewrite S, EC. case_decide as Z; [done|]. intros X.
      destruct (proj1 I _ _ X) as [Y|Y]; [left; by apply EW|by right]. }
    destruct (wt_status w) eqn:Es; cbn [ef_mem ef_sys]; apply D; try done.
    intros x j Hj Hx. cbn. rewrite lookup_delete_ne; [done|]. intros ->. apply (w_waits _ _ W) in Hx.
    apply Hj. apply (w_inj _ _ W x); [done|]. unfold status_of. rewrite E. cbn. congruence.
Qed.

Definition swatched (s : state) : Prop := watched (status_of (pmem s)) (sys s) (log s).
Lemma swatched_ext s s' : swatched s -> (forall n, status_of (pmem s') n = status_of (pmem s) n) -> sys s' = sys s ->
  (exists d, log s' = log s ++ d) -> swatched s'.
Proof.
  intros W S E [d L]. eapply watched_ext; [exact W|done|by rewrite E..|]. intros n X. rewrite L. apply elem_of_app. by left.
Qed.
Lemma swatched_emits s d : swatched s -> swatched (emits s d).
Proof. intros W. eapply swatched_ext; [exact W|done..|by exists d]. Qed.
Lemma swatched_update s p o : swinv s -> swatched s -> swatched (do_update s p o).2.
Proof.
  intros V W. pose proof (watched_update (pmem s) (sys s) p o (log s) V W) as X.
  eapply watched_ext; [exact X|done..|]. intros n Y. cbn. apply elem_of_app. by left.
Qed.
Lemma swatched_delete s p o : swinv s -> swatched s -> swatched (do_delete s p o).2.
Proof.
  intros V W. pose proof (watched_delete (pmem s) (sys s) p o (log s) V W) as X.
  eapply watched_ext; [exact X|done..|]. intros n Y. cbn. set_solver.
Qed.
Lemma swatched_post s p o : swatched s -> swatched (do_post s p o).2.
Proof. intros W. destruct o; cbn; [by apply (swatched_emits (leak s [p]))|]. eapply watched_ext; [exact W|done..|]. intros n X. cbn. apply elem_of_app. by left. Qed.
Lemma swatched_ustep c s p u o s' x : swinv s -> swatched s -> ustep c s p u o = (s', x) -> swatched s'.
Proof.
  intros V W H. unfold ustep in H. destruct u as [| | |[|n]|n q]; try (repeat case_match; simplify_eq; exact W).
  - pose proof (swatched_update s p o V W). destruct (do_update s p o). by simplify_eq.
  - pose proof (swatched_update s q o V W) as W'. destruct (do_update s q o) as [r s1].
    destruct r; simplify_eq; try exact W'; exact (swatched_emits _ _ W').
Qed.
Lemma swatched_abandon s b : swatched s -> swatched (abandon s b).
Proof. intros W. eapply swatched_ext; [exact W| |done|by eexists]. intros n. apply status_eq, wtbs_discards. Qed.

Lemma swatched_thread c s i q a s' :
  tinv s -> swinv s -> swatched s -> threads s !! i = Some q -> thread_step c s i q a = Some s' -> swatched s'.
Proof.
  intros T V W Hq H. destruct q, a; try done; unfold thread_step in H; try (simplify_eq; first [exact W|exact (swatched_emits _ _ W)]).
  - destruct o; [by simplify_eq|]. destruct (new_packet _ _) as [[[m p] ob]|] eqn:E; simplify_eq/=.
    destruct c0; simplify_eq/=; [exact (swatched_emits _ _ W)|].
    assert (F : wtbs (pmem s) !! next (pmem s) = None).
    { apply eq_None_not_Some. intros ?%(t_dom _ T). lia. }
    set (n := next (pmem s)) in *.
    assert (S' : forall j, status_of (clone (Mem (socks (pmem s)) (<[n:=Wtb h e m0 WIdle]> (wtbs (pmem s)))
        (customs (pmem s)) (S n) (refs (pmem s))) (PWait n)) j
        = if decide (j = n) then Some WIdle else status_of (pmem s) j).
    { intros j. unfold status_of. cbn. case_decide; [subst j; by rewrite lookup_insert|by rewrite lookup_insert_ne]. }
    destruct W as [A B]. split; intros *; cbn [sys pmem set_pc set_mem log emit emits]; rewrite S'; case_decide; try done.
    + apply A.
    + intros X%B. apply elem_of_app. by left.
  - destruct (insert_packet _ _ _) eqn:E; simplify_eq; [|exact W].
    destruct c0, p; cbn in E; try done; case_match; simplify_eq; exact (swatched_emits _ _ W).
  - destruct (lookup_packet _ _); simplify_eq; exact W.
  - destruct (do_set _ _ _) as [[s1 b]|] eqn:E; simplify_eq/=.
    assert (W1 : swatched s1).
    { destruct c0, p; cbn in E; try done.
      - destruct (socks _ !! _); simplify_eq/=. exact (swatched_emits _ _ W).
      - destruct (wtbs _ !! _) eqn:Ew; simplify_eq/=. eapply swatched_ext; [exact W| |done|by eexists].
        intros j. eapply status_same; [done|]. done. }
    destruct b; simplify_eq; exact W1.
  - destruct (ustep _ _ _ _ _) as [s1 x] eqn:E. simplify_eq. by eapply (swatched_ustep _ _ _ _ _ _ _ V W E).
  - destruct (lookup_packet _ _); simplify_eq; [|exact W]. by destruct c0.
  - pose proof (swatched_delete s p o V W) as W'. destruct (do_delete _ _ _) as [r s1]. by simplify_eq.
  - destruct (notified s); simplify_eq; exact W.
  - pose proof (swatched_post (set_mem s (clone (pmem s) p)) p o W) as W'. destruct (do_post _ _ _) as [r s1]. by simplify_eq.
Qed.
Lemma swatched_feed s l z p b o s' : swinv s -> swatched s -> feed_step s l z p b o = Some s' -> swatched s'.
Proof.
  intros V W H. destruct p as [n|n|n|]; unfold feed_step in H; [..|simplify_eq; exact (swatched_emits _ _ W)].
  - destruct (socks (pmem s) !! n) as [k|] eqn:E; [|done]. cbn [mbind option_bind] in H.
    destruct (feed_sock k) as [k'|k'|k' r] eqn:F; [|simplify_eq; exact (swatched_emits _ _ W)..].
    destruct (sources s !! sk_socket k) as [n'|] eqn:Es; [case_decide|];
      [simplify_eq; exact (swatched_emits _ _ W)| |simplify_eq; exact (swatched_emits _ _ W)].
    match type of H with context [do_delete ?st ?p _] => pose proof (swatched_delete st p o) as W'; destruct (do_delete st p o) as [r s3] end.
    specialize (W' V (swatched_emits _ _ W)). cbn [snd] in W'.
    destruct r; simplify_eq; [exact W'|exact (swatched_abandon (set_mem s3 (drop_ref (pmem s3) (PSock n))) b W')|exact W'].
  - destruct (wtbs (pmem s) !! n) as [k|] eqn:E; [|done]. cbn in H. simplify_eq.
    eapply swatched_ext; [exact W| |done|by eexists]. intros j. eapply status_same; [done|]. by destruct (wt_mode k).
  - destruct (customs (pmem s) !! n) as [e|]; [|done]. simplify_eq/=. exact (swatched_emits _ _ W).
Qed.
Lemma swatched_wait c s a s' : swinv s -> swatched s -> wait_step c s a = Some s' -> swatched s'.
Proof.
  intros V W H. unfold wait_step in H.
  destruct (waiter s) as [|l|l|l q|l z|l z b|l z b|l z p b|l z b ret p u|l e g|l|d own b] eqn:E, a;
    try done; try (by destruct b); try (simplify_eq; first [exact W|exact (swatched_emits _ _ W)]).
  - destruct (pending s); simplify_eq; [exact (swatched_emits _ _ W)|exact W].
  - pose proof (swatched_update s q o V W) as W'. destruct (do_update s q o) as [r s1]. by simplify_eq.
  - case_decide; simplify_eq. (eapply watched_ext; [exact W|done..]).
  - destruct b as [|p b]; [case_match; simplify_eq; exact W|]. simplify_eq.
    eapply swatched_ext; [exact W| |done|exists []; by rewrite app_nil_r]. intros n. apply status_eq, wtbs_unlock.
  - by eapply swatched_feed.
  - destruct (ustep _ _ _ _ _) as [s1 x] eqn:Eu. apply swatched_ustep in Eu; [|done..]. destruct x as [u'|[]]; simplify_eq; try exact Eu.
    exact (swatched_abandon _ b Eu).
Qed.
Lemma cb_insert (l : list cb) j n x : l !! j = Some (CbStart n) -> x <> CbStart n -> x ∈ l -> x ∈ <[j:=CbPost n]> l.
Proof.
  intros Hj Hx (i & Hi)%elem_of_list_lookup. destruct (decide (i = j)) as [->|]; [congruence|].
  apply elem_of_list_lookup. exists i. by rewrite list_lookup_insert_ne.
Qed.
Lemma cb_remove (l : list cb) j n x : l !! j = Some (CbPost n) -> x <> CbPost n -> x ∈ l -> x ∈ remove_nth j l.
Proof.
  intros Hj Hx Hin. rewrite <- (take_drop_middle l j _ Hj) in Hin. unfold remove_nth.
  apply elem_of_app in Hin as [?|[->|?]%elem_of_cons]; [|done|]; apply elem_of_app; auto.
Qed.
Lemma swatched_step c s l s' : tinv s -> swinv s -> swatched s -> step c s l = Some s' -> swatched s'.
Proof.
  intros T V W H. destruct l; cbn -[do_post] in H.
  - destruct (threads s !! i) eqn:E; [|done]. cbn in H. by eapply swatched_thread.
  - by simplify_eq.
  - destruct (waiter s); simplify_eq. exact (swatched_emits _ _ W).
  - by eapply swatched_wait.
  - destruct (ops (sys s) !! i) as [o|] eqn:E; [|done]. cbn in H.
    destruct (socks (pmem s) !! op_pk o) as [x|] eqn:Ex; [|done]. cbn in H. simplify_eq.
    eapply watched_ext; [exact W|done..|]. intros j X. cbn. apply elem_of_app. by left.
  - destruct (waits (sys s) !! h) as [n|] eqn:E; [|done]. cbn in H. simplify_eq.
    destruct W as [A B]. split; intros *; cbn.
    + intros X. destruct (A _ _ X) as [Y|Y]; [|right; apply elem_of_app; by left]. destruct (decide (x = h)) as [->|].
      * right. apply elem_of_app. right. assert (n0 = n) as -> by congruence. constructor.
      * left. by rewrite lookup_delete_ne.
    + intros X%B. apply elem_of_app. by left.
  - destruct (cbs (sys s) !! j) as [x|] eqn:E; [|done]. cbn -[do_post] in H. destruct x as [n|n].
    + destruct (wtbs (pmem s) !! n) as [w|] eqn:Ew; [|done]. cbn in H. simplify_eq.
      destruct W as [A B].
      split; intros *; cbn [pmem sys set_sys set_mem set_cbs waits cbs log]; rewrite (status_wtb _ _ _ _ _ Ew); cbn [wt_with wt_status]; (case_decide as D; [done|]).
      * intros X. destruct (A _ _ X) as [Y|Y]; [by left|right]. apply cb_insert; congruence.
      * apply B.
    + simplify_eq. apply swatched_post. destruct W as [A B]. split; intros *; cbn; [|apply B].
      intros X. destruct (A _ _ X) as [Y|Y]; [by left|right]. by apply (cb_remove _ _ n).
Qed.
Lemma swatched_reach c s : reachable c s -> swatched s.
Proof.
  induction 1 as [n|s l s' Hr IH L H]; [|eapply swatched_step; eauto using tinv_reach, swinv_reach].
  split; cbn; intros; done.
Qed.
Lemma waitable_live c s x n w : reachable c s -> waitables s !! x = Some n -> wtbs (pmem s) !! n = Some w -> wt_status w <> WCancelled.
Proof.
  intros R H Hw E. assert (X : Removed (PWait n) ∈ log s).
  { apply (swatched_reach _ _ R). unfold status_of. rewrite Hw. cbn. congruence. }
  apply (k_gone _ (kinv_reach _ _ R)) in X as [X _]. assert (PWait n ∈ table_refs s) as Y%occ_in by by apply (table_in_wtb _ x).
  unfold tok in X. lia.
Qed.

(* ------------------------------------------------------------------ *)
(** ** What is owed *)

Definition wcoming (s : state) (n : nat) : nat :=
  occ (PWait n) (queue (sys s)) + occ (PWait n) (batch (waiter s)) + occ (PWait n) (opened (waiter s)).
Definition wsettled (s : state) (n : nat) (w : wtb) : Prop :=
  wt_status w <> WIdle \/ CbPost n ∈ cbs (sys s) \/ 0 < wcoming s n \/ PWait n ∈ pending s \/ no_interest (wt_interest w) = true.
Definition wowed (s : state) (n : nat) (w : wtb) : Prop := wsettled s n w \/ updating s (PWait n).
Definition woinv (s : state) : Prop :=
  forall x n w, waitables s !! x = Some n -> wtbs (pmem s) !! n = Some w -> spared (PWait n) (log s) -> wowed s n w.

Lemma wowed_thread s i q s1 q' n k k1 :
  threads s !! i = Some q -> threads s1 = threads s -> waiter s1 = waiter s ->
  (wsettled s n k -> wsettled s1 n k1 \/ PWait n ∈ pc_updates q') ->
  (PWait n ∈ pc_updates q -> wsettled s1 n k1 \/ PWait n ∈ pc_updates q') ->
  wowed s n k -> wowed (set_pc s1 i q') n k1.
Proof.
  intros Hq ET EW S U O. assert (L : i < length (threads s)) by by eapply lookup_lt_Some.
  assert (X : wsettled s1 n k1 \/ PWait n ∈ pc_updates q' -> wowed (set_pc s1 i q') n k1).
  { intros [?|?]; [by left|]. right. right. exists i, q'. split; [|done]. cbn. rewrite ET. by apply list_lookup_insert. }
  destruct O as [O|[O|(j & r & Hr & O)]].
  - by apply X, S.
  - right. left. cbn. by rewrite EW.
  - destruct (decide (j = i)) as [->|].
    + rewrite Hq in Hr. injection Hr as ->. by apply X, U.
    + right. right. exists j, r. split; [|done]. cbn. by rewrite ET, list_lookup_insert_ne.
Qed.
Lemma wowed_wait s s' n k k1 :
  threads s' = threads s ->
  (wsettled s n k -> wsettled s' n k1 \/ PWait n ∈ wait_updates (waiter s')) ->
  (PWait n ∈ wait_updates (waiter s) -> wsettled s' n k1 \/ PWait n ∈ wait_updates (waiter s')) ->
  wowed s n k -> wowed s' n k1.
Proof.
  intros ET S U O.
  assert (X : wsettled s' n k1 \/ PWait n ∈ wait_updates (waiter s') -> wowed s' n k1) by (intros [?|?]; [by left|right; by left]).
  destruct O as [O|[O|(j & r & Hr & O)]]; [by apply X, S|by apply X, U|].
  right. right. exists j, r. by rewrite ET.
Qed.
Lemma wsettled_mono s s' n k :
  (CbPost n ∈ cbs (sys s) -> CbPost n ∈ cbs (sys s')) -> wcoming s n <= wcoming s' n ->
  (PWait n ∈ pending s -> PWait n ∈ pending s') -> wsettled s n k -> wsettled s' n k.
Proof.
  intros B C P. unfold wsettled. intros [?|[?|[?|[?|?]]]]; [tauto|tauto|right; right; left; lia|tauto|tauto].
Qed.

(** An update settles its packet. *)
Lemma update_wsettles m k n o w w' :
  wtbs m !! n = Some w -> ef_fault (update m k (PWait n) o) = false ->
  wtbs (ef_mem (update m k (PWait n) o)) !! n = Some w' ->
  wt_status w' <> WIdle \/ no_interest (wt_interest w') = true.
Proof.
  intros Ew. unfold update. rewrite Ew. destruct (no_interest (wt_interest w)) eqn:I.
  - intros _. cbn. rewrite Ew. intros [= <-]. by right.
  - destruct (wt_status w) eqn:St.
    + destruct o as [e|]; [done|]. intros _. cbn. rewrite lookup_insert. intros [= <-]. by left.
    + intros _. cbn. rewrite Ew. intros [= <-]. left. by rewrite St.
    + intros _. cbn. rewrite Ew. intros [= <-]. left. by rewrite St.
Qed.
Lemma update_wother m k q o n : q <> PWait n -> wtbs (ef_mem (update m k q o)) !! n = wtbs m !! n.
Proof.
  intros H. unfold update, afd_poll, afd_cancel.
  destruct q as [j|j|j|]; try done; [|assert (j <> n) by congruence]; repeat case_match; cbn; try done; by rewrite lookup_insert_ne.
Qed.
Lemma delete_wother m k q o n : q <> PWait n -> wtbs (ef_mem (begin_delete m k q o)) !! n = wtbs m !! n.
Proof.
  intros H. unfold begin_delete, afd_cancel.
  destruct q as [j|j|j|]; try done; [|assert (j <> n) by congruence]; repeat case_match; cbn; try done; by rewrite lookup_insert_ne.
Qed.
Lemma update_cbs m k q o : cbs (ef_sys (update m k q o)) = cbs k.
Proof. unfold update, afd_poll, afd_cancel. repeat case_match; done. Qed.
Lemma delete_cbs m k q o : cbs (ef_sys (begin_delete m k q o)) = cbs k.
Proof. unfold begin_delete, afd_cancel. repeat case_match; done. Qed.

Lemma wcoming_same s s' n : queue (sys s') = queue (sys s) -> waiter s' = waiter s -> wcoming s' n = wcoming s n.
Proof. unfold wcoming. by intros -> ->. Qed.
Lemma do_update_wsettles s q o n k k1 :
  wtbs (pmem s) !! n = Some k ->
  wtbs (pmem (do_update s q o).2) !! n = Some k1 -> spared (PWait n) (log (do_update s q o).2) ->
  wsettled s n k \/ PWait n = q -> wsettled (do_update s q o).2 n k1.
Proof.
  intros Hk H1 Sp HS. cbn in H1, Sp. destruct (decide (q = PWait n)) as [->|Hn].
  - apply spared_app in Sp as [_ Sp]. apply spared_fault in Sp. destruct (update_wsettles _ _ _ _ _ _ Hk Sp H1) as [?|?]; [by left|].
    by right; right; right; right.
  - rewrite update_wother, Hk in H1 by done. injection H1 as <-. destruct HS as [HS|HS]; [|by destruct Hn].
    apply (wsettled_mono s); try done.
    + assert (X : cbs (sys (do_update s q o).2) = cbs (sys s)) by exact (update_cbs _ _ _ _). by rewrite X.
    + rewrite (wcoming_same s (do_update s q o).2); [done|exact (update_queue _ _ _ _)|done].
Qed.

Lemma ustep_wsettles c s p u o s' x n k k1 :
  wtbs (pmem s) !! n = Some k -> ustep c s p u o = (s', x) ->
  wtbs (pmem s') !! n = Some k1 -> spared (PWait n) (log s') ->
  wsettled s n k \/ PWait n ∈ upd_refs p u ->
  wsettled s' n k1 \/ PWait n ∈ match x with inl u' => upd_refs p u' | inr _ => [] end.
Proof.
  intros Hk H H1 Sp HS. unfold ustep in H.
  assert (P : p = PWait n -> forall u', PWait n ∈ upd_refs p u') by (intros -> u'; constructor).
  assert (Q : forall u', PWait n ∈ upd_refs p u' -> p = PWait n \/ match u' with UDrainDo _ q => q = PWait n | _ => False end).
  { intros u'. unfold upd_refs. rewrite elem_of_cons. intros [?|Hin]; [by left|right]. destruct u'; try (by apply not_elem_of_nil in Hin).
    by apply elem_of_list_singleton in Hin. }
  destruct u as [| | |[|j]|j q].
  - simplify_eq. destruct HS as [?|[?|[]]%Q]; auto.
  - pose proof (do_update_wsettles s p o n k k1 Hk) as X. destruct (do_update s p o) as [r s1]. simplify_eq. left. apply X; try done.
    destruct HS as [?|[?|[]]%Q]; auto.
  - case_decide; simplify_eq.
    + left. cbn in H1. assert (k1 = k) as -> by congruence. destruct HS as [HS|[?|[]]%Q].
      * apply (wsettled_mono s); try done. cbn. set_solver.
      * right. right. right. left. cbn. set_solver.
    + destruct HS as [?|[?|[]]%Q]; auto.
  - simplify_eq. destruct HS as [?|[?|[]]%Q]; auto.
  - destruct (pending s) as [|q l] eqn:Ep; simplify_eq; [destruct HS as [?|[?|[]]%Q]; auto|].
    cbn in H1. assert (k1 = k) as -> by congruence.
    destruct HS as [HS|[?|[]]%Q]; [|auto]. destruct HS as [?|[?|[?|[Hin|?]]]].
    1-3,5: left; unfold wsettled, wcoming in *; cbn; tauto.
    rewrite Ep in Hin. apply elem_of_cons in Hin as [->|Hin].
    + right. unfold upd_refs. set_solver.
    + left. by right; right; right; left.
  - assert (SU : wtbs (pmem (do_update s q o).2) !! n = Some k1 -> spared (PWait n) (log (do_update s q o).2) ->
             wsettled s n k \/ PWait n = q -> wsettled (do_update s q o).2 n k1) by by apply do_update_wsettles.
    destruct (do_update s q o) as [r s1]. cbn [snd] in SU.
    destruct r; simplify_eq.
    + destruct HS as [?|[?|?]%Q]; auto.
    + cbn in H1, Sp. apply spared_app in Sp as [Sp SL]. left. apply SU; try done. destruct HS as [?|[?|?]%Q]; auto.
      exfalso. destruct SL as [_ SL]. subst. apply SL. constructor.
    + cbn in H1, Sp. apply spared_app in Sp as [Sp SL]. left. apply SU; try done. destruct HS as [?|[?|?]%Q]; auto.
      exfalso. destruct SL as [_ SL]. subst. apply SL. constructor.
Qed.

Lemma wowed_plain s i q s1 q' n k :
  threads s !! i = Some q -> pc_updates q = [] -> threads s1 = threads s -> waiter s1 = waiter s ->
  cbs (sys s1) = cbs (sys s) -> wcoming s n <= wcoming s1 n -> pending s1 = pending s ->
  wowed s n k -> wowed (set_pc s1 i q') n k.
Proof.
  intros Hq EU ET EW EB C EP. apply (wowed_thread s i q); try done.
  - intros HS. left. apply (wsettled_mono s); try done; by rewrite ?EP, ?EB.
  - rewrite EU. by intros ?%not_elem_of_nil.
Qed.
Lemma wowed_same s s' n k : wowed s n k -> threads s' = threads s -> waiter s' = waiter s -> sys s' = sys s -> pending s' = pending s ->
  wowed s' n k.
Proof.
  intros O ET EW EK EP. unfold wowed, wsettled, wcoming, updating in *. by rewrite ET, EW, EK, EP.
Qed.
Lemma set_waitables s c p s1 b : do_set s c p = Some (s1, b) -> waitables s1 = waitables s.
Proof.
  intros H. destruct c, p; cbn in H; try done.
  - destruct (socks (pmem s) !! n) eqn:E; [|done]. cbn in H. by simplify_eq.
  - destruct (wtbs (pmem s) !! n) eqn:E; [|done]. cbn in H. by simplify_eq.
Qed.
Lemma set_wsettles s c p s1 b n k k1 :
  do_set s c p = Some (s1, b) -> wtbs (pmem s) !! n = Some k -> wtbs (pmem s1) !! n = Some k1 ->
  threads s1 = threads s /\ waiter s1 = waiter s /\ sys s1 = sys s /\ pending s1 = pending s
  /\ if decide (p = PWait n) then b = true \/ wt_status k1 <> WIdle else k1 = k.
Proof.
  intros H Hk H1. destruct c as [|x0 e0 md0| | |x0 e0 md0| | |], p as [j|j|j|]; cbn in H; try done.
  - destruct (socks (pmem s) !! j) as [k0|] eqn:E; [|done]. cbn in H. simplify_eq. split_and!; try done. cbn in H1. cbn. congruence.
  - destruct (wtbs (pmem s) !! j) as [k0|] eqn:E; [|done]. cbn in H. simplify_eq. split_and!; try done. cbn in H1.
    destruct (decide (PWait j = PWait n)) as [[= ->]|Hn]; [|by rewrite lookup_insert_ne in H1 by congruence; congruence].
    rewrite lookup_insert in H1. injection H1 as <-. cbn. destruct (wt_status k0) eqn:St; [by left|by right..].
Qed.
Lemma woinv_thread c s i q a s' :
  reachable c s -> (forall n, spared (PWait n) (log s') -> spared (PWait n) (log s)) ->
  woinv s -> threads s !! i = Some q -> thread_step c s i q a = Some s' -> woinv s'.
Proof.
  intros Hr SP O Hq H x n k1 Hx H1 Sp. pose proof (tinv_reach _ _ Hr) as T. pose proof (t_pc _ T _ _ Hq) as P.
  pose proof (SP _ Sp) as Sp0.
  assert (OO : forall k, waitables s !! x = Some n -> wtbs (pmem s) !! n = Some k -> wowed s n k) by (intros; by eapply O).
  destruct q, a; try done; unfold thread_step in H; cbn in P.
  - simplify_eq. apply (wowed_same (set_pc s i (entry c0))); try done. apply (wowed_plain s i Out s _ n k1); auto.
  - destruct o; simplify_eq; [apply (wowed_plain s i (AMake c0) s _ n k1); auto|].
    destruct (new_packet _ _) as [[[m p] ob]|] eqn:E; simplify_eq/=.
    destruct (t_wts _ T _ _ Hx) as (k & Hk & _).
    assert (k1 = k) as ->.
    { pose proof (t_dom _ T) as (_ & DS & _). destruct c0; cbn in E; simplify_eq; cbn in H1; [congruence|].
      rewrite lookup_insert_ne in H1; [congruence|]. intros <-. assert (next (pmem s) < next (pmem s)); [|lia]. apply DS. by exists k. }
    apply (wowed_plain s i (AMake c0) _ _ n k); auto.
  - destruct (insert_packet _ _ _) as [s1|] eqn:E; simplify_eq.
    + destruct c0 as [x0 e0 md0| | |x0 e0 md0| | | |], p as [jj|jj|jj|]; cbn in E; try done; (case_in E; [done|]); simplify_eq; cbn in H1, Hx.
      * eapply (wowed_plain s i _ _ _ n k1); try done; auto.
      * destruct (decide (x = x0)) as [->|].
        -- rewrite lookup_insert in Hx. injection Hx as <-. right. right. exists i, (Upd (CAddW x0 e0 md0) (PWait jj) ULoad).
           split; [|constructor]. cbn. apply list_lookup_insert. by eapply lookup_lt_Some.
        -- rewrite lookup_insert_ne in Hx by done. eapply (wowed_plain s i _ _ _ n k1); try done; auto.
    + eapply (wowed_plain s i _ _ _ n k1); try done; auto.
  - destruct (lookup_packet _ _) as [p|] eqn:E; simplify_eq; eapply (wowed_plain s i _ _ _ n k1); try done; auto.
  - destruct (do_set _ _ _) as [[s1 b]|] eqn:E; simplify_eq/=.
    assert (Hs : waitables s1 !! x = Some n) by by destruct b. assert (H2 : wtbs (pmem s1) !! n = Some k1) by by destruct b.
    rewrite (set_waitables _ _ _ _ _ E) in Hs. destruct (t_wts _ T _ _ Hs) as (k & Hk & _).
    destruct (set_wsettles _ _ _ _ _ _ _ _ E Hk H2) as (E1 & E2 & E3 & E4 & E6).
    assert (Z : forall s2 q', threads s2 = threads s1 -> waiter s2 = waiter s1 -> sys s2 = sys s1 -> pending s2 = pending s1 -> k1 = k ->
       wowed (set_pc s2 i q') n k1).
    { intros s2 q' Z1 Z2 Z3 Z4 ->. eapply (wowed_plain s i _ _ _ n k); try done; try congruence; [|by apply OO].
      rewrite (wcoming_same s s2); [done|congruence|congruence]. }
    case_decide; subst.
    + destruct b.
      * right. right. exists i, (Upd c0 (PWait n) ULoad). split; [|constructor]. cbn. rewrite E1. apply list_lookup_insert.
        by eapply lookup_lt_Some.
      * destruct E6 as [?|E6]; [done|]. left. by left.
    + destruct b; by apply Z.
  - destruct P as (P1 & P2 & P3). destruct (ustep _ _ _ _ _) as [s1 y] eqn:E. simplify_eq.
    destruct (ustep_frame _ _ _ _ _ _ _ E) as (X1 & X2 & X3 & X4 & _ & _ & G). cbn in Hx, H1, Sp. rewrite X4 in Hx.
    destruct (t_wts _ T _ _ Hx) as (k & Hk & _).
    pose proof (ustep_wsettles _ _ _ _ _ _ _ _ _ _ Hk E H1 Sp) as U.
    apply (wowed_thread s i _ s1 _ n k k1 Hq); try done; [| |by apply OO].
    + intros HS. destruct U as [?|U]; [by left|by left|]. right. by destruct y.
    + intros HS. destruct U as [?|U]; [by right|by left|]. right. by destruct y.
  - destruct (lookup_packet _ _) as [p|] eqn:E; simplify_eq; [|eapply (wowed_plain s i _ _ _ n k1); try done; auto].
    cbn in H1, Hx. assert (Hs : waitables s !! x = Some n /\ wtbs (pmem s) !! n = Some k1).
    { destruct c0; cbn in E, Hx, H1; try done. apply lookup_delete_Some in Hx as [_ Hx]. done. }
    destruct Hs as [Hs Hk]. eapply (wowed_plain s i _ _ _ n k1); try done; try (by destruct c0); by apply OO.
  - destruct P as [P1 P2]. destruct (do_delete s p o) as [r s1] eqn:E. assert (s1 = (do_delete s p o).2) as -> by by rewrite E.
    clear E. simplify_eq. cbn [waitables set_pc] in Hx. assert (Hs : waitables s !! x = Some n) by done. clear Hx.
    assert (Hn : p <> PWait n).
    { intros ->. pose proof (k_one _ (kinv_reach _ _ Hr) (PWait n)) as K. unfold tok in K.
      pose proof (occ_concat_in held (PWait n) _ _ _ Hq) as Y. cbn [held] in Y. rewrite occ_one, decide_True in Y by done.
      assert (PWait n ∈ table_refs s) as Hin%occ_in; [apply table_in; by exists x|lia]. }
    assert (Hk : wtbs (pmem s) !! n = Some k1).
    { rewrite <- H1. symmetry. by apply delete_wother. }
    eapply (wowed_plain s i _ _ _ n k1); try done; [exact (delete_cbs _ _ _ _)| |by apply OO].
    rewrite (wcoming_same s (do_delete s p o).2); [done|exact (delete_queue _ _ _ _)|done].
  - destruct (notified s); simplify_eq; eapply (wowed_plain s i _ _ _ n k1); try done; auto.
  - unfold do_post in H; destruct o; simplify_eq; eapply (wowed_plain s i _ _ _ n k1); try done; auto.
    unfold wcoming. cbn. rewrite occ_app. lia.
  - simplify_eq. apply (wowed_same (set_pc s i Out)); try done. eapply (wowed_plain s i _ s _ n k1); try done; auto.
Qed.

Lemma wowed_wplain s s' n k :
  wait_updates (waiter s) = [] -> threads s' = threads s ->
  cbs (sys s') = cbs (sys s) -> wcoming s n <= wcoming s' n -> pending s' = pending s ->
  wowed s n k -> wowed s' n k.
Proof.
  intros EU ET EB C EP. apply wowed_wait; try done.
  - intros HS. left. apply (wsettled_mono s); try done; by rewrite ?EB, ?EP.
  - rewrite EU. by intros ?%not_elem_of_nil.
Qed.
Lemma wspared_lost n b : spared (PWait n) (map Lost b) -> PWait n ∉ b.
Proof. intros [_ H] Hin. apply H. apply elem_of_list_fmap. eauto. Qed.

Lemma woinv_feed c s l z p b o s' :
  reachable c s -> (forall n, spared (PWait n) (log s') -> spared (PWait n) (log s)) ->
  woinv s -> waiter s = WOpen l z p b -> feed_step s l z p b o = Some s' -> woinv s'.
Proof.
  intros Hr SP O E H x n k1 Hx H1 Sp. pose proof (tinv_reach _ _ Hr) as T.
  pose proof (SP _ Sp) as Sp0.
  assert (OO : forall k, waitables s !! x = Some n -> wtbs (pmem s) !! n = Some k -> wowed s n k) by (intros; by eapply O).
  assert (Z : forall s2, threads s2 = threads s -> queue (sys s2) = queue (sys s) -> cbs (sys s2) = cbs (sys s) -> pending s2 = pending s -> p <> PWait n ->
     waitables s !! x = Some n -> wtbs (pmem s) !! n = Some k1 ->
     (batch (waiter s2) = b \/ occ (PWait n) b = 0) -> wowed s2 n k1).
  { intros s2 Z1 Z2 Z3 Z4 Z5 Z6 Z7 Z8. apply (wowed_wplain s s2 n k1); try done; [by rewrite E| |by apply OO].
    unfold wcoming. rewrite Z2, E. cbn [batch opened]. rewrite occ_one, decide_False by done.
    destruct Z8 as [-> | ->]; lia. }
  destruct p as [j|j|j|]; unfold feed_step in H.
  - destruct (socks (pmem s) !! j) as [k|] eqn:Ek; [|done]. cbn [mbind option_bind] in H.
    destruct (feed_sock k) as [k'|k'|k' r] eqn:F.
    + destruct (sources s !! sk_socket k) as [n'|] eqn:Es; [|simplify_eq; apply Z; try done; by left].
      case_decide as Hd; [simplify_eq; apply Z; try done; by left|].
      set (s2 := set_maps _ _ _) in H.
      assert (Q : wtbs (pmem (do_delete s2 (PSock n') o).2) !! n = wtbs (pmem s) !! n).
      { change (wtbs (ef_mem (begin_delete (pmem s2) (sys s2) (PSock n') o)) !! n = wtbs (pmem s) !! n). by rewrite delete_wother by congruence. }
      assert (Q2 : threads (do_delete s2 (PSock n') o).2 = threads s /\ pending (do_delete s2 (PSock n') o).2 = pending s
                   /\ waitables (do_delete s2 (PSock n') o).2 = waitables s) by done.
      assert (Q3 : queue (sys (do_delete s2 (PSock n') o).2) = queue (sys s)) by exact (delete_queue _ _ _ _).
      assert (Q4 : cbs (sys (do_delete s2 (PSock n') o).2) = cbs (sys s)) by exact (delete_cbs _ _ _ _).
      destruct (do_delete s2 (PSock n') o) as [r s3]. cbn [snd] in *. destruct Q2 as (Q5 & Q6 & Q7). destruct r; simplify_eq; cbn in Hx; rewrite Q7 in Hx.
      * apply Z; try done; [by rewrite <- Q|by left].
      * cbn in Sp. apply spared_app in Sp as [_ Sp]. apply wspared_lost in Sp. cbn in H1. rewrite wtbs_discards in H1.
        apply Z; try done; [by rewrite <- Q|right; by apply occ_not_in].
      * apply Z; try done; [by rewrite <- Q|by left].
    + simplify_eq. apply Z; try done. by left.
    + simplify_eq. apply Z; try done. by left.
  - destruct (wtbs (pmem s) !! j) as [k|] eqn:Ek; [|done]. cbn in H. simplify_eq. cbn in Hx, H1. destruct (decide (n = j)) as [->|].
    + right. left. constructor.
    + rewrite lookup_insert_ne in H1 by done. apply Z; try done; [congruence|by left].
  - destruct (customs (pmem s) !! j) as [e|] eqn:Ek; [|done]. cbn in H. simplify_eq. apply Z; try done. by left.
  - simplify_eq. apply Z; try done. by left.
Qed.

Lemma woinv_wait c s a s' :
  reachable c s -> (forall n, spared (PWait n) (log s') -> spared (PWait n) (log s)) ->
  woinv s -> wait_step c s a = Some s' -> woinv s'.
Proof.
  intros Hr SP O H. pose proof (tinv_reach _ _ Hr) as T.
  destruct (waiter s) as [|l|l|l q|l z|l z b|l z b|l z p b|l z b ret p u|l e g|l|d own b] eqn:E, a;
    unfold wait_step in H; rewrite E in H; try done; try (by destruct b).
  all: try (by eapply woinv_feed).
  all: intros x n k1 Hx H1 Sp; pose proof (SP _ Sp) as Sp0;
    assert (OO : forall k, waitables s !! x = Some n -> wtbs (pmem s) !! n = Some k -> wowed s n k) by (intros; by eapply O).
  - simplify_eq. apply (wowed_wplain s _ n k1); try done; [by rewrite E| |by apply OO]. unfold wcoming. rewrite E. done.
  - destruct (pending s) as [|q r] eqn:Ep; simplify_eq.
    + apply (wowed_wplain s _ n k1); try done; [by rewrite E| |by apply OO]. unfold wcoming. rewrite E. done.
    + apply (wowed_wait s _ n k1 k1); [done| |rewrite E; by intros ?%not_elem_of_nil|by apply OO].
      intros [?|[?|[?|[Hin|?]]]]; [left; by left|left; right; by left|left; right; right; left| |left; by right; right; right; right].
      * unfold wcoming in *. rewrite E in *. done.
      * rewrite Ep in Hin. apply elem_of_cons in Hin as [->|?]; [right; constructor|left; by right; right; right; left].
  - assert (H2 : wtbs (pmem (do_update s q o).2) !! n = Some k1) by (destruct (do_update s q o) as [[] s1]; by simplify_eq).
    assert (Hs : waitables s !! x = Some n).
    { rewrite <- Hx. f_equal. pose proof (eq_refl (waitables (do_update s q o).2)) as X.
      change (waitables (do_update s q o).2) with (waitables s) in X at 1. destruct (do_update s q o) as [[] s1]; by simplify_eq. }
    assert (S2 : spared (PWait n) (log (do_update s q o).2)) by (destruct (do_update s q o) as [[] s1]; by simplify_eq).
    destruct (t_wts _ T _ _ Hs) as (k & Hk & _).
    pose proof (do_update_wsettles s q o n k k1 Hk H2 S2) as U.
    assert (Y : wsettled (do_update s q o).2 n k1 -> wsettled s' n k1).
    { apply wsettled_mono.
      - destruct (do_update s q o) as [[] s1]; by simplify_eq.
      - unfold wcoming. assert (X : waiter (do_update s q o).2 = waiter s) by done. rewrite X, E.
        destruct (do_update s q o) as [[] s1]; simplify_eq; done.
      - destruct (do_update s q o) as [[] s1]; simplify_eq; done. }
    apply (wowed_wait s _ n k k1); [| |rewrite E|by apply OO].
    + assert (X : threads (do_update s q o).2 = threads s) by done. destruct (do_update s q o) as [[] s1]; by simplify_eq.
    + intros HS. left. apply Y, U. by left.
    + intros HS. left. apply Y, U. right. by apply elem_of_list_singleton in HS.
  - simplify_eq. apply (wowed_wplain s _ n k1); try done; [by rewrite E| |by apply OO]. unfold wcoming. rewrite E. done.
  - simplify_eq. apply (wowed_wplain s _ n k1); try done; [by rewrite E| |by apply OO]. unfold wcoming. rewrite E. done.
  - case_decide; simplify_eq. apply (wowed_wplain s _ n k1); try done; [by rewrite E| |by apply OO]. unfold wcoming. rewrite E. cbn.
    pose proof (occ_app (PWait n) (take (lc_cap l) (queue (sys s))) (drop (lc_cap l) (queue (sys s)))) as X. rewrite take_drop in X.
    rewrite occ_nil. lia.
  - simplify_eq. apply (wowed_wplain s _ n k1); try done; [by rewrite E| |by apply OO]. unfold wcoming. rewrite E. done.
  - destruct b as [|p b].
    + case_match; simplify_eq; (apply (wowed_wplain s _ n k1); try done; [by rewrite E| |by apply OO]); unfold wcoming; rewrite E; done.
    + simplify_eq. cbn in Hx, H1. rewrite wtbs_unlock in H1.
      apply (wowed_wplain s _ n k1); try done; [by rewrite E| |by apply OO]. unfold wcoming. rewrite E. cbn.
      rewrite occ_cons, occ_one, occ_nil. lia.
  - assert (H' := H). destruct (ustep _ _ _ _ _) as [s1 y] eqn:Eu. destruct (ustep_frame _ _ _ _ _ _ _ Eu) as (X1 & X2 & X3 & X4 & _ & _ & G).
    assert (Hs : waitables s !! x = Some n) by (rewrite <- X4; destruct y as [u'|[]]; by simplify_eq).
    destruct (t_wts _ T _ _ Hs) as (k & Hk & _).
    assert (QQ : wtbs (pmem s1) !! n = Some k1 /\ spared (PWait n) (log s1) /\ (batch (waiter s') = b \/ occ (PWait n) b = 0)).
    { destruct y as [u'|[]]; simplify_eq; try (split_and!; try done; by left). cbn in Sp. apply spared_app in Sp as [Sp SL].
      apply wspared_lost in SL. cbn in H1. rewrite wtbs_discards in H1. split_and!; try done. right. by apply occ_not_in. }
    destruct QQ as (H2 & S2 & C).
    pose proof (ustep_wsettles _ _ _ _ _ _ _ _ _ _ Hk Eu H2 S2) as U.
    assert (Y : wsettled s1 n k1 -> wsettled s' n k1).
    { assert (EQ : queue (sys s') = queue (sys s1) /\ cbs (sys s') = cbs (sys s1)) by (destruct y as [u'|[]]; by simplify_eq).
      destruct EQ as [EQ EB]. apply wsettled_mono.
      - by rewrite EB.
      - unfold wcoming. rewrite EQ, X2, E. cbn [batch opened]. rewrite occ_nil. destruct C as [-> | ->]; lia.
      - destruct y as [u'|[]]; by simplify_eq. }
    assert (W : PWait n ∈ match y with inl u' => upd_refs p u' | inr _ => [] end -> PWait n ∈ wait_updates (waiter s')).
    { destruct y as [u'|[]]; [|by intros ?%not_elem_of_nil..]. by simplify_eq. }
    apply (wowed_wait s _ n k k1); [| |rewrite E; cbn [wait_updates]|by apply OO].
    + rewrite <- X1. destruct y as [u'|[]]; by simplify_eq.
    + intros HS. destruct U as [?|?]; auto.
    + intros HS. destruct U as [?|?]; auto.
  - simplify_eq. apply (wowed_wplain s _ n k1); try done; [by rewrite E| |by apply OO]. unfold wcoming. rewrite E. done.
  - simplify_eq. apply (wowed_wplain s _ n k1); try done; [by rewrite E| |by apply OO]. unfold wcoming. rewrite E. done.
Qed.

Lemma woinv_step c s l s' : reachable c s -> legal s l -> woinv s -> step c s l = Some s' -> woinv s'.
Proof.
  intros Hr L O H.
  assert (SP : forall n, spared (PWait n) (log s') -> spared (PWait n) (log s)).
  { intros n. destruct (step_log _ _ _ _ (tinv_reach _ _ Hr) H) as [d ->]. by intros [? _]%spared_app. }
  destruct l; cbn -[do_post] in H.
  - destruct (threads s !! i) eqn:E; [|done]. cbn in H. by eapply woinv_thread.
  - simplify_eq. intros x n k1 Hx H1 Sp. apply (wowed_same s); try done. by eapply O.
  - destruct (waiter s) eqn:E; simplify_eq. intros x n k1 Hx H1 Sp. apply (wowed_wplain s _ n k1); try done; [by rewrite E| |].
    + unfold wcoming. rewrite E. done.
    + eapply O; try done. by apply SP.
  - by eapply woinv_wait.
  - destruct (ops (sys s) !! i) as [o|] eqn:E; [|done]. cbn in H.
    destruct (socks (pmem s) !! op_pk o) as [y|] eqn:Ey; [|done]. cbn in H. simplify_eq.
    intros x m k1 Hx H1 Sp. cbn in Hx, H1. assert (Ow : wowed s m k1) by (eapply O; try done; by apply SP).
    destruct Ow as [Ow|Ow]; [left|by right]. revert Ow. apply wsettled_mono; try done. unfold wcoming. cbn. rewrite occ_app. lia.
  - destruct (waits (sys s) !! h) as [nn|] eqn:E; [|done]. cbn in H. simplify_eq. intros x m k1 Hx H1 Sp.
    assert (Ow : wowed s m k1) by (eapply O; try done; by apply SP).
    destruct Ow as [Ow|Ow]; [left|by right]. revert Ow. apply wsettled_mono; try done. cbn. intros X. apply elem_of_app. by left.
  - destruct (cbs (sys s) !! j) as [y|] eqn:E; [|done]. cbn -[do_post] in H. destruct y as [nn|nn].
    + destruct (wtbs (pmem s) !! nn) as [w|] eqn:Ew; [|done]. cbn in H. simplify_eq. intros x m k1 Hx H1 Sp. cbn in Hx, H1.
      destruct (decide (m = nn)) as [->|Hn].
      * left. right. left. cbn. apply elem_of_list_lookup. exists j. apply list_lookup_insert. by eapply lookup_lt_Some.
      * rewrite lookup_insert_ne in H1 by done. assert (Ow : wowed s m k1) by (eapply O; try done; by apply SP).
        destruct Ow as [Ow|Ow]; [left|by right]. revert Ow. apply wsettled_mono; try done. cbn. intros X. by apply cb_insert.
    + simplify_eq. intros x m k1 Hx H1 Sp. destruct o as [e|]; cbn in Hx, H1.
      all: assert (Ow : wowed s m k1) by (eapply O; try done; by apply SP).
      * destruct (decide (m = nn)) as [->|Hn].
        -- exfalso. cbn in Sp. apply spared_app in Sp as [_ [Sp _]]. apply Sp. constructor.
        -- destruct Ow as [Ow|Ow]; [left|by right]. revert Ow. apply wsettled_mono; try done. cbn. intros X. apply (cb_remove _ _ nn); congruence.
      * destruct (decide (m = nn)) as [->|Hn].
        -- left. right. right. left. unfold wcoming. cbn. rewrite occ_app, occ_one, decide_True by done. lia.
        -- destruct Ow as [Ow|Ow]; [left|by right]. revert Ow. apply wsettled_mono; try done.
           ++ cbn. intros X. apply (cb_remove _ _ nn); congruence.
           ++ unfold wcoming. cbn. rewrite occ_app. lia.
Qed.
Lemma woinv_reach c s : reachable c s -> woinv s.
Proof. induction 1 as [n|s l s' Hr IH L H]; [intros x j k Hx; done|by eapply woinv_step]. Qed.
