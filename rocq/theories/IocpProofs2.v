(** Waits of waitable handles. *)
From stdpp Require Import prelude list gmap.
From Verif Require Import Bits Types EventModel Pool IocpModel IocpSpec IocpProofs.
Local Open Scope nat_scope.

Definition is_start (n : nat) (x : cb) : bool := match x with CbStart i => bool_decide (i = n) | _ => false end.
Definition status_of (m : mem) (n : nat) : option wstatus := wt_status <$> wtbs m !! n.

Record winv (st : nat -> option wstatus) (k : kern) : Prop := {
  w_waits : forall h n, waits k !! h = Some n -> st n = Some (WWaiting h);
  w_fresh : forall h n, st n = Some (WWaiting h) -> h < fresh k;
  w_inj : forall h n n', st n = Some (WWaiting h) -> st n' = Some (WWaiting h) -> n = n';
  w_one : forall n, cnt (is_start n) (cbs k) <= 1;
  w_busy : forall n, 0 < cnt (is_start n) (cbs k) -> st n <> Some WIdle /\ forall h, waits k !! h <> Some n
}.
Lemma winv_ext st st' k k' :
  winv st k -> (forall n, st' n = st n) -> waits k' = waits k -> cbs k' = cbs k -> fresh k' = fresh k -> winv st' k'.
Proof.
  intros [A B C D E] S HW HC HF. split; intros *; rewrite ?HW, ?HC, ?HF, ?S; eauto.
Qed.
Lemma status_wtb m n w w0 j :
  wtbs m !! n = Some w0 -> status_of (set_wtb m n w) j = if decide (j = n) then Some (wt_status w) else status_of m j.
Proof.
  intros H. unfold status_of. cbn. case_decide; [subst; by rewrite lookup_insert|by rewrite lookup_insert_ne].
Qed.
Lemma status_same m n w w0 j :
  wtbs m !! n = Some w0 -> wt_status w = wt_status w0 -> status_of (set_wtb m n w) j = status_of m j.
Proof.
  intros H E. rewrite (status_wtb _ _ _ _ _ H). case_decide; [|done]. subst. unfold status_of. rewrite H. cbn. congruence.
Qed.

Lemma winv_register m k n w w' :
  winv (status_of m) k -> wtbs m !! n = Some w -> wt_status w = WIdle -> wt_status w' = WWaiting (fresh k) ->
  winv (status_of (set_wtb m n w')) (Kern (ops k) (queue k) (<[fresh k := n]> (waits k)) (cbs k) (S (fresh k))).
Proof.
  intros [A B C D E] H Hw Hw'.
  assert (S0 : status_of m n = Some WIdle) by (unfold status_of; rewrite H; cbn; congruence).
  assert (S' : forall j, status_of (set_wtb m n w') j = if decide (j = n) then Some (WWaiting (fresh k)) else status_of m j).
  { intros j. rewrite (status_wtb _ _ _ _ _ H), Hw'. done. }
  split; intros *; cbn [waits cbs fresh]; rewrite ?S'.
  - destruct (decide (h = fresh k)) as [->|].
    + rewrite lookup_insert. intros [= <-]. by rewrite decide_True.
    + rewrite lookup_insert_ne by done. intros Hh%A. case_decide; [congruence|done].
  - case_decide; intros Hh; [injection Hh; lia|]. apply B in Hh. lia.
  - intros X Y. revert X Y. repeat case_decide; intros X Y; try congruence.
    + injection X as <-. apply B in Y. lia.
    + injection Y as <-. apply B in X. lia.
    + eauto.
  - eauto.
  - intros Hn. destruct (E _ Hn) as [E1 E2]. case_decide; [congruence|]. split; [done|]. intros h.
    destruct (decide (h = fresh k)) as [->|].
    + rewrite lookup_insert. congruence.
    + rewrite lookup_insert_ne by done. apply E2.
Qed.
Lemma winv_cancel m k k' n w w' :
  winv (status_of m) k -> wtbs m !! n = Some w -> wt_status w' = WCancelled ->
  cbs k' = cbs k -> fresh k' = fresh k ->
  (waits k' = match wt_status w with WWaiting h => delete h (waits k) | _ => waits k end) ->
  winv (status_of (set_wtb m n w')) k'.
Proof.
  intros [A B C D E] H Hw' EC EF EW.
  assert (S' : forall j, status_of (set_wtb m n w') j = if decide (j = n) then Some WCancelled else status_of m j).
  { intros j. rewrite (status_wtb _ _ _ _ _ H), Hw'. done. }
  assert (S0 : status_of m n = Some (wt_status w)) by (unfold status_of; by rewrite H).
  assert (SubW : forall h j, waits k' !! h = Some j -> waits k !! h = Some j).
  { intros h j. rewrite EW. destruct (wt_status w); try done. by intros [_ ?]%lookup_delete_Some. }
  split; intros *; rewrite ?S', ?EC, ?EF.
  - intros Hh. pose proof (A _ _ (SubW _ _ Hh)) as Hs. case_decide; [|done]. subst n0.
    rewrite S0 in Hs. injection Hs as Hs. rewrite EW, Hs in Hh. by rewrite lookup_delete in Hh.
  - case_decide; [done|]. apply B.
  - repeat case_decide; try done. apply C.
  - apply D.
  - intros Hn. destruct (E _ Hn) as [E1 E2]. split; [by case_decide|]. intros h Hh. eapply E2. by apply SubW.
Qed.

Lemma kview_ops k l : waits (set_ops k l) = waits k /\ cbs (set_ops k l) = cbs k /\ fresh (set_ops k l) = fresh k.
Proof. done. Qed.
Lemma winv_update m k p o :
  winv (status_of m) k -> winv (status_of (ef_mem (update m k p o))) (ef_sys (update m k p o)).
Proof.
  intros W. unfold update, afd_poll, afd_cancel. destruct p as [n|n|n|]; try exact W.
  - repeat case_match; cbn [ef_mem ef_sys]; try exact W; (eapply winv_ext; [exact W|done..]).
  - destruct (wtbs m !! n) as [w|] eqn:E; [|exact W]. case_match; [exact W|].
    destruct (wt_status w) eqn:Es; try exact W. destruct o; [exact W|].
    cbn [ef_mem ef_sys]. eapply winv_ext; [apply (winv_register m k n w (wt_with w (wt_interest w) (wt_mode w) (WWaiting (fresh k))) W)|..]; done.
Qed.
Lemma winv_delete m k p o :
  winv (status_of m) k -> winv (status_of (ef_mem (begin_delete m k p o))) (ef_sys (begin_delete m k p o)).
Proof.
  intros W. unfold begin_delete, afd_cancel. destruct p as [n|n|n|]; try exact W.
  - repeat case_match; cbn [ef_mem ef_sys]; try exact W; (eapply winv_ext; [exact W|done..]).
  - destruct (wtbs m !! n) as [w|] eqn:E; [|exact W].
    destruct (wt_status w) eqn:Es; cbn [ef_mem ef_sys]; (eapply winv_cancel; [exact W|done|..]; try done; by rewrite Es).
Qed.

Definition swinv (s : state) : Prop := winv (status_of (pmem s)) (sys s).
Lemma swinv_ext s s' :
  swinv s -> (forall n, status_of (pmem s') n = status_of (pmem s) n) -> sys s' = sys s -> swinv s'.
Proof. intros W S E. eapply winv_ext; [exact W|done|..]; by rewrite E. Qed.
Lemma swinv_update s p o : swinv s -> swinv (do_update s p o).2.
Proof. intros W. exact (winv_update (pmem s) (sys s) p o W). Qed.
Lemma swinv_delete s p o : swinv s -> swinv (do_delete s p o).2.
Proof. intros W. exact (winv_delete (pmem s) (sys s) p o W). Qed.
Lemma swinv_post s p o : swinv s -> swinv (do_post s p o).2.
Proof. intros W. destruct o; [exact W|]. (eapply winv_ext; [exact W|done..]). Qed.
Lemma ustep_swinv c s p u o s' x : swinv s -> ustep c s p u o = (s', x) -> swinv s'.
Proof.
  intros W H. unfold ustep in H. destruct u as [| | |[|n]|n q]; try (repeat case_match; simplify_eq; exact W).
  - pose proof (swinv_update s p o W). destruct (do_update s p o). by simplify_eq.
  - pose proof (swinv_update s q o W) as W'. destruct (do_update s q o) as [r s1].
    destruct r; simplify_eq; exact W'.
Qed.
Lemma wtbs_unlock m p : wtbs (unlock m p) = wtbs m.
Proof. destruct p; cbn; try done. by case_match. Qed.
Lemma wtbs_discards m b : wtbs (foldl discard m b) = wtbs m.
Proof. revert m. induction b as [|p b IH]; intros m; [done|]. cbn [foldl]. rewrite IH. cbn. apply wtbs_unlock. Qed.
Lemma status_eq m m' n : wtbs m' = wtbs m -> status_of m' n = status_of m n.
Proof. unfold status_of. by intros ->. Qed.
Lemma swinv_abandon s b : swinv s -> swinv (abandon s b).
Proof. intros W. eapply swinv_ext; [exact W| |done]. intros n. apply status_eq, wtbs_discards. Qed.

Lemma swinv_thread c s i q a s' :
  tinv s -> swinv s -> threads s !! i = Some q -> thread_step c s i q a = Some s' -> swinv s'.
Proof.
  intros T W Hq H. destruct q, a; try done; unfold thread_step in H; try (simplify_eq; exact W).
  - destruct o; [by simplify_eq|]. destruct (new_packet _ _) as [[[m p] ob]|] eqn:E; simplify_eq/=.
    destruct c0; simplify_eq/=; [exact W|].
    assert (F : wtbs (pmem s) !! next (pmem s) = None).
    { apply eq_None_not_Some. intros ?%(t_dom _ T). lia. }
    set (n := next (pmem s)) in *.
    assert (S' : forall j, status_of (clone (Mem (socks (pmem s)) (<[n:=Wtb h e m0 WIdle]> (wtbs (pmem s)))
        (customs (pmem s)) (S n) (refs (pmem s))) (PWait n)) j
        = if decide (j = n) then Some WIdle else status_of (pmem s) j).
    { intros j. unfold status_of. cbn. case_decide; [subst j; by rewrite lookup_insert|by rewrite lookup_insert_ne]. }
    assert (S0 : status_of (pmem s) n = None) by (unfold status_of; by rewrite F).
    destruct W as [A B C D Z]. split; intros *; cbn [sys pmem set_pc set_mem]; rewrite ?S'.
    + intros Hh%A. case_decide; congruence.
    + case_decide; [done|]. apply B.
    + repeat case_decide; try done. apply C.
    + apply D.
    + intros Hn. destruct (Z _ Hn) as [Z1 Z2]. split; [|done]. case_decide; [|done]. subst n0.
      apply cnt_pos in Hn as (j & x & Hj & Hx). pose proof (t_kern _ T) as (_ & _ & B' & _).
      pose proof (Forall_lookup_1 _ _ _ _ B' Hj) as Hb. destruct x; cbn in Hx; [|done].
      apply bool_decide_eq_true in Hx as ->. rewrite F in Hb. by destruct Hb.
  - destruct (insert_packet _ _ _) eqn:E; simplify_eq; [|exact W].
    destruct c0, p; cbn in E; try done; case_match; simplify_eq; exact W.
  - destruct (lookup_packet _ _); simplify_eq; exact W.
  - destruct (do_set _ _ _) as [[s1 b]|] eqn:E; simplify_eq/=.
    assert (W1 : swinv s1).
    { destruct c0, p; cbn in E; try done.
      - destruct (socks _ !! _); simplify_eq/=. exact W.
      - destruct (wtbs _ !! _) eqn:Ew; simplify_eq/=. eapply swinv_ext; [exact W| |done].
        intros j. eapply status_same; [done|]. done. }
    destruct b; simplify_eq; exact W1.
  - destruct (ustep _ _ _ _ _) as [s1 x] eqn:E. simplify_eq. by eapply (ustep_swinv _ _ _ _ _ _ _ W E).
  - destruct (lookup_packet _ _); simplify_eq; [|exact W]. by destruct c0.
  - pose proof (swinv_delete s p o W) as W'. destruct (do_delete _ _ _) as [r s1]. by simplify_eq.
  - destruct (notified s); simplify_eq; exact W.
  - pose proof (swinv_post (set_mem s (clone (pmem s) p)) p o W) as W'. destruct (do_post _ _ _) as [r s1]. by simplify_eq.
Qed.
Lemma swinv_feed s l z p b o s' : swinv s -> feed_step s l z p b o = Some s' -> swinv s'.
Proof.
  intros W H. destruct p as [n|n|n|]; unfold feed_step in H; [..|by simplify_eq].
  - destruct (socks (pmem s) !! n) as [k|] eqn:E; [|done]. cbn [mbind option_bind] in H.
    destruct (feed_sock k) as [k'|k'|k' r] eqn:F; [|by simplify_eq..].
    destruct (sources s !! sk_socket k) as [n'|] eqn:Es; [case_decide|]; [by simplify_eq| |by simplify_eq].
    match type of H with context [do_delete ?st ?p _] => pose proof (swinv_delete st p o) as W'; destruct (do_delete st p o) as [r s3] end.
    specialize (W' W). cbn [snd] in W'. destruct r; simplify_eq; [exact W'|exact (swinv_abandon (set_mem s3 (drop_ref (pmem s3) (PSock n))) b W')|exact W'].
  - destruct (wtbs (pmem s) !! n) as [k|] eqn:E; [|done]. cbn in H. simplify_eq.
    eapply swinv_ext; [exact W| |done]. intros j. eapply status_same; [done|]. by destruct (wt_mode k).
  - destruct (customs (pmem s) !! n) as [e|]; [|done]. by simplify_eq/=.
Qed.
Lemma swinv_wait c s a s' : swinv s -> wait_step c s a = Some s' -> swinv s'.
Proof.
  intros W H. unfold wait_step in H.
  destruct (waiter s) as [|l|l|l q|l z|l z b|l z b|l z p b|l z b ret p u|l e g|l|d own b] eqn:E, a;
    try done; try (by destruct b); try (simplify_eq; exact W).
  - destruct (pending s); simplify_eq; exact W.
  - pose proof (swinv_update s q o W) as W'. destruct (do_update s q o) as [r s1]. by simplify_eq.
  - case_decide; simplify_eq. (eapply winv_ext; [exact W|done..]).
  - destruct b as [|p b]; [case_match; simplify_eq; exact W|]. simplify_eq.
    eapply swinv_ext; [exact W| |done]. intros n. apply status_eq, wtbs_unlock.
  - by eapply swinv_feed.
  - destruct (ustep _ _ _ _ _) as [s1 x] eqn:Eu. apply ustep_swinv in Eu; [|done]. destruct x as [u'|[]]; simplify_eq; try exact Eu.
    exact (swinv_abandon _ b Eu).
Qed.

Lemma cnt_app {A} (f : A -> bool) l l' : cnt f (l ++ l') = cnt f l + cnt f l'.
Proof. induction l as [|x l IH]; cbn; [done|]. lia. Qed.
Lemma cnt_remove_nth {A} (f : A -> bool) i l x : l !! i = Some x -> cnt f (remove_nth i l) + b2n (f x) = cnt f l.
Proof.
  intros H. rewrite <- (take_drop_middle l i x H) at 2. unfold remove_nth. rewrite !cnt_app. cbn. lia.
Qed.

Lemma swinv_step c s l s' : tinv s -> swinv s -> step c s l = Some s' -> swinv s'.
Proof.
  intros T W H. destruct l; cbn -[do_post] in H.
  - destruct (threads s !! i) eqn:E; [|done]. cbn in H. by eapply swinv_thread.
  - by simplify_eq.
  - destruct (waiter s); by simplify_eq.
  - by eapply swinv_wait.
  - destruct (ops (sys s) !! i) as [o|] eqn:E; [|done]. cbn in H.
    destruct (socks (pmem s) !! op_pk o) as [x|] eqn:Ex; [|done]. cbn in H. simplify_eq. (eapply winv_ext; [exact W|done..]).
  - destruct (waits (sys s) !! h) as [n|] eqn:E; [|done]. cbn in H. simplify_eq.
    destruct W as [A B C D Z]. split; intros *; cbn.
    + intros [_ Hh]%lookup_delete_Some. by apply A.
    + apply B.
    + apply C.
    + rewrite cnt_app. cbn. specialize (D n0). case_bool_decide; cbn; [|lia]. subst n0.
      assert (~ 0 < cnt (is_start n) (cbs (sys s))); [|lia]. intros [_ X]%Z. by eapply X.
    + rewrite cnt_app. cbn. intros Hn. destruct (decide (n = n0)) as [->|].
      * split.
        -- rewrite (A _ _ E). done.
        -- intros h' [Hne Hh']%lookup_delete_Some. apply A in Hh'. rewrite (A _ _ E) in Hh'. congruence.
      * rewrite bool_decide_false in Hn by done. cbn in Hn. destruct (Z n0 ltac:(lia)) as [Z1 Z2].
        split; [done|]. intros h' [_ ?]%lookup_delete_Some. by eapply Z2.
  - destruct (cbs (sys s) !! j) as [x|] eqn:E; [|done]. cbn -[do_post] in H. destruct x as [n|n].
    + destruct (wtbs (pmem s) !! n) as [w|] eqn:Ew; [|done]. cbn in H. simplify_eq.
      destruct W as [A B C D Z].
      assert (Hn : 0 < cnt (is_start n) (cbs (sys s))).
      { eapply cnt_lookup; [exact E|]. cbn. by rewrite bool_decide_true. }
      destruct (Z _ Hn) as [Z1 Z2].
      split; intros *; cbn [pmem sys set_sys set_mem set_cbs waits cbs fresh]; rewrite ?(status_wtb _ _ _ _ _ Ew); cbn [wt_with wt_status].
      * intros Hh. case_decide; [subst; by apply Z2 in Hh|by apply A].
      * case_decide; [done|]. apply B.
      * repeat case_decide; try done. apply C.
      * pose proof (cnt_insert (is_start n0) _ _ _ (CbPost n) E) as X. cbn in X. specialize (D n0). lia.
      * pose proof (cnt_insert (is_start n0) _ _ _ (CbPost n) E) as X. cbn in X. intros Hn0.
        destruct (decide (n0 = n)) as [->|]; [rewrite bool_decide_true in X by done; cbn in X; specialize (D n); lia|].
        apply Z. lia.
    + simplify_eq. apply swinv_post. destruct W as [A B C D Z].
      assert (X : forall i, cnt (is_start i) (remove_nth j (cbs (sys s))) = cnt (is_start i) (cbs (sys s))).
      { intros i. pose proof (cnt_remove_nth (is_start i) _ _ _ E) as X. cbn in X. lia. }
      split; intros *; cbn; rewrite ?X; eauto.
Qed.
Lemma swinv_reach c s : reachable c s -> swinv s.
Proof.
  induction 1 as [n|s l s' Hr IH L H]; [|eapply swinv_step; eauto using tinv_reach].
  split; cbn; intros; try done; lia.
Qed.
