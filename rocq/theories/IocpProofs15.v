(** What processing a completion of a socket gives. *)
From stdpp Require Import prelude list gmap.
From Verif Require Import Bits Types EventModel Pool IocpModel IocpSpec IocpProofs IocpProofs2 IocpProofs3 IocpProofs4 IocpProofs5 IocpProofs8 IocpProofs9 IocpProofs10.
Local Open Scope nat_scope.

Lemma feed_told n k F c o h k' r : ainv n k F c (S o) h ->
  feed_sock k = FResult k' r \/ (r = None /\ (feed_sock k = FClosed k' \/ feed_sock k = FDeleting k')) -> told n h r.
Proof.
  intros A H. peel. destruct (AD ltac:(lia)) as (B1 & B2 & B3).
  exists (sk_interest k), (sk_error k), (sk_mode k), (sk_iosb k), (flags_of (sk_count k) (sk_events k)).
  split; [done|]. split; [done|]. split; [done|]. unfold feed_sock in H. destruct (sk_deleting k) eqn:D.
  { assert (X : Removed (PSock n) ∈ h) by by apply AR. assert (r = None) as -> by (destruct H as [H|[-> _]]; done). done. }
  assert (X : Removed (PSock n) ∉ h) by (intros X%AR; done). split; [done|].
  unfold reported, flags_of, tells_r, tells_w, tells_x in *.
  destruct (sk_iosb k); [done| | |].
  - split; [done|]. intros _ _. cbn [andb orb] in *. rewrite !andb_false_r. cbn [orb].
    match goal with |- context [if ?b then _ else _] => destruct b end; destruct H as [H|[-> [H|H]]]; congruence.
  - split; [done|]. intros _ _. cbn [andb orb] in *. rewrite !andb_true_r.
    match goal with |- context [if ?b then _ else _] => destruct b end; destruct H as [H|[-> [H|H]]]; congruence.
  - case_decide as C.
    + destruct (intersects (sk_events k) AFD_LOCAL_CLOSE) eqn:L.
      * assert (r = None) as -> by (destruct H as [H|[-> _]]; [discriminate H|reflexivity]). split; [done|]. intros _ Y. by destruct Y.
      * split; [done|]. intros _ _. destruct (afd_mask_to_event (sk_events k)) as [r0 w0]. cbn [fst snd]. rewrite !(andb_comm _ r0), !(andb_comm _ w0).
        match goal with |- context [if ?b then _ else _] => destruct b end; destruct H as [H|[-> [H|H]]]; congruence.
    + assert (Z : intersects 0 AFD_LOCAL_CLOSE = false) by done. rewrite Z. split; [done|]. intros _ _.
      assert (Y : (afd_mask_to_event 0) = (false, false)) by done. rewrite Y. cbn [fst snd andb orb] in *. rewrite !andb_false_r. cbn [orb].
      match goal with |- context [if ?b then _ else _] => destruct b end; destruct H as [H|[-> [H|H]]]; congruence.
Qed.

Definition all_told (n : nat) (h : list obs) : Prop := forall h1 r h2, h = h1 ++ Fed (PSock n) r :: h2 -> told n h1 r.
Lemma told_quiet n h d : (forall r, Fed (PSock n) r ∉ d) -> all_told n h -> all_told n (h ++ d).
Proof.
  intros H J h1 e h2 E. destruct (app_eq_inv _ _ _ _ E) as [(k & -> & Ek)|(k & -> & Ek)].
  - destruct k as [|x k]; cbn in Ek; [|simplify_eq; by eapply J].
    destruct (H e). rewrite <- Ek. constructor.
  - destruct (H e). rewrite Ek. apply elem_of_app. right. constructor.
Qed.
Lemma told_snoc n h r : all_told n h -> told n h r -> all_told n (h ++ [Fed (PSock n) r]).
Proof.
  intros J N h1 e1 h2 E. destruct h2 as [|x h2 _] using rev_ind.
  - apply app_inj_tail in E as [-> E]. injection E as ->. done.
  - rewrite app_comm_cons, app_assoc in E. apply app_inj_tail in E as [-> _]. by eapply J.
Qed.
Lemma marks_fed_any n d r : only_marks n d -> Fed (PSock n) r ∉ d.
Proof.
  intros F Hin. unfold only_marks in F. rewrite Forall_forall in F. specialize (F _ Hin). cbn in F. by destruct F as [?|[?|[?|?]]].
Qed.
Lemma told_step n v d v' h : vinv n v h -> all_told n h -> vstep n v d v' -> all_told n (h ++ d).
Proof.
  intros [_ A] J H.
  assert (S1 : forall o, (forall r, o <> Fed (PSock n) r) -> forall r, Fed (PSock n) r ∉ [o]).
  { intros o X r E%elem_of_list_singleton. by destruct (X r). }
  destruct H.
  - apply told_quiet; [|done]. intros r. by apply (quiet_not_in n).
  - apply told_quiet; [|done]. by apply S1.
  - apply told_quiet; [|done]. by apply S1.
  - apply told_quiet; [|done]. by apply S1.
  - apply told_quiet; [|done]. cbn in A. destruct (ainv_update _ _ _ _ _ _ _ _ _ _ A H) as [M _]. intros r. by apply marks_fed_any.
  - apply told_quiet; [|done]. cbn in A. destruct (ainv_delete _ _ _ _ _ _ _ _ _ _ A H) as [M _]. intros r. by apply marks_fed_any.
  - apply told_quiet; [|done]. by apply S1.
  - apply told_quiet; [|done]. intros r ?%not_elem_of_nil. done.
  - apply told_snoc; [done|]. cbn in A. by eapply feed_told.
  - apply told_quiet; [|done]. by apply S1.
Qed.
Lemma told_steps n v d v' h : vinv n v h -> all_told n h -> vsteps n v d v' -> all_told n (h ++ d).
Proof.
  intros I J H. induction H as [|v d v1 d' v2 H IH X]; [by rewrite app_nil_r|]. rewrite app_assoc.
  eapply told_step; [by eapply vinv_steps|by apply IH|done].
Qed.
Lemma told_reach c s n : reachable c s -> all_told n (log s).
Proof.
  induction 1 as [i|s l s' Hr IH L H].
  - intros h1 e h2 E. by destruct h1.
  - destruct (refines_step n c s l s' (tinv_reach _ _ Hr) L H) as (d & -> & V). eapply told_steps; [by eapply vinv_reach|done|done].
Qed.

(** ** Waitables *)

(** The interest and mode of a waitable. *)
Definition given (n : nat) (s : state) : option (event N * poll_mode) := (fun k => (wt_interest k, wt_mode k)) <$> wtbs (pmem s) !! n.
Definition given_step (n : nat) (x : option (event N * poll_mode)) (o : obs) : option (event N * poll_mode) :=
  match o with
  | Armed q e m => if decide (PWait n = q) then Some (e, m) else x
  | Fed q (Some _) => if decide (PWait n = q) then match x with Some (e, Oneshot) => Some (Ev (ev_key e) false false 0%N, Oneshot) | _ => x end else x
  | _ => x
  end.
Definition given_of (n : nat) (h : list obs) : option (event N * poll_mode) := fold_left (given_step n) h None.
Lemma given_app n h d : given_of n (h ++ d) = fold_left (given_step n) d (given_of n h).
Proof. unfold given_of. by rewrite fold_left_app. Qed.
Lemma given_interest n h : given_of n h = (fun x => (x.1.1, x.2)) <$> interest_of (PWait n) h.
Proof.
  induction h as [|o h IH] using rev_ind; [done|]. rewrite given_app, interest_app, IH. cbn [fold_left].
  destruct o; try done; cbn [given_step interest_step].
  - by case_decide.
  - destruct r; [|done]. case_decide; [|done]. destruct (interest_of _ h) as [[[e0 err] []]|]; done.
Qed.
(** What is neither an arming nor an event. *)
Definition dull (o : obs) : Prop := match o with Armed _ _ _ | Fed _ _ => False | _ => True end.
Lemma given_dull n x d : Forall dull d -> fold_left (given_step n) d x = x.
Proof. revert x. induction d as [|o d IH]; intros x; [done|]. intros [A B]%Forall_cons. cbn. rewrite IH by done. by destruct o. Qed.
(** The log grows by what explains the change. *)
Definition explains (n : nat) (s s' : state) : Prop := exists d, log s' = log s ++ d /\ given n s' = fold_left (given_step n) d (given n s).
Lemma explains_dull n s s' d : log s' = log s ++ d -> Forall dull d -> given n s' = given n s -> explains n s s'.
Proof. intros E F G. exists d. split; [done|]. by rewrite given_dull. Qed.
Lemma explains_same n s s' : log s' = log s -> given n s' = given n s -> explains n s s'.
Proof. intros E G. apply (explains_dull n s s' []); [by rewrite app_nil_r|done|done]. Qed.
Lemma given_mem n s s' : wtbs (pmem s') = wtbs (pmem s) -> given n s' = given n s.
Proof. unfold given. by intros ->. Qed.

Lemma given_insert n j k m : (fun k => (wt_interest k, wt_mode k)) <$> (<[j:=k]> m : gmap nat wtb) !! n =
  if decide (n = j) then Some (wt_interest k, wt_mode k) else (fun k => (wt_interest k, wt_mode k)) <$> m !! n.
Proof. case_decide; [subst; by rewrite lookup_insert|by rewrite lookup_insert_ne]. Qed.
Lemma update_given n s p o : given n (do_update s p o).2 = given n s /\ exists d, log (do_update s p o).2 = log s ++ d /\ Forall dull d.
Proof.
  split; [|cbn; exists (if ef_fault (update (pmem s) (sys s) p o) then [Fault p] else []); split; [done|]; destruct (ef_fault _); repeat constructor].
  unfold given. cbn. unfold update. destruct p as [j|j|j|]; try done.
  - destruct (socks _ !! j); [|done]. unfold afd_poll, afd_cancel. repeat case_match; done.
  - destruct (wtbs _ !! j) as [k|] eqn:E; [|done]. repeat case_match; try done. cbn. rewrite given_insert. case_decide; [|done]. subst. by rewrite E.
Qed.
Lemma delete_given n s p o : given n (do_delete s p o).2 = given n s /\ exists d, log (do_delete s p o).2 = log s ++ d /\ Forall dull d.
Proof.
  split; [|cbn; exists ((if ef_fault (begin_delete (pmem s) (sys s) p o) then [Fault p] else []) ++ [Removed p]); split; [by rewrite app_assoc|]; destruct (ef_fault _); repeat constructor].
  unfold given. cbn. unfold begin_delete. destruct p as [j|j|j|]; try done.
  - destruct (socks _ !! j); [|done]. unfold afd_cancel. repeat case_match; done.
  - destruct (wtbs _ !! j) as [k|] eqn:E; [|done]. assert (X : forall k', wt_interest k' = wt_interest k -> wt_mode k' = wt_mode k ->
      (fun k => (wt_interest k, wt_mode k)) <$> (<[j:=k']> (wtbs (pmem s)) : gmap nat wtb) !! n = (fun k => (wt_interest k, wt_mode k)) <$> wtbs (pmem s) !! n).
    { intros k' E1 E2. rewrite given_insert. case_decide; [|done]. subst. rewrite E. cbn. by rewrite E1, E2. }
    destruct (wt_status k); by apply X.
Qed.
Lemma ustep_given n c s p u o s' x : ustep c s p u o = (s', x) -> given n s' = given n s /\ exists d, log s' = log s ++ d /\ Forall dull d.
Proof.
  assert (Q : forall s1, log s1 = log s -> given n s1 = given n s -> given n s1 = given n s /\ exists d, log s1 = log s ++ d /\ Forall dull d).
  { intros s1 E G. split; [done|]. exists []. rewrite app_nil_r. done. }
  intros H. destruct u as [| | |i|i q]; cbn -[do_update] in H.
  - injection H as <- _. by apply Q.
  - pose proof (update_given n s p o) as E. destruct (do_update s p o). by injection H as <- _.
  - case_decide; injection H as <- _; by apply Q.
  - destruct i; [injection H as <- _; by apply Q|]. destruct (pending s); injection H as <- _; by apply Q.
  - pose proof (update_given n s q o) as [E (d & D & F)]. destruct (do_update s q o) as [r s1]. cbn [snd] in *. destruct r; injection H as <- _.
    + split; [done|]. by exists d.
    + split; [done|]. exists (d ++ [Lost p]). cbn. rewrite D, app_assoc. split; [done|]. apply Forall_app. split; [done|]. by repeat constructor.
    + split; [done|]. exists (d ++ [Lost p]). cbn. rewrite D, app_assoc. split; [done|]. apply Forall_app. split; [done|]. by repeat constructor.
Qed.

Lemma explains_of n s s1 s' d' : given n s1 = given n s /\ (exists d, log s1 = log s ++ d /\ Forall dull d) ->
  log s' = log s1 ++ d' -> Forall dull d' -> given n s' = given n s1 -> explains n s s'.
Proof.
  intros [G (d & D & F)] E F' G'. apply (explains_dull n s s' (d ++ d')); [by rewrite E, D, app_assoc|by apply Forall_app|congruence].
Qed.
Lemma explains_via n s s1 s' : given n s1 = given n s /\ (exists d, log s1 = log s ++ d /\ Forall dull d) ->
  log s' = log s1 -> given n s' = given n s1 -> explains n s s'.
Proof. intros X E G. apply (explains_of n s s1 s' []); [done|by rewrite app_nil_r|done|done]. Qed.
Lemma thread_given n c s i q a s' : tinv s -> thread_step c s i q a = Some s' -> explains n s s'.
Proof.
  intros T H. destruct q, a; try done; unfold thread_step in H.
  - injection H as <-. by eapply explains_dull; [cbn; done|repeat constructor|].
  - destruct o; [injection H as <-; by apply explains_same|]. destruct c0; cbn in H; try done; injection H as <-.
    + eexists; split; [cbn; done|]. done.
    + eexists; split; [cbn; done|]. cbn [fold_left given_step]. unfold given. cbn. rewrite given_insert. cbn. repeat case_decide; congruence.
  - destruct (insert_packet _ _ _) as [s1|] eqn:E; [|injection H as <-; by apply explains_same]. injection H as <-.
    destruct c0, p; cbn in E; try done; (case_in E; [done|]); injection E as <-; by eapply explains_dull; [cbn; done|repeat constructor|].
  - destruct (lookup_packet _ _); injection H as <-; by apply explains_same.
  - destruct (do_set _ _ _) as [[s1 b]|] eqn:E; [|done]. cbn [mbind option_bind] in H. injection H as <-.
    assert (X : explains n s s1).
    { destruct c0, p as [j|j|j|]; cbn in E; try done; (case_in E; [|done]); cbn in E; injection E as <- _; (eexists; split; [cbn; done|]); [done|].
      cbn [fold_left given_step]. unfold given. cbn. rewrite given_insert. cbn. repeat case_decide; congruence. }
    destruct X as (d & D & G). exists d. by destruct b.
  - destruct (ustep _ _ _ _ _) as [s1 x] eqn:E. apply (ustep_given n) in E. injection H as <-. by eapply explains_via.
  - destruct (lookup_packet _ _); injection H as <-; [|by apply explains_same]. destruct c0; by apply explains_same.
  - pose proof (delete_given n s p o) as E. destruct (do_delete s p o). injection H as <-. by eapply explains_via.
  - destruct (notified s); injection H as <-; by apply explains_same.
  - unfold do_post in H; destruct o; injection H as <-; (eapply explains_dull; [cbn; done|by repeat constructor|done]).
  - injection H as <-. by eapply explains_dull; [cbn; done|repeat constructor|].
Qed.
Lemma wtbs_discards b m : wtbs (foldl discard m b) = wtbs m.
Proof.
  revert m. induction b as [|p b IH]; intros m; [done|]. cbn. rewrite IH. unfold discard. destruct p; try done. cbn. by case_match.
Qed.
Lemma lost_dull (b : list pid) : Forall dull (map Lost b).
Proof. induction b; by constructor. Qed.
Lemma wait_given n c s a s' : wait_step c s a = Some s' -> explains n s s'.
Proof.
  intros H. unfold wait_step in H.
  destruct (waiter s) as [|l|l|l q|l z|l z b|l z b|l z p b|l z b ret p u|l e g|l|d own b] eqn:E, a;
    try done; try (by destruct b); try (injection H as <-; first [by apply explains_same|by eapply explains_dull; [cbn; done|repeat constructor|]]).
  - destruct (pending s) as [|q r] eqn:Ep; injection H as <-; [by eapply explains_dull; [cbn; done|repeat constructor|]|by apply explains_same].
  - pose proof (update_given n s q o) as E1. destruct (do_update s q o). injection H as <-. by eapply explains_via; [done|destruct r as [[]|err|]..].
  - case_decide; [done|]. injection H as <-. by apply explains_same.
  - destruct b; [case_match|]; injection H as <-; try by apply explains_same. apply explains_same; [done|]. apply given_mem. cbn. destruct p; try done. cbn. by case_match.
  - destruct p as [j|j|j|]; unfold feed_step in H.
    + destruct (socks (pmem s) !! j) as [k|] eqn:Ek; [|done]. cbn [mbind option_bind] in H.
      assert (FN : forall s1 r, log s1 = log s ++ [Fed (PSock j) r] -> given n s1 = given n s -> explains n s s1).
      { intros s1 r E1 E2. eexists. split; [done|]. cbn. by destruct r. }
      destruct (feed_sock k) as [k'|k'|k' r] eqn:F; [|injection H as <-; by eapply FN|injection H as <-; by eapply FN].
      destruct (sources s !! sk_socket k) as [n'|] eqn:Es; [|injection H as <-; by eapply FN].
      case_decide; [injection H as <-; by eapply FN|]. set (s2 := set_maps _ _ _) in *. pose proof (delete_given n s2 (PSock n') o) as E1.
      destruct (do_delete s2 _ o) as [r s3]. cbn [snd] in *.
      assert (explains n s s2) as (d1 & D1 & G1) by by eapply FN. destruct E1 as [G2 (d2 & D2 & F2)].
      assert (K : forall s4 d3, log s4 = log s3 ++ d3 -> Forall dull d3 -> given n s4 = given n s3 -> explains n s s4).
      { intros s4 d3 D3 F3 G3. exists (d1 ++ d2 ++ d3). split; [by rewrite D3, D2, D1, !app_assoc|]. rewrite fold_left_app, given_dull by by apply Forall_app. congruence. }
      injection H as <-. destruct r as [[]|err|].
      * apply (K _ []); [by rewrite app_nil_r|done|done].
      * apply (K _ (map Lost b)); [done|apply lost_dull|]. apply given_mem. cbn. by rewrite wtbs_discards.
      * apply (K _ []); [by rewrite app_nil_r|done|done].
    + destruct (wtbs (pmem s) !! j) as [k|] eqn:Ek; [|done]. cbn [mbind option_bind] in H. destruct (feed_wtb k) as [k' r] eqn:F. injection H as <-.
      eexists; split; [cbn; done|]. cbn [fold_left given_step]. unfold given. cbn. rewrite given_insert. unfold feed_wtb in F.
      case_decide as C1; case_decide as C2; try congruence. subst. rewrite Ek. cbn. destruct (wt_mode k) eqn:Em; injection F as <- <-; cbn; by rewrite ?Em.
    + destruct (customs (pmem s) !! j) as [k|] eqn:Ek; [|done]. cbn [mbind option_bind] in H. injection H as <-. eexists; split; [cbn; done|]. done.
    + injection H as <-. eexists; split; [cbn; done|]. done.
  - destruct (ustep _ _ _ _ _) as [s1 x] eqn:Eu. apply (ustep_given n) in Eu. injection H as <-. destruct x as [u'|[[]|e|]]; try by eapply explains_via.
    eapply explains_of; [done|done|apply lost_dull|]. apply given_mem. cbn. by rewrite wtbs_discards.
Qed.
Lemma step_given n c s l s' : tinv s -> step c s l = Some s' -> explains n s s'.
Proof.
  intros T H. destruct (step_cases _ _ _ _ H) as [(i & q & a & _ & Hq & X)|[(a & _ & X)|[(cap & d & old & E & ->)|X]]].
  - by eapply thread_given.
  - by eapply wait_given.
  - by eapply explains_dull; [cbn; done|repeat constructor|].
  - destruct l; try done; cbn -[do_post] in H.
    + injection H as <-. by apply explains_same.
    + case_in H; [|done]. cbn in H. case_in H; [|done]. cbn in H. injection H as <-. by eapply explains_dull; [cbn; done|repeat constructor|].
    + case_in H; [|done]. cbn in H. injection H as <-. by eapply explains_dull; [cbn; done|repeat constructor|].
    + case_in H; [|done]. cbn -[do_post] in H. destruct c0 as [m|m].
      * case_in H; [|done]. cbn in H. injection H as <-. apply explains_same; [done|]. unfold given. cbn. rewrite given_insert. case_decide; [|done]. subst. match goal with X : wtbs _ !! _ = Some _ |- _ => by rewrite X end.
      * injection H as <-. unfold do_post; destruct o; (eapply explains_dull; [cbn; done|by repeat constructor|done]).
Qed.
Lemma given_reach c s n : reachable c s -> given n s = given_of n (log s).
Proof.
  induction 1 as [i|s l s' Hr IH L H]; [done|]. destruct (step_given n c s l s' (tinv_reach _ _ Hr) H) as (d & -> & ->). by rewrite given_app, IH.
Qed.
(** The event of a waitable is its interest. *)
Definition wtold (n : nat) (h : list obs) : Prop := forall h1 r h2, h = h1 ++ Fed (PWait n) r :: h2 -> exists e, r = Some e /\ fst <$> given_of n h1 = Some e.
Lemma wait_step_fed c s a s' n : wait_step c s a = Some s' ->
  (exists d, log s' = log s ++ d /\ forall r, Fed (PWait n) r ∉ d) \/ exists k, log s' = log s ++ [Fed (PWait n) (Some (wt_interest k))] /\ wtbs (pmem s) !! n = Some k.
Proof.
  intros H. 
  assert (P : forall s1, log s1 = log s -> (exists d, log s1 = log s ++ d /\ forall r, Fed (PWait n) r ∉ d)).
  { intros s1 ->. exists []. rewrite app_nil_r. split; [done|]. intros r. apply not_elem_of_nil. }
  assert (P1 : forall s1 o, (forall r, o <> Fed (PWait n) r) -> log s1 = log s ++ [o] -> (exists d, log s1 = log s ++ d /\ forall r, Fed (PWait n) r ∉ d)).
  { intros s1 o N ->. eexists. split; [done|]. intros r X%elem_of_list_singleton. by destruct (N r). }
  assert (PD : forall s1 d, log s1 = log s ++ d -> Forall dull d -> (exists d, log s1 = log s ++ d /\ forall r, Fed (PWait n) r ∉ d)).
  { intros s1 d -> F. eexists. split; [done|]. intros r X. rewrite Forall_forall in F. by apply F in X. }
  unfold wait_step in H.
  destruct (waiter s) as [|l|l|l q|l z|l z b|l z b|l z p b|l z b ret p u|l e g|l|d own b] eqn:E, a;
    try done; try (by destruct b); try (injection H as <-; left; first [by apply P|by eapply P1; [|cbn; done]]).
  - left. destruct (pending s) as [|q r] eqn:Ep; injection H as <-; [by eapply P1; [|cbn; done]|by apply P].
  - left. destruct (update_given n s q o) as [_ (d & D & F)]. destruct (do_update s q o). injection H as <-. by eapply PD; [cbn; exact D|].
  - left. case_decide; [done|]. injection H as <-. by apply P.
  - left. destruct b; [case_match|]; injection H as <-; by apply P.
  - destruct p as [j|j|j|]; unfold feed_step in H.
    + left. destruct (socks (pmem s) !! j) as [k|] eqn:Ek; [|done]. cbn [mbind option_bind] in H.
      destruct (feed_sock k) as [k'|k'|k' r] eqn:F; [|injection H as <-; by eapply P1; [|cbn; done]..].
      destruct (sources s !! sk_socket k) as [n'|] eqn:Es; [|injection H as <-; by eapply P1; [|cbn; done]].
      case_decide; [injection H as <-; by eapply P1; [|cbn; done]|]. set (s2 := set_maps _ _ _) in *. destruct (delete_given n s2 (PSock n') o) as [_ (d & D & F1)].
      destruct (do_delete s2 _ o) as [r s3]. cbn [snd] in *. cbn in D.
      assert (K : forall s4 d3, log s4 = log s3 ++ d3 -> Forall dull d3 -> exists d, log s4 = log s ++ d /\ forall r, Fed (PWait n) r ∉ d).
      { intros s4 d3 D3 F3. exists ([Fed (PSock j) None] ++ d ++ d3). split; [by rewrite D3, D, !app_assoc|]. intros r0 [X|X]%elem_of_app; [by apply elem_of_list_singleton in X|].
        assert (Y : Forall dull (d ++ d3)) by by apply Forall_app. rewrite Forall_forall in Y. by apply Y in X. }
      injection H as <-. destruct r as [[]|err|].
      * apply (K _ []); [by rewrite app_nil_r|done].
      * apply (K _ (map Lost b)); [done|apply lost_dull].
      * apply (K _ []); [by rewrite app_nil_r|done].
    + destruct (wtbs (pmem s) !! j) as [k|] eqn:Ek; [|done]. cbn [mbind option_bind] in H. unfold feed_wtb in H. injection H as <-.
      destruct (decide (j = n)) as [->|]; [right; exists k; by destruct (wt_mode k)|left]. by eapply P1; [|cbn; done]; congruence.
    + left. destruct (customs (pmem s) !! j) as [k|] eqn:Ek; [|done]. cbn [mbind option_bind] in H. injection H as <-. by eapply P1; [|cbn; done].
    + left. injection H as <-. by eapply P1; [|cbn; done].
  - left. destruct (ustep _ _ _ _ _) as [s1 x] eqn:Eu. apply (ustep_given n) in Eu as [_ (d & D & F)]. injection H as <-. destruct x as [u'|[[]|e|]]; try (by eapply PD; [cbn; exact D|]).
    apply (PD _ (d ++ map Lost b)); [cbn; by rewrite D, app_assoc|]. apply Forall_app. split; [done|apply lost_dull].
Qed.
Lemma wtold_quiet n h d : (forall r, Fed (PWait n) r ∉ d) -> wtold n h -> wtold n (h ++ d).
Proof.
  intros H J h1 e h2 E. destruct (app_eq_inv _ _ _ _ E) as [(k & -> & Ek)|(k & -> & Ek)].
  - destruct k as [|x k]; cbn in Ek; [|simplify_eq; by eapply J].
    destruct (H e). rewrite <- Ek. constructor.
  - destruct (H e). rewrite Ek. apply elem_of_app. right. constructor.
Qed.
Lemma wtold_reach c s n : reachable c s -> wtold n (log s).
Proof.
  induction 1 as [i|s l s' Hr IH L H]; [intros h1 r h2 E; by destruct h1|].
  assert (Q : forall d, log s' = log s ++ d -> (forall r, Fed (PWait n) r ∉ d) -> wtold n (log s')).
  { intros d -> N. by apply wtold_quiet. }
  pose proof (tinv_reach _ _ Hr) as T. destruct (step_cases _ _ _ _ H) as [(i & q & a & _ & Hq & X)|[(a & _ & X)|[(cap & d & old & E & ->)|X]]].
  - destruct (thread_log _ _ _ _ _ _ T Hq X) as (_ & d & D & F & _). eapply Q; [done|]. intros r Hin. rewrite Forall_forall in F. by apply F in Hin.
  - destruct (wait_step_fed _ _ _ _ n X) as [(d & D & F)|(k & D & G)]; [by eapply Q|].
    rewrite D. intros h1 r h2 E. destruct h2 as [|x h2 _] using rev_ind.
    + apply app_inj_tail in E as [<- E]. injection E as <-. exists (wt_interest k). split; [done|]. rewrite <- (given_reach _ _ _ Hr). unfold given. by rewrite G.
    + rewrite app_comm_cons, app_assoc in E. apply app_inj_tail in E as [E _]. by eapply IH.
  - eapply Q; [cbn; done|]. by intros r Hin%elem_of_list_singleton.
  - destruct (env_log _ _ _ _ H X) as (_ & _ & _ & _ & _ & d & D & F & _). eapply Q; [done|]. intros r Hin. rewrite Forall_forall in F. by apply F in Hin.
Qed.

(** ** Calls of post() *)

(** About to return. *)
Definition returning (n : nat) (q : pc) : bool := match q with Ret (CPost m) (Ok _) => bool_decide (n = m) | _ => false end.
Definition off (n : nat) (d : list obs) : Prop := tally (posts (PCustom n)) d = 0 /\ tally (posted_ok n) d = 0.
Lemma mishap_off n d : Forall mishap d -> off n d.
Proof. intros F. rewrite Forall_forall in F. split; apply tally_none; intros o Ho; specialize (F _ Ho); by destruct o. Qed.
Lemma ustep_threads c s p u o s' x : ustep c s p u o = (s', x) -> threads s' = threads s.
Proof. intros E. by destruct (ustep_frame _ _ _ _ _ _ _ E) as (? & ? & ? & ? & ? & ?). Qed.
Lemma thread_post n c s i q a s' : tinv s -> threads s !! i = Some q -> thread_step c s i q a = Some s' ->
  exists d q', log s' = log s ++ d /\ threads s' = <[i:=q']> (threads s)
    /\ tally (posts (PCustom n)) d + b2n (returning n q) = tally (posted_ok n) d + b2n (returning n q').
Proof.
  intros T Hq H. pose proof (t_pc _ T _ _ Hq) as P.
  assert (N : forall s2 q2, log s2 = log s -> threads s2 = threads s -> returning n q = false -> returning n q2 = false ->
    exists d q', log (set_pc s2 i q2) = log s ++ d /\ threads (set_pc s2 i q2) = <[i:=q']> (threads s)
      /\ tally (posts (PCustom n)) d + b2n (returning n q) = tally (posted_ok n) d + b2n (returning n q')).
  { intros s2 q2 E1 E2 E3 E4. exists [], q2. cbn. rewrite E1, E2, E3, E4, app_nil_r. done. }
  destruct q, a; try done; unfold thread_step in H; cbn in P.
  - injection H as <-. exists [Called i c0], (entry c0). split; [done|]. split; [done|]. cbn. by destruct c0 as [| | | | | | |]; cbn; try destruct (supported _).
  - destruct o; [injection H as <-; apply N; try done; by destruct c0|]. destruct (new_packet _ _) as [[[m p] ob]|] eqn:E; [|done]. cbn [mbind option_bind] in H. injection H as <-.
    exists [ob], (AInsert c0 p). split; [done|]. split; [done|]. destruct c0; cbn in E; try done; by injection E as <- <- <-.
  - destruct (insert_packet _ _ _) as [s1|] eqn:E; [|injection H as <-; apply N; try done; by destruct c0]. injection H as <-.
    exists (drop (length (log s)) (log s1)), (Upd c0 p ULoad).
    destruct c0, p; cbn in E; try done; (case_in E; [done|]); injection E as <-; cbn; by rewrite drop_app.
  - destruct (lookup_packet _ _) as [p|] eqn:E; injection H as <-; apply N; try done; by destruct c0.
  - destruct (do_set _ _ _) as [[s1 b]|] eqn:E; [|done]. cbn [mbind option_bind] in H. injection H as <-. destruct P as [P _].
    exists (drop (length (log s)) (log s1)), (if b then Upd c0 p ULoad else Ret c0 (Ok tt)).
    destruct c0, p; cbn in E; try done; (case_in E; [|done]); cbn in E; injection E as <- <-; cbn; destruct (match _ with Idle => _ | _ => _ end) || destruct (match _ with WIdle => _ | _ => _ end); cbn; by rewrite drop_app.
  - destruct P as (P1 & P2 & P3). destruct (ustep _ _ _ _ _) as [s1 x] eqn:E. injection H as <-.
    destruct (ustep_log _ _ _ _ _ _ _ (names_source _ _ _ P2) P3 E) as (Q & d & D1 & D2 & D3 & _). destruct (mishap_off n d D2) as [O1 O2].
    eexists d, _. split; [done|]. split; [cbn; by rewrite (ustep_threads _ _ _ _ _ _ _ E)|]. rewrite O1, O2. cbn. destruct x as [u'|[]]; cbn; try done; by destruct P1, c0.
  - destruct (lookup_packet _ _) as [p|] eqn:E; injection H as <-; apply N; try done; by destruct c0.
  - destruct P as [P1 P2]. destruct (delete_log s p o (names_source _ _ _ P2)) as (Q & _ & d & D1 & D2 & D3 & _). destruct (mishap_off n d D2) as [O1 O2].
    assert (X : threads (do_delete s p o).2 = threads s) by done.
    destruct (do_delete s p o) as [r s1]. cbn [snd] in *. injection H as <-. eexists (d ++ [Removed p]), _. split; [done|]. split; [cbn; by rewrite X|].
    rewrite !tally_app, O1, O2. cbn. destruct r; cbn; try done; by destruct c0.
  - subst c0. destruct (notified s); injection H as <-; by apply N.
  - unfold do_post in H; destruct o; injection H as <-.
    + eexists [Fault p], _. split; [done|]. split; [done|]. cbn. destruct c0; done.
    + eexists [Posted p], _. split; [done|]. split; [done|]. unfold tally. cbn. destruct p as [j|j|j|]; try done; [|by subst c0]. destruct P as [-> _]. cbn.
      case_bool_decide as C1; case_bool_decide as C2; try done; congruence.
  - injection H as <-. eexists [Returned i c0 r], _. split; [done|]. split; [done|]. unfold tally. cbn. by destruct c0, r; cbn; try case_bool_decide.
Qed.
Lemma post_calls_reach c s n : reachable c s ->
  tally (posts (PCustom n)) (log s) = tally (posted_ok n) (log s) + cnt (returning n) (threads s).
Proof.
  induction 1 as [i|s l s' Hr IH L H]; [cbn; rewrite cnt_replicate; cbn; lia|].
  pose proof (tinv_reach _ _ Hr) as T. destruct (step_cases _ _ _ _ H) as [(i & q & a & _ & Hq & X)|[(a & _ & X)|[(cap & d & old & E & ->)|X]]].
  - destruct (thread_post n _ _ _ _ _ _ T Hq X) as (d & q' & -> & -> & C). rewrite !tally_app. pose proof (cnt_insert (returning n) _ _ _ q' Hq). lia.
  - destruct (wait_keeps _ _ _ _ T X) as (d & -> & -> & F & _). rewrite !tally_app, (own_posts (PCustom n) d I F).
    assert (tally (posted_ok n) d = 0) as ->; [|lia]. apply tally_none. intros o Ho. rewrite Forall_forall in F. destruct (F _ Ho) as [Y1 Y2]. by destruct o.
  - cbn. rewrite !tally_app. cbn. lia.
  - destruct (env_log _ _ _ _ H X) as (_ & -> & _ & _ & _ & d & D & F & _ & b & Q1 & Q2). rewrite D, !tally_app.
    assert (tally (posts (PCustom n)) d = 0) as ->.
    { apply tally_none. intros o Ho. destruct o; try done. cbn. apply bool_decide_false. intros E. subst. destruct (Q2 (PCustom n)) as [_ Q3]; [eauto|done]. }
    assert (tally (posted_ok n) d = 0) as ->; [|lia].
    destruct l; try done; cbn -[do_post] in H.
    + injection H as <-. cbn in D. rewrite <- (app_nil_r (log s)) in D at 1. by apply app_inv_head in D as <-.
    + case_in H; [|done]. cbn in H. case_in H; [|done]. cbn in H. injection H as <-. by apply app_inv_head in D as <-.
    + case_in H; [|done]. cbn in H. injection H as <-. by apply app_inv_head in D as <-.
    + case_in H; [|done]. cbn -[do_post] in H. destruct c0 as [m|m].
      * case_in H; [|done]. cbn in H. injection H as <-. cbn in D. rewrite <- (app_nil_r (log s)) in D at 1. by apply app_inv_head in D as <-.
      * injection H as <-. unfold do_post in D; destruct o; by apply app_inv_head in D as <-.
Qed.
