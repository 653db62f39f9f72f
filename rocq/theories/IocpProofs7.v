(** What is owed to a registered socket (C53, C54). *)
From stdpp Require Import prelude list gmap.
From Verif Require Import Bits Types EventModel Pool IocpModel IocpSpec IocpProofs IocpProofs2 IocpProofs3 IocpProofs4 IocpProofs5 IocpProofs6.
Local Open Scope nat_scope.

(** Completions of packet [n] that were not processed. *)
Definition coming (s : state) (n : nat) : nat :=
  occ (PSock n) (queue (sys s)) + occ (PSock n) (batch (waiter s)) + occ (PSock n) (opened (waiter s)).
Definition settled (s : state) (n : nat) (k : sock) : Prop :=
  sk_status k = Polling (mask_of k) \/ sk_status k = Cancelled \/ 0 < coming s n \/ PSock n ∈ pending s.
Definition owed (s : state) (n : nat) (k : sock) : Prop := settled s n k \/ updating s (PSock n).
Definition oinv (s : state) : Prop :=
  forall x n k, sources s !! x = Some n -> socks (pmem s) !! n = Some k -> spared (PSock n) (log s) -> owed s n k.

Lemma owed_thread s i q s1 q' n k k1 :
  threads s !! i = Some q -> threads s1 = threads s -> waiter s1 = waiter s ->
  (settled s n k -> settled s1 n k1 \/ PSock n ∈ pc_updates q') ->
  (PSock n ∈ pc_updates q -> settled s1 n k1 \/ PSock n ∈ pc_updates q') ->
  owed s n k -> owed (set_pc s1 i q') n k1.
Proof.
  intros Hq ET EW S U O. assert (L : i < length (threads s)) by by eapply lookup_lt_Some.
  assert (X : settled s1 n k1 \/ PSock n ∈ pc_updates q' -> owed (set_pc s1 i q') n k1).
  { intros [?|?]; [by left|]. right. right. exists i, q'. split; [|done]. cbn. rewrite ET. by apply list_lookup_insert. }
  destruct O as [O|[O|(j & r & Hr & O)]].
  - by apply X, S.
  - right. left. cbn. by rewrite EW.
  - destruct (decide (j = i)) as [->|].
    + rewrite Hq in Hr. injection Hr as ->. by apply X, U.
    + right. right. exists j, r. split; [|done]. cbn. by rewrite ET, list_lookup_insert_ne.
Qed.
Lemma owed_wait s s' n k k1 :
  threads s' = threads s ->
  (settled s n k -> settled s' n k1 \/ PSock n ∈ wait_updates (waiter s')) ->
  (PSock n ∈ wait_updates (waiter s) -> settled s' n k1 \/ PSock n ∈ wait_updates (waiter s')) ->
  owed s n k -> owed s' n k1.
Proof.
  intros ET S U O.
  assert (X : settled s' n k1 \/ PSock n ∈ wait_updates (waiter s') -> owed s' n k1) by (intros [?|?]; [by left|right; by left]).
  destruct O as [O|[O|(j & r & Hr & O)]]; [by apply X, S|by apply X, U|].
  right. right. exists j, r. by rewrite ET.
Qed.
Lemma settled_mono s s' n k k' :
  sk_status k' = sk_status k -> mask_of k' = mask_of k -> coming s n <= coming s' n ->
  (PSock n ∈ pending s -> PSock n ∈ pending s') -> settled s n k -> settled s' n k'.
Proof.
  intros E1 E2 C P. unfold settled. rewrite E1, E2. intros [?|[?|[?|?]]]; auto. right. right. left. lia.
Qed.

(** An update settles its packet. *)
Lemma update_settles m k n o s k' :
  socks m !! n = Some s -> sk_deleting s = false -> ef_fault (update m k (PSock n) o) = false ->
  socks (ef_mem (update m k (PSock n) o)) !! n = Some k' ->
  sk_status k' = Polling (mask_of k') \/ sk_status k' = Cancelled.
Proof.
  intros Es D. unfold update. rewrite Es, D. destruct (sk_status s) eqn:St.
  - unfold afd_poll. destruct (sk_in_use s).
    + intros _. cbn. rewrite lookup_insert. intros [= <-]. by left.
    + destruct o as [e|]; [by destruct (bad_handle e)|]. intros _. cbn. rewrite lookup_insert. intros [= <-]. by left.
  - case_bool_decide as B.
    + unfold afd_cancel. repeat case_match; cbn; intros; simplify_eq; rewrite lookup_insert in *; simplify_eq; by right.
    + intros _. cbn. rewrite Es. intros [= <-]. left. rewrite St. f_equal. destruct (decide (mask_of s = flags)); [done|].
      by destruct B.
  - intros _. cbn. rewrite Es. intros [= <-]. by right.
Qed.
Lemma update_other m k q o n : q <> PSock n -> socks (ef_mem (update m k q o)) !! n = socks m !! n.
Proof.
  intros H. unfold update, afd_poll, afd_cancel.
  destruct q as [j|j|j|]; try done; [assert (j <> n) by congruence|]; repeat case_match; cbn; try done; by rewrite lookup_insert_ne.
Qed.
Lemma delete_other m k q o n : q <> PSock n -> socks (ef_mem (begin_delete m k q o)) !! n = socks m !! n.
Proof.
  intros H. unfold begin_delete, afd_cancel.
  destruct q as [j|j|j|]; try done; [assert (j <> n) by congruence|]; repeat case_match; cbn; try done; by rewrite lookup_insert_ne.
Qed.
Lemma update_queue m k q o : queue (ef_sys (update m k q o)) = queue k.
Proof. unfold update, afd_poll, afd_cancel. repeat case_match; done. Qed.
Lemma delete_queue m k q o : queue (ef_sys (begin_delete m k q o)) = queue k.
Proof. unfold begin_delete, afd_cancel. repeat case_match; done. Qed.
Lemma spared_fault p (b : bool) : spared p (if b then [Fault p] else []) -> b = false.
Proof. destruct b; [|done]. intros [H _]. by destruct H; constructor. Qed.

Lemma coming_same s s' n : queue (sys s') = queue (sys s) -> waiter s' = waiter s -> coming s' n = coming s n.
Proof. unfold coming. by intros -> ->. Qed.
Lemma do_update_settles s q o n k k1 :
  socks (pmem s) !! n = Some k -> sk_deleting k = false ->
  socks (pmem (do_update s q o).2) !! n = Some k1 -> spared (PSock n) (log (do_update s q o).2) ->
  settled s n k \/ PSock n = q -> settled (do_update s q o).2 n k1.
Proof.
  intros Hk D H1 Sp HS. cbn in H1, Sp. destruct (decide (q = PSock n)) as [->|Hn].
  - apply spared_app in Sp as [_ Sp]. apply spared_fault in Sp. destruct (update_settles _ _ _ _ _ _ Hk D Sp H1) as [?|?]; [by left|by right; left].
  - rewrite update_other, Hk in H1 by done. injection H1 as <-. destruct HS as [HS|HS]; [|by destruct Hn].
    apply (settled_mono s _ _ k); try done. rewrite (coming_same s (do_update s q o).2); [done|exact (update_queue _ _ _ _)|done].
Qed.

Lemma ustep_settles c s p u o s' x n k k1 :
  socks (pmem s) !! n = Some k -> sk_deleting k = false -> ustep c s p u o = (s', x) ->
  socks (pmem s') !! n = Some k1 -> spared (PSock n) (log s') ->
  settled s n k \/ PSock n ∈ upd_refs p u ->
  settled s' n k1 \/ PSock n ∈ match x with inl u' => upd_refs p u' | inr _ => [] end.
Proof.
  intros Hk D H H1 Sp HS. unfold ustep in H.
  assert (P : p = PSock n -> forall u', PSock n ∈ upd_refs p u') by (intros -> u'; constructor).
  assert (Q : forall u', PSock n ∈ upd_refs p u' -> p = PSock n \/ match u' with UDrainDo _ q => q = PSock n | _ => False end).
  { intros u'. unfold upd_refs. rewrite elem_of_cons. intros [?|Hin]; [by left|right]. destruct u'; try (by apply not_elem_of_nil in Hin).
    by apply elem_of_list_singleton in Hin. }
  destruct u as [| | |[|j]|j q].
  - simplify_eq. destruct HS as [?|[?|[]]%Q]; auto.
  - pose proof (do_update_settles s p o n k k1 Hk D) as X. destruct (do_update s p o) as [r s1]. simplify_eq. left. apply X; try done.
    destruct HS as [?|[?|[]]%Q]; auto.
  - case_decide; simplify_eq.
    + left. cbn in H1. destruct HS as [HS|[?|[]]%Q].
      * apply (settled_mono s _ _ k); try done; try congruence. cbn. set_solver.
      * right. right. right. cbn. set_solver.
    + destruct HS as [?|[?|[]]%Q]; auto.
  - simplify_eq. destruct HS as [?|[?|[]]%Q]; auto.
  - destruct (pending s) as [|q l] eqn:Ep; simplify_eq; [destruct HS as [?|[?|[]]%Q]; auto|].
    cbn in H1. assert (k1 = k) as -> by congruence.
    destruct HS as [HS|[?|[]]%Q]; [|auto]. destruct HS as [?|[?|[?|Hin]]].
    1-3: left; unfold settled, coming in *; cbn; auto.
    rewrite Ep in Hin. apply elem_of_cons in Hin as [->|Hin].
    + right. unfold upd_refs. set_solver.
    + left. by right; right; right.
  - assert (SU : socks (pmem (do_update s q o).2) !! n = Some k1 -> spared (PSock n) (log (do_update s q o).2) ->
             settled s n k \/ PSock n = q -> settled (do_update s q o).2 n k1) by by apply do_update_settles.
    destruct (do_update s q o) as [r s1]. cbn [snd] in SU.
    destruct r; simplify_eq.
    + destruct HS as [?|[?|?]%Q]; auto.
    + cbn in H1, Sp. apply spared_app in Sp as [Sp SL]. left. apply SU; try done. destruct HS as [?|[?|?]%Q]; auto.
      exfalso. destruct SL as [_ SL]. subst. apply SL. constructor.
    + cbn in H1, Sp. apply spared_app in Sp as [Sp SL]. left. apply SU; try done. destruct HS as [?|[?|?]%Q]; auto.
      exfalso. destruct SL as [_ SL]. subst. apply SL. constructor.
Qed.

Lemma not_deleting c s x n k : reachable c s -> sources s !! x = Some n -> socks (pmem s) !! n = Some k -> sk_deleting k = false.
Proof.
  intros Hr Hx Hk. pose proof (registered_live _ _ _ _ Hr Hx) as L. pose proof (a_del _ _ _ _ _ _ (ainv_reach _ _ _ _ Hr Hk)) as A.
  destruct (sk_deleting k); [|done]. by destruct L; apply A.
Qed.

Lemma owed_plain s i q s1 q' n k k1 :
  threads s !! i = Some q -> pc_updates q = [] -> threads s1 = threads s -> waiter s1 = waiter s ->
  sk_status k1 = sk_status k -> mask_of k1 = mask_of k -> coming s n <= coming s1 n -> pending s1 = pending s ->
  owed s n k -> owed (set_pc s1 i q') n k1.
Proof.
  intros Hq EU ET EW ES EM C EP. apply (owed_thread s i q); try done.
  - intros HS. left. apply (settled_mono s _ _ k); try done. by rewrite EP.
  - rewrite EU. by intros ?%not_elem_of_nil.
Qed.
Lemma owed_same s s' n k : owed s n k -> threads s' = threads s -> waiter s' = waiter s -> sys s' = sys s -> pending s' = pending s ->
  owed s' n k.
Proof.
  intros O ET EW EK EP. unfold owed, settled, coming, updating in *. by rewrite ET, EW, EK, EP.
Qed.
(** An operation on another packet. *)
Lemma spared_steps n c s l s' : reachable c s -> legal s l -> step c s l = Some s' -> spared (PSock n) (log s') -> spared (PSock n) (log s).
Proof.
  intros Hr L H. destruct (refines_step n c s l s' (tinv_reach _ _ Hr) L H) as (d & -> & _). by intros [? _]%spared_app.
Qed.
Lemma entry_updates c : pc_updates (entry c) = [].
Proof. destruct c; try done; by destruct m. Qed.

Lemma set_sources s c p s1 b : do_set s c p = Some (s1, b) -> sources s1 = sources s.
Proof.
  intros H. destruct c, p; cbn in H; try done.
  - destruct (socks (pmem s) !! n) eqn:E; [|done]. cbn in H. by simplify_eq.
  - destruct (wtbs (pmem s) !! n) eqn:E; [|done]. cbn in H. by simplify_eq.
Qed.
Lemma set_settles s c p s1 b n k k1 :
  do_set s c p = Some (s1, b) -> socks (pmem s) !! n = Some k -> socks (pmem s1) !! n = Some k1 ->
  threads s1 = threads s /\ waiter s1 = waiter s /\ sys s1 = sys s /\ pending s1 = pending s /\ sources s1 = sources s
  /\ if decide (p = PSock n) then b = true \/ sk_status k1 = Polling (mask_of k1) else k1 = k.
Proof.
  intros H Hk H1. destruct c as [|x0 e0 md0| | |x0 e0 md0| | |], p as [j|j|j|]; cbn in H; try done.
  - destruct (socks (pmem s) !! j) as [k0|] eqn:E; [|done]. cbn in H. simplify_eq. split_and!; try done. cbn in H1.
    destruct (decide (PSock j = PSock n)) as [[= ->]|Hn]; [|by rewrite lookup_insert_ne in H1 by congruence; congruence].
    rewrite lookup_insert in H1. injection H1 as <-. cbn. destruct (sk_status k0) eqn:St; [by left| |by left].
    case_bool_decide as B; [by left|right]. f_equal. destruct (decide (mask_of (with_interest k0 e0 true md0) = flags)); [done|].
    by destruct B.
  - destruct (wtbs (pmem s) !! j) as [k0|] eqn:E; [|done]. cbn in H. simplify_eq. split_and!; try done. cbn in H1. cbn. congruence.
Qed.
Lemma oinv_thread c s i q a s' :
  reachable c s -> (forall n, spared (PSock n) (log s') -> spared (PSock n) (log s)) ->
  oinv s -> threads s !! i = Some q -> thread_step c s i q a = Some s' -> oinv s'.
Proof.
  intros Hr SP O Hq H x n k1 Hx H1 Sp. pose proof (tinv_reach _ _ Hr) as T. pose proof (t_pc _ T _ _ Hq) as P.
  pose proof (SP _ Sp) as Sp0.
  assert (OO : forall k, sources s !! x = Some n -> socks (pmem s) !! n = Some k -> owed s n k) by (intros; by eapply O).
  destruct q, a; try done; unfold thread_step in H; cbn in P.
  - simplify_eq. apply (owed_same (set_pc s i (entry c0))); try done. apply (owed_plain s i Out s _ n k1 k1); auto.
  - destruct o; simplify_eq; [apply (owed_plain s i (AMake c0) s _ n k1 k1); auto|].
    destruct (new_packet _ _) as [[[m p] ob]|] eqn:E; simplify_eq/=.
    destruct (t_src _ T _ _ Hx) as (k & Hk & _).
    assert (k1 = k) as ->.
    { pose proof (t_dom _ T) as (DS & _). destruct c0; cbn in E; simplify_eq; cbn in H1; [|congruence].
      rewrite lookup_insert_ne in H1; [congruence|]. intros <-. assert (next (pmem s) < next (pmem s)); [|lia]. apply DS. by exists k. }
    apply (owed_plain s i (AMake c0) _ _ n k k); auto.
  - destruct (insert_packet _ _ _) as [s1|] eqn:E; simplify_eq.
    + destruct c0 as [x0 e0 md0| | |x0 e0 md0| | | |], p as [jj|jj|jj|]; cbn in E; try done; (case_in E; [done|]); simplify_eq; cbn in H1, Hx.
      * destruct (decide (x = x0)) as [->|].
        -- rewrite lookup_insert in Hx. injection Hx as <-. right. right. exists i, (Upd (CAdd x0 e0 md0) (PSock jj) ULoad).
           split; [|constructor]. cbn. apply list_lookup_insert. by eapply lookup_lt_Some.
        -- rewrite lookup_insert_ne in Hx by done. eapply (owed_plain s i _ _ _ n k1 k1); try done; auto.
      * eapply (owed_plain s i _ _ _ n k1 k1); try done; auto.
    + eapply (owed_plain s i _ _ _ n k1 k1); try done; auto.
  - destruct (lookup_packet _ _) as [p|] eqn:E; simplify_eq; eapply (owed_plain s i _ _ _ n k1 k1); try done; auto.
  - destruct (do_set _ _ _) as [[s1 b]|] eqn:E; simplify_eq/=.
    assert (Hs : sources s1 !! x = Some n) by by destruct b. assert (H2 : socks (pmem s1) !! n = Some k1) by by destruct b.
    rewrite (set_sources _ _ _ _ _ E) in Hs. destruct (t_src _ T _ _ Hs) as (k & Hk & _).
    destruct (set_settles _ _ _ _ _ _ _ _ E Hk H2) as (E1 & E2 & E3 & E4 & _ & E6).
    assert (C : coming s1 n = coming s n) by (apply coming_same; congruence).
    assert (Z : forall s2 q', threads s2 = threads s1 -> waiter s2 = waiter s1 -> sys s2 = sys s1 -> pending s2 = pending s1 -> k1 = k ->
       owed (set_pc s2 i q') n k1).
    { intros s2 q' Z1 Z2 Z3 Z4 ->. eapply (owed_plain s i _ _ _ n k k); try done; try congruence; [|by apply OO].
      rewrite (coming_same s s2); [done|congruence|congruence]. }
    case_decide; subst.
    + destruct b.
      * right. right. exists i, (Upd c0 (PSock n) ULoad). split; [|constructor]. cbn. rewrite E1. apply list_lookup_insert.
        by eapply lookup_lt_Some.
      * destruct E6 as [?|E6]; [done|]. left. by left.
    + destruct b; by apply Z.
  - destruct P as (P1 & P2 & P3). destruct (ustep _ _ _ _ _) as [s1 y] eqn:E. simplify_eq.
    destruct (ustep_frame _ _ _ _ _ _ _ E) as (X1 & X2 & X3 & X4 & _ & _ & G). cbn in Hx, H1, Sp. rewrite X3 in Hx.
    destruct (t_src _ T _ _ Hx) as (k & Hk & _).
    assert (D : sk_deleting k = false) by by eapply not_deleting.
    pose proof (ustep_settles _ _ _ _ _ _ _ _ _ _ Hk D E H1 Sp) as U.
    apply (owed_thread s i _ s1 _ n k k1 Hq); try done; [| |by apply OO].
    + intros HS. destruct U as [?|U]; [by left|by left|]. right. by destruct y.
    + intros HS. destruct U as [?|U]; [by right|by left|]. right. by destruct y.
  - destruct (lookup_packet _ _) as [p|] eqn:E; simplify_eq; [|eapply (owed_plain s i _ _ _ n k1 k1); try done; auto].
    cbn in H1, Hx. assert (Hs : sources s !! x = Some n /\ socks (pmem s) !! n = Some k1).
    { destruct c0; cbn in E, Hx, H1; try done. apply lookup_delete_Some in Hx as [_ Hx]. done. }
    destruct Hs as [Hs Hk]. eapply (owed_plain s i _ _ _ n k1 k1); try done; try (by destruct c0); by apply OO.
  - destruct P as [P1 P2]. destruct (do_delete s p o) as [r s1] eqn:E. assert (s1 = (do_delete s p o).2) as -> by by rewrite E.
    clear E. simplify_eq. cbn [sources set_pc] in Hx. assert (Hs : sources s !! x = Some n) by done. clear Hx.
    assert (Hn : p <> PSock n).
    { intros ->. pose proof (k_one _ (kinv_reach _ _ Hr) (PSock n)) as K. unfold tok in K.
      pose proof (occ_concat_in held (PSock n) _ _ _ Hq) as Y. cbn [held] in Y. rewrite occ_one, decide_True in Y by done.
      assert (PSock n ∈ table_refs s) as Hin%occ_in; [apply table_in; by exists x|lia]. }
    assert (Hk : socks (pmem s) !! n = Some k1).
    { rewrite <- H1. symmetry. by apply delete_other. }
    eapply (owed_plain s i _ _ _ n k1 k1); try done; [|by apply OO].
    rewrite (coming_same s (do_delete s p o).2); [done|apply delete_queue|done].
  - destruct (notified s); simplify_eq; eapply (owed_plain s i _ _ _ n k1 k1); try done; auto.
  - unfold do_post in H; destruct o; simplify_eq; eapply (owed_plain s i _ _ _ n k1 k1); try done; auto.
    unfold coming. cbn. rewrite occ_app. lia.
  - simplify_eq. apply (owed_same (set_pc s i Out)); try done. eapply (owed_plain s i _ s _ n k1 k1); try done; auto.
Qed.

Lemma owed_wplain s s' n k k1 :
  wait_updates (waiter s) = [] -> threads s' = threads s ->
  sk_status k1 = sk_status k -> mask_of k1 = mask_of k -> coming s n <= coming s' n -> pending s' = pending s ->
  owed s n k -> owed s' n k1.
Proof.
  intros EU ET ES EM C EP. apply owed_wait; try done.
  - intros HS. left. apply (settled_mono s _ _ k); try done. by rewrite EP.
  - rewrite EU. by intros ?%not_elem_of_nil.
Qed.
Lemma socks_discards b m n : PSock n ∉ b -> socks (foldl discard m b) !! n = socks m !! n.
Proof.
  revert m. induction b as [|p b IH]; intros m H; [done|]. apply not_elem_of_cons in H as [H1 H2]. cbn [foldl]. rewrite IH by done.
  unfold discard. cbn. rewrite socks_unlock. by rewrite decide_False.
Qed.
Lemma spared_lost n b : spared (PSock n) (map Lost b) -> PSock n ∉ b.
Proof. intros [_ H] Hin. apply H. apply elem_of_list_fmap. eauto. Qed.
Lemma feed_status k : match feed_sock k with FClosed k' | FDeleting k' | FResult k' _ => sk_deleting k' = sk_deleting k /\ sk_socket k' = sk_socket k end.
Proof.
  unfold feed_sock. destruct (sk_deleting k) eqn:E; [done|]. destruct (reported k) as [[[r w] f]|]; [|done].
  destruct (_ || _); [|done]. by destruct (sk_mode k).
Qed.
Lemma feed_deleting k k' : feed_sock k = FDeleting k' -> sk_deleting k = true.
Proof.
  unfold feed_sock. destruct (sk_deleting k) eqn:E; [done|]. destruct (reported k) as [[[r w] f]|]; [|done].
  destruct (_ || _); done.
Qed.

Lemma oinv_feed c s l z p b o s' :
  reachable c s -> (forall n, spared (PSock n) (log s') -> spared (PSock n) (log s)) ->
  oinv s -> waiter s = WOpen l z p b -> feed_step s l z p b o = Some s' -> oinv s'.
Proof.
  intros Hr SP O E H x n k1 Hx H1 Sp. pose proof (tinv_reach _ _ Hr) as T.
  pose proof (SP _ Sp) as Sp0.
  assert (OO : forall k, sources s !! x = Some n -> socks (pmem s) !! n = Some k -> owed s n k) by (intros; by eapply O).
  (* nothing of the packet is in the part of the batch that is processed *)
  assert (Z : forall s2, threads s2 = threads s -> queue (sys s2) = queue (sys s) -> pending s2 = pending s -> p <> PSock n ->
     sources s !! x = Some n -> socks (pmem s) !! n = Some k1 ->
     (batch (waiter s2) = b \/ occ (PSock n) b = 0) -> owed s2 n k1).
  { intros s2 Z1 Z2 Z4 Z5 Z6 Z7 Z8. apply (owed_wplain s s2 n k1 k1); try done; [by rewrite E| |by apply OO].
    unfold coming. rewrite Z2, E. cbn [batch opened]. rewrite occ_one, decide_False by done.
    destruct Z8 as [-> | ->]; lia. }
  destruct p as [j|j|j|]; unfold feed_step in H.
  - destruct (socks (pmem s) !! j) as [k|] eqn:Ek; [|done]. cbn [mbind option_bind] in H.
    pose proof (feed_status k) as FS. pose proof (feed_deleting k) as FD.
    destruct (feed_sock k) as [k'|k'|k' r] eqn:F.
    + (* closed *)
      destruct (sources s !! sk_socket k) as [n'|] eqn:Es.
      2:{ simplify_eq. cbn in Hx, H1. destruct (t_src _ T _ _ Hx) as (k0 & Hk0 & <-). destruct (decide (n = j)) as [->|].
          - congruence.
          - rewrite lookup_insert_ne in H1 by done. apply Z; try done; [congruence|by left]. }
      assert (Hxx : sources s' = delete (sk_socket k) (sources s)).
      { case_decide; [by simplify_eq|]. destruct (do_delete _ _ o) as [r s3] eqn:Ed. assert (sources s3 = delete (sk_socket k) (sources s)).
        { assert (s3 = (do_delete (set_maps (emit (set_mem s (set_sock (pmem s) j k')) (Fed (PSock j) None)) (delete (sk_socket k) (sources s)) (waitables s)) (PSock n') o).2) as -> by by rewrite Ed. done. }
        destruct r; by simplify_eq. }
      rewrite Hxx in Hx. apply lookup_delete_Some in Hx as [Hne Hx]. destruct (t_src _ T _ _ Hx) as (k0 & Hk0 & Ex).
      assert (Hj : n <> j) by (intros ->; congruence).
      assert (Hn' : n <> n'). { intros ->. destruct (t_src _ T _ _ Es) as (k2 & Hk2 & E2). congruence. }
      case_decide as Hd.
      * simplify_eq. cbn in H1. rewrite lookup_insert_ne in H1 by done. apply Z; try done; [congruence|by left].
      * set (s2 := set_maps _ _ _) in H. assert (Q : socks (pmem (do_delete s2 (PSock n') o).2) !! n = socks (pmem s) !! n).
        { change (socks (ef_mem (begin_delete (pmem s2) (sys s2) (PSock n') o)) !! n = socks (pmem s) !! n).
          rewrite delete_other by congruence. cbn. by rewrite lookup_insert_ne. }
        assert (Q2 : threads (do_delete s2 (PSock n') o).2 = threads s /\ pending (do_delete s2 (PSock n') o).2 = pending s) by done.
        assert (Q3 : queue (sys (do_delete s2 (PSock n') o).2) = queue (sys s)) by exact (delete_queue _ _ _ _).
        destruct (do_delete s2 (PSock n') o) as [r s3]. cbn [snd] in *. destruct Q2 as [Q2 Q4]. destruct r; simplify_eq.
        -- apply Z; try done; [congruence|by rewrite <- Q|by left].
        -- cbn in Sp. apply spared_app in Sp as [_ Sp]. apply spared_lost in Sp. cbn in H1. rewrite socks_discards in H1 by done.
           apply Z; try done; [congruence|by rewrite <- Q|right; by apply occ_not_in].
        -- apply Z; try done; [congruence|by rewrite <- Q|by left].
    + simplify_eq. cbn in Hx, H1. destruct (decide (n = j)) as [->|].
      * pose proof (not_deleting _ _ _ _ _ Hr Hx Ek) as D. by rewrite (FD _ eq_refl) in D.
      * rewrite lookup_insert_ne in H1 by done. apply Z; try done; [congruence|by left].
    + simplify_eq. cbn in Hx, H1. destruct (decide (n = j)) as [->|].
      * right. left. constructor.
      * rewrite lookup_insert_ne in H1 by done. apply Z; try done; [congruence|by left].
  - destruct (wtbs (pmem s) !! j) as [k|] eqn:Ek; [|done]. cbn in H. simplify_eq. apply Z; try done. by left.
  - destruct (customs (pmem s) !! j) as [e|] eqn:Ek; [|done]. cbn in H. simplify_eq. apply Z; try done. by left.
  - simplify_eq. apply Z; try done. by left.
Qed.

Lemma oinv_wait c s a s' :
  reachable c s -> (forall n, spared (PSock n) (log s') -> spared (PSock n) (log s)) ->
  oinv s -> wait_step c s a = Some s' -> oinv s'.
Proof.
  intros Hr SP O H. pose proof (tinv_reach _ _ Hr) as T.
  destruct (waiter s) as [|l|l|l q|l z|l z b|l z b|l z p b|l z b ret p u|l e g|l|d own b] eqn:E, a;
    unfold wait_step in H; rewrite E in H; try done; try (by destruct b).
  all: try (by eapply oinv_feed).
  all: intros x n k1 Hx H1 Sp; pose proof (SP _ Sp) as Sp0;
    assert (OO : forall k, sources s !! x = Some n -> socks (pmem s) !! n = Some k -> owed s n k) by (intros; by eapply O).
  - simplify_eq. apply (owed_wplain s _ n k1 k1); try done; [by rewrite E| |by apply OO]. unfold coming. rewrite E. done.
  - destruct (pending s) as [|q r] eqn:Ep; simplify_eq.
    + apply (owed_wplain s _ n k1 k1); try done; [by rewrite E| |by apply OO]. unfold coming. rewrite E. done.
    + apply (owed_wait s _ n k1 k1); [done| |rewrite E; by intros ?%not_elem_of_nil|by apply OO].
      intros [?|[?|[?|Hin]]]; [left; by left|left; right; by left|left; right; right; left|].
      * unfold coming in *. rewrite E in *. done.
      * rewrite Ep in Hin. apply elem_of_cons in Hin as [->|?]; [right; constructor|left; by right; right; right].
  - assert (H2 : socks (pmem (do_update s q o).2) !! n = Some k1) by (destruct (do_update s q o) as [[] s1]; by simplify_eq).
    assert (Hs : sources s !! x = Some n).
    { rewrite <- Hx. f_equal. pose proof (eq_refl (sources (do_update s q o).2)) as X.
      change (sources (do_update s q o).2) with (sources s) in X at 1. destruct (do_update s q o) as [[] s1]; by simplify_eq. }
    assert (S2 : spared (PSock n) (log (do_update s q o).2)) by (destruct (do_update s q o) as [[] s1]; by simplify_eq).
    destruct (t_src _ T _ _ Hs) as (k & Hk & _).
    assert (D : sk_deleting k = false) by by eapply not_deleting.
    pose proof (do_update_settles s q o n k k1 Hk D H2 S2) as U.
    assert (Y : settled (do_update s q o).2 n k1 -> settled s' n k1).
    { apply settled_mono; try done.
      - unfold coming. assert (X : waiter (do_update s q o).2 = waiter s) by done. rewrite X, E.
        destruct (do_update s q o) as [[] s1]; simplify_eq; done.
      - destruct (do_update s q o) as [[] s1]; simplify_eq; done. }
    apply (owed_wait s _ n k k1); [| |rewrite E|by apply OO].
    + assert (X : threads (do_update s q o).2 = threads s) by done. destruct (do_update s q o) as [[] s1]; by simplify_eq.
    + intros HS. left. apply Y, U. by left.
    + intros HS. left. apply Y, U. right. by apply elem_of_list_singleton in HS.
  - simplify_eq. apply (owed_wplain s _ n k1 k1); try done; [by rewrite E| |by apply OO]. unfold coming. rewrite E. done.
  - simplify_eq. apply (owed_wplain s _ n k1 k1); try done; [by rewrite E| |by apply OO]. unfold coming. rewrite E. done.
  - case_decide; simplify_eq. apply (owed_wplain s _ n k1 k1); try done; [by rewrite E| |by apply OO]. unfold coming. rewrite E. cbn.
    pose proof (occ_app (PSock n) (take (lc_cap l) (queue (sys s))) (drop (lc_cap l) (queue (sys s)))) as X. rewrite take_drop in X.
    rewrite occ_nil. lia.
  - simplify_eq. apply (owed_wplain s _ n k1 k1); try done; [by rewrite E| |by apply OO]. unfold coming. rewrite E. done.
  - destruct b as [|p b].
    + case_match; simplify_eq; (apply (owed_wplain s _ n k1 k1); try done; [by rewrite E| |by apply OO]); unfold coming; rewrite E; done.
    + simplify_eq. cbn in Hx, H1. destruct (t_src _ T _ _ Hx) as (k & Hk & _). rewrite socks_unlock, Hk in H1.
      apply (owed_wplain s _ n k k1); try done; [by rewrite E|by case_decide; simplify_eq/=..| |by apply OO]. unfold coming. rewrite E. cbn.
      rewrite occ_cons, occ_one, occ_nil. lia.
  - assert (H' := H). destruct (ustep _ _ _ _ _) as [s1 y] eqn:Eu. destruct (ustep_frame _ _ _ _ _ _ _ Eu) as (X1 & X2 & X3 & X4 & _ & _ & G).
    assert (Hs : sources s !! x = Some n) by (rewrite <- X3; destruct y as [u'|[]]; by simplify_eq).
    destruct (t_src _ T _ _ Hs) as (k & Hk & _).
    assert (D : sk_deleting k = false) by by eapply not_deleting.
    assert (QQ : socks (pmem s1) !! n = Some k1 /\ spared (PSock n) (log s1) /\ (batch (waiter s') = b \/ occ (PSock n) b = 0)).
    { destruct y as [u'|[]]; simplify_eq; try (split_and!; try done; by left). cbn in Sp. apply spared_app in Sp as [Sp SL].
      apply spared_lost in SL. cbn in H1. rewrite socks_discards in H1 by done. split_and!; try done. right. by apply occ_not_in. }
    destruct QQ as (H2 & S2 & C).
    pose proof (ustep_settles _ _ _ _ _ _ _ _ _ _ Hk D Eu H2 S2) as U.
    assert (Y : settled s1 n k1 -> settled s' n k1).
    { apply settled_mono; try done.
      - assert (EQ : queue (sys s') = queue (sys s1)) by (destruct y as [u'|[]]; by simplify_eq). unfold coming. rewrite EQ, X2, E.
        cbn [batch opened]. rewrite occ_nil. destruct C as [-> | ->]; lia.
      - destruct y as [u'|[]]; by simplify_eq. }
    assert (W : PSock n ∈ match y with inl u' => upd_refs p u' | inr _ => [] end -> PSock n ∈ wait_updates (waiter s')).
    { destruct y as [u'|[]]; [|by intros ?%not_elem_of_nil..]. by simplify_eq. }
    apply (owed_wait s _ n k k1); [| |rewrite E; cbn [wait_updates]|by apply OO].
    + rewrite <- X1. destruct y as [u'|[]]; by simplify_eq.
    + intros HS. destruct U as [?|?]; auto.
    + intros HS. destruct U as [?|?]; auto.
  - simplify_eq. apply (owed_wplain s _ n k1 k1); try done; [by rewrite E| |by apply OO]. unfold coming. rewrite E. done.
  - simplify_eq. apply (owed_wplain s _ n k1 k1); try done; [by rewrite E| |by apply OO]. unfold coming. rewrite E. done.
Qed.

Lemma oinv_step c s l s' : reachable c s -> legal s l -> oinv s -> step c s l = Some s' -> oinv s'.
Proof.
  intros Hr L O H. pose proof (fun n => spared_steps n c s l s' Hr L H) as SP.
  destruct l; cbn -[do_post] in H.
  - destruct (threads s !! i) eqn:E; [|done]. cbn in H. by eapply oinv_thread.
  - simplify_eq. intros x n k1 Hx H1 Sp. apply (owed_same s); try done. by eapply O.
  - destruct (waiter s) eqn:E; simplify_eq. intros x n k1 Hx H1 Sp. apply (owed_wplain s _ n k1 k1); try done; [by rewrite E| |].
    + unfold coming. rewrite E. done.
    + eapply O; try done. by apply SP.
  - by eapply oinv_wait.
  - destruct (ops (sys s) !! i) as [o|] eqn:E; [|done]. cbn in H.
    destruct (socks (pmem s) !! op_pk o) as [y|] eqn:Ey; [|done]. cbn in H. simplify_eq.
    intros x m k1 Hx H1 Sp. cbn in Hx, H1. destruct (decide (op_pk o = m)) as [<-|Hn].
    + left. right. right. left. unfold coming. cbn. rewrite occ_app, occ_one, decide_True by done. lia.
    + rewrite lookup_insert_ne in H1 by done. assert (Ow : owed s m k1) by (eapply O; try done; by apply SP).
      destruct Ow as [Ow|Ow]; [left|by right]. revert Ow. apply settled_mono; try done. unfold coming. cbn. rewrite occ_app. lia.
  - destruct (waits (sys s) !! h) as [nn|] eqn:E; [|done]. cbn in H. simplify_eq. intros x m k1 Hx H1 Sp.
    assert (Ow : owed s m k1) by (eapply O; try done; by apply SP). exact Ow.
  - destruct (cbs (sys s) !! j) as [y|] eqn:E; [|done]. cbn -[do_post] in H. destruct y as [nn|nn].
    + destruct (wtbs (pmem s) !! nn) as [w|] eqn:Ew; [|done]. cbn in H. simplify_eq. intros x m k1 Hx H1 Sp.
      assert (Ow : owed s m k1) by (eapply O; try done; by apply SP). exact Ow.
    + simplify_eq. intros x m k1 Hx H1 Sp. destruct o; cbn in Hx, H1.
      all: assert (Ow : owed s m k1) by (eapply O; try done; by apply SP).
      all: destruct Ow as [Ow|Ow]; [left|by right]; revert Ow; apply settled_mono; try done; unfold coming; cbn; rewrite ?occ_app; lia.
Qed.
Lemma oinv_reach c s : reachable c s -> oinv s.
Proof. induction 1 as [n|s l s' Hr IH L H]; [intros x j k Hx; done|by eapply oinv_step]. Qed.
