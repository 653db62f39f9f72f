(** Dropping a poller, and histories of a process. *)
From stdpp Require Import prelude list gmap.
From Verif Require Import Types LifeModel LifeSpec LifeProofs LifeProofs2.
Local Open Scope nat_scope.

Lemma closes_opened l : forall w n, opened (sys_closes l w) !! n = if decide (n ∈ l) then None else opened w !! n.
Proof.
  induction l as [|k l IH]; intros w n.
  - by rewrite decide_False by apply not_elem_of_nil.
  - cbn [sys_closes fold_left]. fold (sys_closes l (sys_close k w)). rewrite IH. cbn [opened sys_close].
    destruct (decide (n ∈ l)) as [X|X]; [by rewrite decide_True by by right|].
    destruct (decide (n = k)) as [->|Y]; [rewrite lookup_delete; by rewrite decide_True by by left|].
    rewrite lookup_delete_ne by done. rewrite decide_False; [done|]. by intros [->|?]%elem_of_cons.
Qed.
Definition watched (l : list nat) (x : entry) : Prop := Exists (fun n => watches n x) l.
Global Instance watched_dec l x : Decision (watched l x).
Proof. unfold watched. apply _. Defined.
Lemma closes_regs l : forall w x, regs (sys_closes l w) !! x = if decide (watched l x) then None else regs w !! x.
Proof.
  induction l as [|k l IH]; intros w x.
  - rewrite decide_False; [done|]. intros H. inversion H.
  - cbn [sys_closes fold_left]. fold (sys_closes l (sys_close k w)). rewrite IH. cbn [regs sys_close]. rewrite (lookup_unwatched k (regs w) x).
    destruct (decide (watched l x)) as [X|X]; [by rewrite decide_True by by right|].
    destruct (decide (watches k x)) as [Y|Y]; [by rewrite decide_True by by left|].
    rewrite decide_False; [done|]. intros H. inversion H; contradiction.
Qed.
Lemma closes_log l : forall w, NoDup l -> (forall n, n ∈ l -> is_Some (opened w !! n)) ->
  closes (sys_closes l w) = closes w ++ map (fun n => (n, true)) l.
Proof.
  induction l as [|k l IH]; intros w N H; [by rewrite app_nil_r|].
  cbn [sys_closes fold_left map]. fold (sys_closes l (sys_close k w)). apply NoDup_cons in N as [N1 N2]. rewrite IH; [|done|].
  - cbn [closes sys_close]. rewrite bool_decide_true by (apply H; by left). by rewrite <- app_assoc.
  - intros n Hn. cbn [opened sys_close]. rewrite lookup_delete_ne by (by intros ->). apply H. by right.
Qed.
Lemma ignored c x (w : world) : let w' := ignore (sys_do c (fun w => set_regs w (delete x (regs w)))) w in
  opened w' = opened w /\ closes w' = closes w /\ (forall y, x <> y -> regs w' !! y = regs w !! y) /\ forall y, is_Some (regs w' !! y) -> is_Some (regs w !! y).
Proof.
  unfold ignore, sys_do. destruct (an_err (now w)); cbn [snd opened closes regs answered set_regs]; [done|]. split_and!; try done.
  - intros y N. by rewrite lookup_delete_ne.
  - intros y H. destruct (decide (x = y)) as [->|N]; [rewrite lookup_delete in H; by destruct H|]. by rewrite lookup_delete_ne in H.
Qed.

(** Everything the poller owns is closed once, in some order; nothing else happens to descriptors. *)
Definition dropped (l : list nat) (w w' : world) : Prop :=
  (forall n, opened w' !! n = if decide (n ∈ l) then None else opened w !! n)
  /\ (forall x, regs w' !! x = if decide (watched l x) then None else regs w !! x)
  /\ (NoDup l -> (forall n, n ∈ l -> is_Some (opened w !! n)) -> exists k, k ≡ₚ l /\ closes w' = closes w ++ map (fun n => (n, true)) k).
Lemma dropped_closes l w : dropped l w (sys_closes l w).
Proof. split; [apply closes_opened|]. split; [apply closes_regs|]. intros N H. exists l. split; [done|by apply closes_log]. Qed.
Lemma dropped_ignore l w c x : watched l x -> dropped l w (sys_closes l (ignore (sys_do c (fun w => set_regs w (delete x (regs w)))) w)).
Proof.
  intros X. destruct (ignored c x w) as (A & B & C & D). set (w' := ignore _ w) in *. destruct (dropped_closes l w') as (E & F & G). rewrite A, B in *.
  split; [done|]. split; [|done]. intros y. rewrite F. case_decide as Y; [done|]. apply C. by intros ->.
Qed.
Lemma dropped_app t l w w1 w2 : dropped [t] w w1 -> dropped l w1 w2 -> dropped (l ++ [t]) w w2.
Proof.
  intros (A & B & C) (A' & B' & C'). split; [|split].
  - intros n. rewrite A', A. destruct (decide (n ∈ l)) as [X|X]; [by rewrite decide_True by (apply elem_of_app; by left)|].
    destruct (decide (n ∈ [t])) as [Y|Y]; [by rewrite decide_True by (apply elem_of_app; by right)|]. rewrite decide_False; [done|]. by intros [?|?]%elem_of_app.
  - intros x. rewrite B', B. destruct (decide (watched l x)) as [X|X]; [by rewrite decide_True by (apply Exists_app; by left)|].
    destruct (decide (watched [t] x)) as [Y|Y]; [by rewrite decide_True by (apply Exists_app; by right)|]. rewrite decide_False; [done|]. by intros [?|?]%Exists_app.
  - intros N H. apply NoDup_app in N as (N1 & N2 & N3). destruct C as (k & K1 & K2); [done|intros n Hn; apply H, elem_of_app; by right|].
    destruct C' as (k' & K1' & K2'); [done| |].
    + intros n Hn. rewrite A. rewrite decide_False by by apply N2. apply H, elem_of_app. by left.
    + exists (k ++ k'). split; [rewrite K1, K1'; apply Permutation_app_comm|]. by rewrite K2', K2, map_app, app_assoc.
Qed.
Lemma drop_spec p w : dropped (own p) w (drop p w).
Proof.
  destruct p as [ep no t|kq st|n|no|n]; cbn [own drop].
  - unfold epoll_drop. destruct t as [t|].
    + change (ep :: notifier_fds no ++ [t]) with ((ep :: notifier_fds no) ++ [t]). eapply dropped_app; [|apply dropped_ignore; left; by left].
      change (sys_close t ?w) with (sys_closes [t] w). apply (dropped_ignore [t] w CtlDel (ep, Some t)). left. by right.
    + rewrite app_nil_r. apply dropped_ignore. left. by left.
  - unfold kqueue_drop. apply dropped_ignore. left. by left.
  - change (sys_close n w) with (sys_closes [n] w). apply dropped_closes.
  - apply dropped_closes.
  - change (sys_close n w) with (sys_closes [n] w). apply dropped_closes.
Qed.

(** [new], from any sane world. *)
Lemma new_spec f w : sane w ->
  match new f w with
  | (Ok p, w') => exists m d, inv w m (own_entries p) d w' /\ is_new f p m (own_entries p)
  | (Err e, w') => exists d, inv w ∅ ∅ d w' /\ blame f e d
  | (Panic, _) => False
  end.
Proof.
  intros S. pose proof (good_new f w ∅ [] w S (inv_start w)) as G. destruct (new f w) as [[p|e|] w']; [| |done].
  - destruct G as (m & R & d & I & Q). specialize (Q eq_refl). destruct Q as [-> Q]. exists m, d. split; [done|by split].
  - destruct G as (R & d & I & Q). exists d. split; [|done]. by eapply empty_inv.
Qed.

Lemma inv_sane w0 m R d w : sane w0 -> inv w0 m R d w -> (forall x n, is_Some (R !! x) -> x.2 = Some n -> is_Some (m !! n)) -> sane w.
Proof.
  intros S I H x Hx. rewrite (i_regs _ _ _ _ _ I) in Hx. rewrite (i_open _ _ _ _ _ I). apply lookup_union_is_Some in Hx as [Hx|Hx].
  - split; [apply lookup_union_is_Some; left; by apply (i_inst _ _ _ _ _ I)|]. intros n Hn. apply lookup_union_is_Some. left. by eapply H.
  - destruct (S x Hx) as [A B]. split; [apply lookup_union_is_Some; by right|]. intros n Hn. apply lookup_union_is_Some. right. by apply B.
Qed.
Lemma own_entries_own p x : is_Some (own_entries p !! x) -> x.1 ∈ own p /\ forall n, x.2 = Some n -> n ∈ own p.
Proof.
  destruct p as [ep no t|kq st|n|no|n]; cbn [own own_entries].
  - intros [v H]. assert (X : x = (ep, Some (notifier_fd no)) \/ exists t', t = Some t' /\ x = (ep, Some t')).
    { apply lookup_insert_Some in H as [[H _]|[_ H]]; [by left|]. right. destruct t as [t|]; [|by rewrite lookup_empty in H].
      apply lookup_singleton_Some in H as [<- _]. by exists t. }
    destruct X as [->|(t' & -> & ->)]; cbn; (split; [by left|]); intros n [= <-]; right; apply elem_of_app; [left; destruct no; by left|right; by left].
  - destruct st as [[r w]|]; intros [v H]; apply lookup_singleton_Some in H as [<- _]; cbn; (split; [by left|]); intros n Hn; [|done]. injection Hn as <-. right. by left.
  - intros [v H]. by rewrite lookup_empty in H.
  - intros [v H]. by rewrite lookup_empty in H.
  - intros [v H]. by rewrite lookup_empty in H.
Qed.

(** The descriptors of the pollers that are alive. *)
Definition held (o : option poller) : list nat := match o with Some p => own p | None => [] end.
Definition owned (l : list (option poller)) : list nat := flat_map held l.
Record hinv (s : process) : Prop := {
  h_sane : sane (env s);
  h_open : forall n, is_Some (opened (env s) !! n) <-> n ∈ mine s \/ n ∈ owned (pollers s);
  h_nodup : NoDup (owned (pollers s));
  h_apart : forall n, n ∈ mine s -> n ∉ owned (pollers s);
  h_close : forall n b, (n, b) ∈ closes (env s) -> b = true
}.
Lemma owned_app l l' : owned (l ++ l') = owned l ++ owned l'.
Proof. unfold owned. by rewrite flat_map_app. Qed.
Lemma owned_drop l i p : l !! i = Some (Some p) -> exists l1 l2, l = l1 ++ Some p :: l2 /\ <[i := None]> l = l1 ++ None :: l2
  /\ owned l = owned l1 ++ own p ++ owned l2 /\ owned (<[i := None]> l) = owned l1 ++ owned l2.
Proof.
  intros H. pose proof (take_drop_middle l i _ H) as E. exists (take i l), (list.drop (S i) l). split; [done|].
  assert (E2 : <[i := None]> l = take i l ++ None :: list.drop (S i) l).
  { rewrite <- E at 1. rewrite insert_app_r_alt by (rewrite take_length; lia). rewrite take_length. apply lookup_lt_Some in H.
    by replace (i - i `min` length l) with 0 by lia. }
  split; [done|]. split; [rewrite <- E at 1; by rewrite owned_app|]. by rewrite E2, owned_app.
Qed.
Lemma hinv_act s a s' : hinv s -> act s a = Some s' -> hinv s'.
Proof.
  intros [S O N A C] E. destruct a as [f|i|n|n|i n e m|i n]; cbn [act] in E.
  - pose proof (new_spec f (env s) S) as G. destruct (new f (env s)) as [[p|e|] w']; [| |done]; injection E as <-.
    + destruct G as (m & d & I & _ & ND & NE & D & _). 
      assert (X : forall n, n ∈ own p -> opened (env s) !! n = None).
      { intros n Hn. apply D in Hn as [v Hv]. destruct (opened (env s) !! n) eqn:E; [|done]. exfalso. pose proof (i_disj _ _ _ _ _ I) as J. rewrite map_disjoint_spec in J. by eapply J. }
      split; cbn [env mine pollers].
      * eapply inv_sane; [exact S|exact I|]. intros x n Hx Hn. apply D. by eapply own_entries_own.
      * intros n. rewrite (i_open _ _ _ _ _ I), lookup_union_is_Some, D, O, owned_app. unfold owned at 3. cbn. rewrite app_nil_r, elem_of_app. tauto.
      * rewrite owned_app. unfold owned at 2. cbn. rewrite app_nil_r. apply NoDup_app. split; [done|]. split; [|done].
        intros n Hn Hp. specialize (X n Hp). destruct (proj2 (O n)) as [v Hv]; [by right|]. congruence.
      * intros n Hn. rewrite owned_app. unfold owned at 2. cbn. rewrite app_nil_r. intros [H|H]%elem_of_app; [by eapply A|].
        specialize (X n H). destruct (proj2 (O n)) as [v Hv]; [by left|]. congruence.
      * intros n b Hn. destruct (i_close _ _ _ _ _ I) as (l & L1 & L). rewrite L1 in Hn. apply elem_of_app in Hn as [Hn|Hn]; [by eapply C|]. by eapply L.
    + destruct G as (d & I & _). split; cbn [env mine pollers]; try done.
      * eapply inv_sane; [exact S|exact I|]. intros x n [v Hv]. by rewrite lookup_empty in Hv.
      * intros n. rewrite (i_open _ _ _ _ _ I), (left_id_L ∅ (∪)). apply O.
      * intros n b Hn. destruct (i_close _ _ _ _ _ I) as (l & L1 & L). rewrite L1 in Hn. apply elem_of_app in Hn as [Hn|Hn]; [by eapply C|]. by eapply L.
  - destruct (pollers s !! i) as [[p|]|] eqn:P; try done. injection E as <-.
    destruct (owned_drop _ _ _ P) as (l1 & l2 & E1 & E2 & E3 & E4). destruct (drop_spec p (env s)) as (D1 & D2 & D3).
    rewrite E3 in *. assert (N' : NoDup (own p ++ owned l1 ++ owned l2)) by (rewrite (Permutation_app_swap_app _ _ _) in N; done).
    apply NoDup_app in N' as (N1 & N2 & N3).
    assert (Y : forall n, n ∈ own p -> n ∉ mine s).
    { intros n Hn Hm. apply (A n Hm). rewrite !elem_of_app. tauto. }
    split; cbn [env mine pollers].
    + intros x Hx. rewrite D2 in Hx. case_decide as W; [by destruct Hx|]. destruct (S x Hx) as [S1 S2].
      split; [|intros n Hn; specialize (S2 n Hn)]; rewrite D1, decide_False; try done; intros H; apply W, Exists_exists; eexists; (split; [exact H|]); [by left|by right].
    + intros n. rewrite D1, E4. case_decide as H.
      * split; [by intros [? ?]|]. intros [M|M]; exfalso; [by apply (Y n)|by apply (N2 n H)].
      * rewrite O, !elem_of_app. tauto.
    + by rewrite E4.
    + intros n Hn. rewrite E4. intros H. apply (A n Hn). rewrite !elem_of_app in *. tauto.
    + intros n b Hn. destruct D3 as (k & _ & K); [done|intros k Hk; apply O; right; rewrite !elem_of_app; tauto|]. rewrite K in Hn.
      apply elem_of_app in Hn as [Hn|Hn]; [by eapply C|]. apply elem_of_list_fmap in Hn as (z & [= -> ->] & _). done.
  - destruct (opened (env s) !! n) eqn:P; [done|]. injection E as <-. split; cbn [env mine pollers opened regs set_opened closes]; try done.
    + intros x Hx. destruct (S x Hx) as [S1 S2]. cbn [opened set_opened]. split; [rewrite lookup_insert_is_Some'; by right|]. intros k Hk. rewrite lookup_insert_is_Some'. right. by apply S2.
    + intros k. rewrite lookup_insert_is_Some', elem_of_cons, O. naive_solver.
    + intros k [->|Hk]%elem_of_cons; [|by apply A]. intros H. destruct (proj2 (O n)) as [v Hv]; [by right|]. congruence.
  - case_decide as P; [|done]. injection E as <-.
    assert (M : forall k, k ∈ List.filter (fun m => negb (m =? n)) (mine s) <-> k ∈ mine s /\ k <> n).
    { intros k. rewrite !elem_of_list_In, filter_In, negb_true_iff, Nat.eqb_neq. done. }
    split; cbn [env mine pollers opened regs closes]; try done.
    + intros x Hx. cbn [regs] in Hx. rewrite (lookup_unwatched n (regs (env s)) x) in Hx. case_decide as W; [by destruct Hx|]. destruct (S x Hx) as [S1 S2]. cbn [opened].
      split; [|intros k Hk; specialize (S2 k Hk)]; (rewrite lookup_delete_ne; [done|]); intros ->; apply W; [by left|by right].
    + intros k. rewrite M. destruct (decide (n = k)) as [->|X].
      * rewrite lookup_delete. split; [by intros [? ?]|]. intros [[? ?]|H]; [done|]. exfalso. by apply (A k).
      * rewrite lookup_delete_ne by done. rewrite O. naive_solver.
    + intros k [Hk _]%M. by apply A.
  - destruct (pollers s !! i) as [[p|]|] eqn:P; try done. destruct (instance p) as [q|] eqn:Q; [|done]. case_decide as W; [|done]. injection E as <-.
    assert (Hq : is_Some (opened (env s) !! q)).
    { apply O. right. destruct (owned_drop _ _ _ P) as (l1 & l2 & _ & _ & -> & _). apply elem_of_app. right. apply elem_of_app. left.
      destruct p; cbn in Q |- *; try done; injection Q as ->; by left. }
    split; cbn [env mine pollers opened regs set_regs closes]; try done.
    intros x Hx. cbn [regs set_regs opened] in *. destruct (decide ((q, Some n) = x)) as [<-|X].
    + cbn. split; [done|]. by intros k [= <-].
    + rewrite lookup_insert_ne in Hx by done. by apply S.
  - destruct (pollers s !! i) as [[p|]|] eqn:P; try done. destruct (instance p) as [q|] eqn:Q; [|done]. injection E as <-.
    split; cbn [env mine pollers opened regs set_regs closes]; try done.
    intros x Hx. cbn [regs set_regs opened] in *. destruct (decide ((q, Some n) = x)) as [<-|X].
    + rewrite lookup_delete in Hx. by destruct Hx.
    + rewrite lookup_delete_ne in Hx by done. by apply S.
Qed.
Lemma history_hinv l sc s : history l sc s -> hinv s.
Proof.
  induction 1 as [|s a s' H IH E]; [|by eapply hinv_act]. split; cbn [env mine pollers opened regs closes]; try done.
  - intros x [v Hv]. cbn in Hv. by rewrite lookup_empty in Hv.
  - intros n. split.
    + intros [v Hv]. apply elem_of_list_to_map_2, elem_of_list_fmap in Hv as (k & [= -> ->] & Hk). by left.
    + intros [H|H]; [|by apply not_elem_of_nil in H]. destruct (list_to_map _ !! n) eqn:E; [by eexists|]. exfalso.
      apply (not_elem_of_list_to_map_2 (M := gmap nat)) in E. apply E. rewrite <- list_fmap_compose. apply elem_of_list_fmap. by exists n.
  - constructor.
  - intros n _ H. by apply not_elem_of_nil in H.
  - intros n b H. by apply not_elem_of_nil in H.
Qed.
Lemma alive_owned s n : n ∈ owned (pollers s) <-> exists p, alive s p /\ n ∈ own p.
Proof.
  unfold owned. rewrite elem_of_list_In, in_flat_map. split.
  - intros (o & Ho & Hn). destruct o as [p|]; [|done]. exists p. apply elem_of_list_In, elem_of_list_lookup in Ho. apply elem_of_list_In in Hn. by split.
  - intros (p & [i Hi] & Hn). exists (Some p). split; [by apply elem_of_list_In, elem_of_list_lookup; exists i|by apply elem_of_list_In].
Qed.
Lemma owned_apart l i j p q n : NoDup (owned l) -> l !! i = Some (Some p) -> l !! j = Some (Some q) -> i <> j -> n ∈ own p -> n ∉ own q.
Proof.
  revert i j. induction l as [|o l IH]; intros i j N Hi Hj D; [done|]. cbn in N. apply NoDup_app in N as (N1 & N2 & N3).
  assert (X : forall k r, l !! k = Some (Some r) -> n ∈ own r -> n ∈ owned l).
  { intros k r Hk Hr. apply elem_of_list_In, in_flat_map. exists (Some r). split; [by apply elem_of_list_In, elem_of_list_lookup; exists k|by apply elem_of_list_In]. }
  destruct i as [|i], j as [|j]; cbn in Hi, Hj; try done.
  - injection Hi as ->. intros Hp Hq. apply (N2 n Hp). by eapply X.
  - injection Hj as ->. intros Hp Hq. apply (N2 n Hq). by eapply X.
  - eapply IH; try done. congruence.
Qed.
