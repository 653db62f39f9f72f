(** Reference counts (C62). *)
From stdpp Require Import prelude list gmap.
From Verif Require Import Bits Types EventModel Pool IocpModel IocpSpec IocpProofs IocpProofs2.
Local Open Scope nat_scope.

Lemma occ_app p l l' : occ p (l ++ l') = occ p l + occ p l'.
Proof. apply cnt_app. Qed.
Lemma occ_cons p q l : occ p (q :: l) = occ p [q] + occ p l.
Proof. unfold occ. cbn. lia. Qed.
Lemma occ_nil p : occ p [] = 0.
Proof. done. Qed.
Lemma occ_perm p l l' : l ≡ₚ l' -> occ p l = occ p l'.
Proof. induction 1; unfold occ in *; cbn in *; lia. Qed.
Lemma occ_in p l : p ∈ l -> 0 < occ p l.
Proof.
  induction 1 as [|q r l' H IH]; unfold occ in *; cbn.
  - rewrite bool_decide_true by done. cbn. lia.
  - lia.
Qed.
Lemma occ_pos p l : 0 < occ p l -> p ∈ l.
Proof.
  induction l as [|q l IH]; unfold occ in *; cbn; [lia|]. case_bool_decide; [subst; constructor|].
  cbn. intros Hp. constructor. by apply IH.
Qed.
Lemma occ_not_in p l : p ∉ l -> occ p l = 0.
Proof. intros H. destruct (occ p l) eqn:E; [done|]. destruct H. apply occ_pos. lia. Qed.
Lemma occ_threads p (l : list pc) i q q' :
  l !! i = Some q ->
  occ p (concat (map pc_refs (<[i:=q']> l))) + occ p (pc_refs q) = occ p (concat (map pc_refs l)) + occ p (pc_refs q').
Proof.
  revert i. induction l as [|x l IH]; intros i H; [done|]. destruct i as [|i]; simplify_eq/=.
  - rewrite !occ_app. lia.
  - rewrite !occ_app. specialize (IH i H). lia.
Qed.
Lemma occ_map_insert {K} `{Countable K} p (f : nat -> pid) (m : gmap K nat) x n :
  m !! x = None -> occ p (map f (map_to_list (<[x:=n]> m)).*2) = occ p (map f (map_to_list m).*2) + occ p [f n].
Proof.
  intros H0. rewrite (occ_perm p _ (map f ((x, n) :: map_to_list m).*2)).
  - cbn [fmap list_fmap snd map]. rewrite occ_cons. lia.
  - apply fmap_Permutation, fmap_Permutation, map_to_list_insert, H0.
Qed.
Lemma occ_map_delete {K} `{Countable K} p (f : nat -> pid) (m : gmap K nat) x n :
  m !! x = Some n -> occ p (map f (map_to_list (delete x m)).*2) + occ p [f n] = occ p (map f (map_to_list m).*2).
Proof.
  intros H0. rewrite <- (insert_delete m x n H0) at 2. rewrite occ_map_insert; [done|]. apply lookup_delete.
Qed.
Lemma occ_user_insert p (m : gmap nat (event N)) n e :
  m !! n = None -> occ p (map PCustom (map_to_list (<[n:=e]> m)).*1) = occ p (map PCustom (map_to_list m).*1) + occ p [PCustom n].
Proof.
  intros H0. rewrite (occ_perm p _ (map PCustom ((n, e) :: map_to_list m).*1)).
  - cbn [fmap list_fmap fst map]. rewrite occ_cons. lia.
  - apply fmap_Permutation, fmap_Permutation, map_to_list_insert, H0.
Qed.

Lemma count_clone m q p : count (clone m q) p = count m p + occ p [q].
Proof.
  unfold clone, set_refs, count at 1, occ. cbn. case_bool_decide.
  - subst. rewrite lookup_insert. cbn. unfold count. lia.
  - rewrite lookup_insert_ne by done. cbn. unfold count. lia.
Qed.
Lemma count_drop m q p : count (drop_ref m q) p = count m p - occ p [q].
Proof.
  unfold drop_ref, set_refs, count at 1, occ. cbn. case_bool_decide.
  - subst. rewrite lookup_insert. cbn. unfold count. lia.
  - rewrite lookup_insert_ne by done. cbn. unfold count. lia.
Qed.

Lemma sysrefs_cancel k n p : occ p (system_refs (set_ops k (map (cancel_op n) (ops k)))) = occ p (system_refs k).
Proof.
  unfold system_refs. cbn [ops set_ops queue waits cbs]. f_equal. f_equal. rewrite map_map. apply map_ext.
  intros o. unfold cancel_op. by case_decide.
Qed.
Lemma update_refs m k q o p :
  winv (status_of m) k ->
  count (ef_mem (update m k q o)) p + occ p (system_refs k)
  = count m p + occ p (system_refs (ef_sys (update m k q o))) + occ p (ef_leak (update m k q o)).
Proof.
  intros W. unfold update. destruct q as [n|n|n|]; try (cbn; lia).
  - destruct (socks m !! n) as [s|]; [|cbn; lia]. destruct (sk_deleting s); [cbn; lia|].
    destruct (sk_status s); [|case_bool_decide|]; try (cbn [ef_mem ef_sys ef_leak]; rewrite ?occ_nil; lia).
    + unfold afd_poll. repeat case_match; cbn [ef_mem ef_sys ef_leak]; rewrite ?count_clone, ?occ_nil;
        change (count (set_sock m n ?x) p) with (count m p); try lia.
      unfold system_refs. cbn [ops set_ops queue waits cbs]. rewrite map_app, !occ_app. cbn [map op_pk]. lia.
    + unfold afd_cancel. repeat case_match; cbn [ef_mem ef_sys ef_leak]; rewrite ?occ_nil;
        change (count (set_sock m n ?x) p) with (count m p); rewrite ?sysrefs_cancel; lia.
  - destruct (wtbs m !! n) as [w|] eqn:E; [|cbn; lia]. destruct (no_interest _); [cbn; lia|].
    destruct (wt_status w); try (cbn; lia). destruct o; cbn [ef_mem ef_sys ef_leak]; rewrite count_clone; [lia|].
    change (count (set_wtb m n ?x) p) with (count m p).
    unfold system_refs. cbn [ops queue waits cbs]. rewrite !occ_app, occ_map_insert, ?occ_nil; [lia|].
    destruct (waits k !! fresh k) eqn:F; [|done]. apply (w_waits _ _ W), (w_fresh _ _ W) in F. lia.
Qed.
Lemma delete_refs m k q o p :
  winv (status_of m) k ->
  count (ef_mem (begin_delete m k q o)) p + occ p (system_refs k)
  = count m p + occ p (system_refs (ef_sys (begin_delete m k q o))) + occ p (ef_leak (begin_delete m k q o)).
Proof.
  intros W. unfold begin_delete. destruct q as [n|n|n|]; try (cbn; lia).
  - destruct (socks m !! n) as [s|]; [|cbn; lia]. destruct (sk_deleting s); [cbn; lia|].
    unfold afd_cancel. repeat case_match; cbn [ef_mem ef_sys ef_leak]; rewrite ?occ_nil;
        change (count (set_sock m n ?x) p) with (count m p); rewrite ?sysrefs_cancel; lia.
  - destruct (wtbs m !! n) as [w|] eqn:E; [|cbn; lia].
    destruct (wt_status w) as [|h|] eqn:Es; cbn [ef_mem ef_sys ef_leak]; rewrite ?occ_nil;
        change (count (set_wtb m n ?x) p) with (count m p); try lia.
    unfold system_refs. cbn [ops queue waits cbs]. rewrite !occ_app. destruct (waits k !! h) as [j|] eqn:F.
    + assert (j = n) as ->.
      { apply (w_inj _ _ W h); [by apply (w_waits _ _ W)|]. unfold status_of. rewrite E. cbn. congruence. }
      pose proof (occ_map_delete p PWait _ _ _ F). lia.
    + rewrite delete_notin by done. rewrite occ_nil. lia.
Qed.

Definition rinv (s : state) : Prop := forall p, count (pmem s) p = occ p (owners s) + occ p (leaks s).

(** What the threads and the waiter do not own. *)
Definition rest (s : state) (p : pid) : nat :=
  occ p (system_refs (sys s)) + occ p (table_refs s) + occ p (pending s) + occ p (user_refs (pmem s)) + occ p (leaks s).
Lemma owners_rest s p :
  occ p (owners s) + occ p (leaks s) = rest s p + occ p (wait_refs (waiter s)) + occ p (concat (map pc_refs (threads s))).
Proof. unfold owners, rest. rewrite !occ_app. lia. Qed.

Lemma user_same m m' : customs m' = customs m -> user_refs m' = user_refs m.
Proof. unfold user_refs. by intros ->. Qed.
Lemma table_same s s' : sources s' = sources s -> waitables s' = waitables s -> table_refs s' = table_refs s.
Proof. unfold table_refs. by intros -> ->. Qed.
Lemma do_update_refs s q o p :
  swinv s -> rest s p + occ p [q] <= count (pmem s) p ->
  count (pmem (do_update s q o).2) p + rest s p + occ p [q] = count (pmem s) p + rest (do_update s q o).2 p.
Proof.
  intros W H. pose proof (update_refs (pmem s) (sys s) q o p W) as U.
  destruct (same_update (pmem s) (sys s) q o) as (_ & _ & _ & C).
  unfold do_update, apply_eff, rest in *. cbn [snd pmem emits leak set_sys set_mem sys pending leaks].
  rewrite count_drop. rewrite (user_same (pmem s) (drop_ref _ q)) by exact C. rewrite occ_app.
  rewrite (table_same s (emits _ _)) by done. lia.
Qed.
Lemma do_delete_refs s q o p :
  swinv s -> rest s p + occ p [q] <= count (pmem s) p ->
  count (pmem (do_delete s q o).2) p + rest s p + occ p [q] = count (pmem s) p + rest (do_delete s q o).2 p.
Proof.
  intros W H. pose proof (delete_refs (pmem s) (sys s) q o p W) as U.
  destruct (same_delete (pmem s) (sys s) q o) as (_ & _ & _ & C).
  unfold do_delete, apply_eff, rest in *. cbn [snd pmem emit emits leak set_sys set_mem sys pending leaks].
  rewrite count_drop. rewrite (user_same (pmem s) (drop_ref _ q)) by exact C. rewrite occ_app.
  rewrite (table_same s (emit _ _)) by done. lia.
Qed.
Lemma ustep_refs c s q u o s' x p :
  swinv s -> rest s p + occ p (upd_refs q u) <= count (pmem s) p -> ustep c s q u o = (s', x) ->
  count (pmem s') p + rest s p + occ p (upd_refs q u)
  = count (pmem s) p + rest s' p + occ p (match x with inl u' => upd_refs q u' | inr _ => [] end).
Proof.
  intros W B H. unfold ustep in H. destruct u as [| | |[|n]|n r].
  - simplify_eq. by destruct (polling s'); cbn; lia.
  - pose proof (do_update_refs s q o p W B) as X. destruct (do_update s q o). simplify_eq/=. unfold upd_refs, occ in *. cbn in *. lia.
  - case_decide; simplify_eq; [|cbn; lia]. unfold rest. cbn [pmem sys set_pending pending leaks]. rewrite occ_app.
    rewrite (table_same s (set_pending _ _)) by done. unfold upd_refs. rewrite occ_nil. lia.
  - simplify_eq. cbn. lia.
  - destruct (pending s) as [|r l] eqn:E; simplify_eq; [cbn; lia|]. unfold rest. cbn [pmem sys set_pending pending leaks].
    rewrite (table_same s (set_pending _ _)) by done. rewrite E. unfold upd_refs. rewrite (occ_cons p r l), (occ_cons p q [r]). lia.
  - unfold upd_refs in B. rewrite (occ_cons p q [r]) in B.
    pose proof (do_update_refs s r o p W ltac:(lia)) as X. destruct (do_update s r o) as [y s1]. cbn [snd] in X.
    unfold upd_refs. rewrite (occ_cons p q [r]). destruct y; simplify_eq.
    + lia.
    + cbn [pmem emit emits set_mem]. rewrite count_drop. unfold rest at 2.
      cbn [sys emit emits set_mem pmem pending leaks]. rewrite (user_same (pmem s1) (drop_ref _ q)) by done.
      rewrite (table_same s1 (emit _ _)) by done. rewrite occ_nil. unfold rest in *. lia.
    + cbn [pmem emit emits set_mem]. rewrite count_drop. unfold rest at 2.
      cbn [sys emit emits set_mem pmem pending leaks]. rewrite (user_same (pmem s1) (drop_ref _ q)) by done.
      rewrite (table_same s1 (emit _ _)) by done. rewrite occ_nil. unfold rest in *. lia.
Qed.

Arguments occ : simpl never.

Lemma rinv_intro s :
  (forall p, count (pmem s) p = rest s p + occ p (wait_refs (waiter s)) + occ p (concat (map pc_refs (threads s)))) -> rinv s.
Proof. intros H p. rewrite owners_rest. apply H. Qed.
Lemma rinv_elim s p :
  rinv s -> count (pmem s) p = rest s p + occ p (wait_refs (waiter s)) + occ p (concat (map pc_refs (threads s))).
Proof. intros H. rewrite H. apply owners_rest. Qed.
Lemma threads_own p (l : list pc) i q : l !! i = Some q -> occ p (pc_refs q) <= occ p (concat (map pc_refs l)).
Proof.
  revert i. induction l as [|x l IH]; intros i H; [done|]. destruct i as [|i]; simplify_eq/=; rewrite occ_app.
  - lia.
  - specialize (IH i H). lia.
Qed.

(** Thread [i] goes from [q] to [q'] and the rest of the state changes accordingly. *)
Lemma rinv_move s i q s1 q' :
  rinv s -> threads s !! i = Some q -> threads s1 = threads s -> waiter s1 = waiter s ->
  (forall p, rest s p + occ p (pc_refs q) <= count (pmem s) p ->
     count (pmem s1) p + rest s p + occ p (pc_refs q) = count (pmem s) p + rest s1 p + occ p (pc_refs q')) ->
  rinv (set_pc s1 i q').
Proof.
  intros R Hq ET EW H. apply rinv_intro. intros p. pose proof (rinv_elim _ p R) as C.
  pose proof (threads_own p _ _ _ Hq). pose proof (occ_threads p _ _ _ q' Hq) as X.
  specialize (H p ltac:(lia)). change (rest (set_pc s1 i q') p) with (rest s1 p). cbn. rewrite ET, EW. lia.
Qed.
Lemma rest_mem s m p : customs m = customs (pmem s) -> rest (set_mem s m) p = rest s p.
Proof. intros E. unfold rest. cbn [pmem sys set_mem pending leaks]. rewrite (user_same (pmem s) m) by done. by rewrite (table_same s). Qed.

Ltac case_in E := match type of E with context [?a !! ?b] => destruct (a !! b) eqn:? end.
Lemma rinv_thread c s i q a s' :
  tinv s -> swinv s -> rinv s -> threads s !! i = Some q -> thread_step c s i q a = Some s' -> rinv s'.
Proof.
  intros T W R Hq H. pose proof (t_pc _ T _ _ Hq) as P. destruct q, a; try done; unfold thread_step in H; cbn in P.
  - simplify_eq. change (rinv (set_pc s i (entry c0))). apply (rinv_move s _ _ _ _ R Hq); try done. intros p _.
    assert (pc_refs (entry c0) = []) as ->; [|cbn; lia]. destruct c0; cbn; try done; by destruct m.
  - destruct o; simplify_eq; [apply (rinv_move s _ _ _ _ R Hq); try done; cbn; lia|].
    destruct (new_packet _ _) as [[[m p] ob]|] eqn:E; simplify_eq/=. apply (rinv_move s _ _ _ _ R Hq); try done. intros r _.
    assert (X : customs m = customs (pmem s) /\ count m r = count (pmem s) r + occ r [p]).
    { destruct c0; simplify_eq/=; (split; [done|]); by rewrite count_clone. }
    destruct X as [X1 X2]. change (rest (emit (set_mem s m) ob) r) with (rest (set_mem s m) r). rewrite rest_mem by done. cbn [pmem emit emits set_mem pc_refs]. rewrite X2, occ_nil. lia.
  - destruct (insert_packet _ _ _) as [s1|] eqn:E; simplify_eq.
    + assert (X : threads s1 = threads s /\ waiter s1 = waiter s /\
        forall r, count (pmem s1) r + rest s r = count (pmem s) r + rest s1 r).
      { destruct c0, p; cbn in E; try done; (case_in E; [done|]); simplify_eq;
          (split; [done|]; split; [done|]); intros r; cbn [pmem emit emits set_maps set_mem]; rewrite count_clone;
          unfold rest; cbn [pmem emit emits set_maps set_mem sys pending leaks];
          rewrite (user_same (pmem s) (clone _ _)) by done;
          unfold table_refs; cbn [sources waitables emit emits set_maps set_mem]; rewrite !occ_app, occ_map_insert by done; lia. }
      destruct X as (X1 & X2 & X3). apply (rinv_move s _ _ _ _ R Hq); try done. intros r _. cbn [pc_refs]. change (upd_refs ?p ULoad) with [p]. specialize (X3 r). lia.
    + apply (rinv_move s _ _ _ _ R Hq); try done. intros r B. rewrite rest_mem by done. cbn [pmem set_mem pc_refs] in *.
      rewrite count_drop, occ_nil. lia.
  - destruct (lookup_packet _ _) as [p|] eqn:E; simplify_eq; [|apply (rinv_move s _ _ _ _ R Hq); try done; cbn; lia].
    apply (rinv_move s _ _ _ _ R Hq); try done. intros r B. rewrite rest_mem by done. cbn [pmem set_mem pc_refs] in *.
    rewrite count_clone, occ_nil. lia.
  - destruct (do_set _ _ _) as [[s1 b]|] eqn:E; simplify_eq/=.
    assert (X : threads s1 = threads s /\ waiter s1 = waiter s /\
        forall r, count (pmem s1) r = count (pmem s) r /\ rest s r = rest s1 r).
    { destruct c0, p; cbn in E; try done; (case_in E; [|done]); simplify_eq/=;
        (split; [done|]; split; [done|]); intros r; done. }
    destruct X as (X1 & X2 & X3). destruct b; simplify_eq.
    + apply (rinv_move s _ _ _ _ R Hq); try done. intros r _. cbn [pc_refs]. change (upd_refs ?p ULoad) with [p]. destruct (X3 r). lia.
    + apply (rinv_move s _ _ _ _ R Hq); try done. intros r B. rewrite rest_mem by done. cbn [pmem set_mem pc_refs] in *.
      destruct (X3 r). rewrite count_drop, occ_nil. lia.
  - destruct (ustep _ _ _ _ _) as [s1 x] eqn:E. simplify_eq.
    pose proof (ustep_frame _ _ _ _ _ _ _ E) as (X1 & X2 & _). apply (rinv_move s _ _ _ _ R Hq); try done. intros r B.
    pose proof (ustep_refs _ _ _ _ _ _ _ r W B E) as X. destruct x; cbn [pc_refs] in *; lia.
  - destruct (lookup_packet _ _) as [p|] eqn:E; simplify_eq; [|apply (rinv_move s _ _ _ _ R Hq); try done; cbn; lia].
    assert (X : threads (remove_packet s c0) = threads s /\ waiter (remove_packet s c0) = waiter s /\
       forall r, count (pmem (remove_packet s c0)) r = count (pmem s) r /\ rest s r = rest (remove_packet s c0) r + occ r [p]).
    { destruct c0; cbn in E, P; try done; apply fmap_Some in E as (n & En & ->);
        (split; [done|]; split; [done|]); intros r; (split; [done|]);
        unfold rest; cbn [pmem remove_packet set_maps sys pending leaks];
        unfold table_refs; cbn [sources waitables remove_packet set_maps]; rewrite !occ_app.
      - pose proof (occ_map_delete r PSock _ _ _ En). lia.
      - pose proof (occ_map_delete r PWait _ _ _ En). lia. }
    destruct X as (X1 & X2 & X3). apply (rinv_move s _ _ _ _ R Hq); try done. intros r _. destruct (X3 r). cbn [pc_refs]. rewrite occ_nil. lia.
  - destruct (do_delete s p o) as [r s1] eqn:E. simplify_eq.
    assert (s1 = (do_delete s p o).2) as -> by by rewrite E. apply (rinv_move s _ _ _ _ R Hq); try done. intros x B. cbn [pc_refs] in *.
    pose proof (do_delete_refs s p o x W B). rewrite occ_nil. lia.
  - destruct (notified s); simplify_eq; apply (rinv_move s _ _ _ _ R Hq); try done; done.
  - destruct (do_post _ _ _) as [r s1] eqn:E. simplify_eq.
    assert (X : threads s1 = threads s /\ waiter s1 = waiter s /\
        forall r, count (pmem s1) r + rest s r = count (pmem s) r + rest s1 r).
    { unfold do_post in E. destruct o; simplify_eq; (split; [done|]; split; [done|]); intros y.
      - cbn [pmem emit emits leak set_mem]. rewrite count_clone. unfold rest. cbn [pmem emit emits leak set_mem sys pending leaks].
        rewrite (user_same (pmem s) (clone _ _)) by done. rewrite (table_same s (emit _ _)) by done. rewrite occ_app. lia.
      - cbn [pmem emit emits set_sys set_mem]. rewrite count_clone. unfold rest. cbn [pmem emit emits set_sys set_mem sys pending leaks].
        rewrite (user_same (pmem s) (clone _ _)) by done. rewrite (table_same s (emit _ _)) by done.
        unfold system_refs, enqueue. cbn [ops queue waits cbs]. rewrite !occ_app. lia. }
    destruct X as (X1 & X2 & X3). apply (rinv_move s _ _ _ _ R Hq); try done. intros y _. specialize (X3 y). cbn. lia.
  - simplify_eq. change (rinv (set_pc s i Out)). apply (rinv_move s _ _ _ _ R Hq); try done.
Qed.

(** The waiter moves. *)
Lemma rinv_wmove s s1 w' :
  rinv s -> threads s1 = threads s ->
  (forall p, rest s p + occ p (wait_refs (waiter s)) <= count (pmem s) p ->
     count (pmem s1) p + rest s p + occ p (wait_refs (waiter s)) = count (pmem s) p + rest s1 p + occ p (wait_refs w')) ->
  rinv (set_waiter s1 w').
Proof.
  intros R ET H. apply rinv_intro. intros p. pose proof (rinv_elim _ p R) as C.
  specialize (H p ltac:(lia)). change (rest (set_waiter s1 w') p) with (rest s1 p). cbn [pmem set_waiter waiter threads]. rewrite ET. lia.
Qed.
Lemma customs_unlock m p : customs (unlock m p) = customs m.
Proof. destruct p; cbn; try done. by case_match. Qed.
Lemma refs_unlock m p r : count (unlock m p) r = count m r.
Proof. destruct p; cbn; try done. by case_match. Qed.
Lemma customs_discards b m : customs (foldl discard m b) = customs m.
Proof. revert m. induction b as [|p b IH]; intros m; [done|]. cbn [foldl]. rewrite IH. cbn. apply customs_unlock. Qed.
Lemma count_discards b m r : count (foldl discard m b) r = count m r - occ r b.
Proof.
  revert m. induction b as [|p b IH]; intros m; [cbn; rewrite occ_nil; lia|]. cbn [foldl]. rewrite IH. unfold discard.
  rewrite count_drop, refs_unlock, (occ_cons r p b). lia.
Qed.
Lemma rest_abandon s b p : rest (abandon s b) p = rest s p.
Proof.
  unfold rest. cbn [pmem sys abandon emits set_mem pending leaks]. rewrite (user_same (pmem s) (foldl _ _ _)) by apply customs_discards.
  by rewrite (table_same s).
Qed.

Lemma rinv_feed s l z p b o s' :
  tinv s -> swinv s -> rinv s -> waiter s = WOpen l z p b -> feed_step s l z p b o = Some s' -> rinv s'.
Proof.
  intros T W R E H. assert (WR : wait_refs (waiter s) = p :: b) by by rewrite E.
  destruct p as [n|n|n|]; unfold feed_step in H.
  - destruct (socks (pmem s) !! n) as [k|] eqn:Ek; [|done]. cbn [mbind option_bind] in H.
    destruct (feed_sock k) as [k'|k'|k' r] eqn:F.
    + destruct (sources s !! sk_socket k) as [n'|] eqn:Es.
      * match type of H with context [set_maps ?a ?b' ?c'] => set (s2 := set_maps a b' c') in * end.
        assert (X : forall r, count (pmem s2) r = count (pmem s) r /\ rest s r = rest s2 r + occ r [PSock n']).
        { intros r. split; [done|]. unfold rest, s2. cbn [pmem set_maps emit emits set_mem sys pending leaks].
          rewrite (user_same (pmem s) (set_sock _ _ _)) by done.
          unfold table_refs. cbn [sources waitables set_maps emit emits set_mem]. rewrite !occ_app.
          pose proof (occ_map_delete r PSock _ _ _ Es). lia. }
        case_decide.
        -- simplify_eq. apply (rinv_wmove s s2); [done|done|]. intros r B. destruct (X r). rewrite WR.
           cbn [wait_refs]. rewrite !occ_app, (occ_cons r (PSock n) b), (occ_cons r (PSock n) [PSock n]). lia.
        -- assert (W2 : swinv s2) by exact W.
           assert (Y : forall r, occ r (PSock n :: b) + rest s r <= count (pmem s) r ->
              count (pmem (do_delete s2 (PSock n') o).2) r + rest s r = count (pmem s) r + rest (do_delete s2 (PSock n') o).2 r).
           { intros r B. destruct (X r). pose proof (do_delete_refs s2 (PSock n') o r W2 ltac:(lia)). lia. }
           assert (Z : threads (do_delete s2 (PSock n') o).2 = threads s) by done.
           destruct (do_delete s2 (PSock n') o) as [r s3]. cbn [snd] in *.
           destruct r; simplify_eq; (apply (rinv_wmove s); [done|done|]); intros r B; rewrite WR in *;
             specialize (Y r ltac:(lia)); rewrite ?rest_abandon, rest_mem by done;
             cbn [pmem abandon emits set_mem wait_refs opened batch app]; rewrite ?count_discards, ?count_drop, ?occ_nil;
             rewrite (occ_cons r (PSock n) b) in *; lia.
      * simplify_eq. apply (rinv_wmove s (emit (set_mem s (set_sock (pmem s) n k')) (Fed (PSock n) None))); [done|done|].
        intros r B. rewrite WR. done.
    + simplify_eq. match goal with |- rinv (emit (set_waiter ?a ?w) _) => apply (rinv_wmove s a w); [done|done|] end.
      intros r B. rewrite WR in *. rewrite rest_mem by done. cbn [pmem set_mem wait_refs opened batch app].
      rewrite count_drop. change (count (set_sock (pmem s) n k') r) with (count (pmem s) r). rewrite (occ_cons r (PSock n) b) in *. lia.
    + simplify_eq. match goal with |- rinv (emit (set_waiter ?a ?w) _) => apply (rinv_wmove s a w); [done|done|] end.
      intros r0 B. rewrite WR in *. done.
  - destruct (wtbs (pmem s) !! n) as [k|] eqn:Ek; [|done]. cbn in H. simplify_eq.
    match goal with |- rinv (emit (set_waiter ?a ?w) _) => apply (rinv_wmove s a w); [done|done|] end.
    intros r0 B. rewrite WR in *. done.
  - destruct (customs (pmem s) !! n) as [e|]; [|done]. cbn in H. simplify_eq.
    match goal with |- rinv (emit (set_waiter ?a ?w) _) => apply (rinv_wmove s a w); [done|done|] end.
    intros r B. rewrite WR in *. rewrite rest_mem by done. cbn [pmem set_mem wait_refs opened batch app].
    rewrite count_drop. rewrite (occ_cons r (PCustom n) b) in *. lia.
  - simplify_eq. match goal with |- rinv (emit (set_waiter ?a ?w) _) => apply (rinv_wmove s a w); [done|done|] end.
    intros r B. rewrite WR in *. rewrite rest_mem by done. cbn [pmem set_mem wait_refs opened batch app].
    rewrite count_drop. rewrite (occ_cons r PWake b) in *. lia.
Qed.

Lemma do_update_ok s q o : tinv s -> source (pmem s) q -> (do_update s q o).1 <> Panic.
Proof.
  intros T. unfold do_update, update, afd_poll, afd_cancel. cbn [fst]. destruct q as [n|n|n|]; cbn [source]; try done.
  - intros [k ->]. repeat case_match; cbn [ef_res]; done.
  - intros [k ->]. repeat case_match; cbn [ef_res]; done.
Qed.
Lemma rinv_wait c s a s' : tinv s -> swinv s -> rinv s -> wait_step c s a = Some s' -> rinv s'.
Proof.
  intros T W R H. unfold wait_step in H.
  destruct (waiter s) as [|l|l|l q|l z|l z b|l z b|l z p b|l z b ret p u|l e g|l|d own b] eqn:E, a;
    try done; try (by destruct b).
  - simplify_eq. apply (rinv_wmove s (set_flags s true (notified s))); [done|done|]. intros r B. by rewrite E.
  - destruct (pending s) as [|q r] eqn:Ep; simplify_eq.
    + match goal with |- rinv (emit (set_waiter ?a ?w) _) => apply (rinv_wmove s a w); [done|done|] end. intros r B. by rewrite E.
    + apply (rinv_wmove s); [done|done|]. intros x B. rewrite E in *. unfold rest. cbn [pmem sys set_pending pending leaks wait_refs opened batch app].
      rewrite (table_same s (set_pending _ _)) by done. rewrite Ep, (occ_cons x q r), occ_nil. lia.
  - assert (Y : forall r, rest s r + occ r [q] <= count (pmem s) r ->
      count (pmem (do_update s q o).2) r + rest s r + occ r [q] = count (pmem s) r + rest (do_update s q o).2 r).
    { intros r. by apply do_update_refs. }
    assert (Z : threads (do_update s q o).2 = threads s) by done.
    destruct (do_update s q o) as [r s1]. simplify_eq. apply (rinv_wmove s); [done|done|].
    intros x B. rewrite E in *. cbn [wait_refs] in *. specialize (Y x B). cbn [snd] in Y.
    destruct r; cbn [wait_refs opened batch app]; rewrite occ_nil; lia.
  - simplify_eq. apply (rinv_wmove s s); [done|done|]. intros r B. by rewrite E.
  - simplify_eq. apply (rinv_wmove s s); [done|done|]. intros r B. by rewrite E.
  - case_decide; simplify_eq. apply (rinv_wmove s); [done|done|]. intros r B. rewrite E in *.
    unfold rest. cbn [pmem sys set_sys pending leaks wait_refs opened batch app].
    rewrite (table_same s (set_sys _ _)) by done. unfold system_refs. cbn [ops queue waits cbs].
    pose proof (occ_app r (take (lc_cap l) (queue (sys s))) (drop (lc_cap l) (queue (sys s)))) as X. rewrite take_drop in X.
    rewrite !occ_app, occ_nil. lia.
  - simplify_eq. apply (rinv_wmove s (set_flags s false (notified s))); [done|done|]. intros r B. by rewrite E.
  - destruct b as [|p b].
    + case_match; simplify_eq; (apply (rinv_wmove s s); [done|done|]); intros r B; by rewrite E.
    + simplify_eq. apply (rinv_wmove s); [done|done|]. intros r B. rewrite E in *.
      rewrite rest_mem by apply customs_unlock. cbn [pmem set_mem wait_refs opened batch app]. rewrite refs_unlock. lia.
  - by eapply rinv_feed.
  - destruct (ustep _ _ _ _ _) as [s1 x] eqn:Eu. pose proof (ustep_frame _ _ _ _ _ _ _ Eu) as (X1 & X2 & _).
    destruct x as [u'|[]]; simplify_eq; (apply (rinv_wmove s); [done|done|]); intros r B; rewrite E in *; cbn [wait_refs] in *;
      rewrite occ_app in B; pose proof (ustep_refs c s p u o s1 _ r W ltac:(lia) Eu) as X; cbn [opened batch app wait_refs] in *;
      rewrite ?rest_abandon; cbn [pmem abandon emits set_mem]; rewrite ?count_discards, ?occ_app, ?occ_nil in *; lia.
  - simplify_eq. match goal with |- rinv (emit (set_waiter ?a ?w) _) => apply (rinv_wmove s a w); [done|done|] end. intros r B. by rewrite E.
  - simplify_eq. match goal with |- rinv (emit (set_waiter ?a ?w) _) => apply (rinv_wmove s a w); [done|done|] end. intros r B. by rewrite E.
Qed.

(** A step of the system. *)
Lemma rinv_env s s' :
  rinv s -> threads s' = threads s -> waiter s' = waiter s ->
  (forall p, count (pmem s') p + rest s p = count (pmem s) p + rest s' p) -> rinv s'.
Proof.
  intros R ET EW H. apply rinv_intro. intros p. pose proof (rinv_elim _ p R). specialize (H p). rewrite ET, EW. lia.
Qed.
Lemma occ_remove_nth p (l : list pid) i x : l !! i = Some x -> occ p (remove_nth i l) + occ p [x] = occ p l.
Proof. intros H. pose proof (cnt_remove_nth (fun q => bool_decide (p = q)) i l x H). unfold occ. cbn in *. lia. Qed.
Lemma map_remove_nth {A B} (f : A -> B) i l : map f (remove_nth i l) = remove_nth i (map f l).
Proof. unfold remove_nth. rewrite map_app. f_equal; [apply fmap_take|apply fmap_drop]. Qed.
Lemma rinv_step c s l s' : tinv s -> swinv s -> rinv s -> step c s l = Some s' -> rinv s'.
Proof.
  intros T W R H. destruct l; cbn -[do_post] in H.
  - destruct (threads s !! i) eqn:E; [|done]. cbn in H. by eapply rinv_thread.
  - simplify_eq. apply (rinv_env s); [done..|]. intros p. cbn [pmem set_mem]. rewrite count_clone.
    assert (F : customs (pmem s) !! next (pmem s) = None).
    { apply eq_None_not_Some. intros ?%(t_dom _ T). lia. }
    unfold rest. cbn [pmem sys set_mem pending leaks]. rewrite (table_same s (set_mem _ _)) by done. unfold user_refs.
    rewrite (occ_cons p PWake (map PCustom (map_to_list (customs (pmem s))).*1)).
    cbn [clone customs set_refs]. rewrite (occ_cons p PWake (map PCustom (map_to_list (<[_:=_]> _)).*1)).
    rewrite occ_user_insert by done. change (count (Mem _ _ _ _ (refs (pmem s))) p) with (count (pmem s) p). lia.
  - destruct (waiter s) eqn:E; simplify_eq.
    match goal with |- rinv (emit (set_waiter ?a ?w) _) => apply (rinv_wmove s a w); [done|done|] end. intros r B. by rewrite E.
  - by eapply rinv_wait.
  - destruct (ops (sys s) !! i) as [o|] eqn:E; [|done]. cbn in H.
    destruct (socks (pmem s) !! op_pk o) as [x|] eqn:Ex; [|done]. cbn in H. simplify_eq.
    apply (rinv_env s); [done..|]. intros p. cbn [pmem set_mem emit emits set_sys].
    change (count (set_sock (pmem s) ?a ?k) p) with (count (pmem s) p).
    unfold rest. cbn [pmem sys set_mem emit emits set_sys pending leaks]. rewrite (table_same s (emit _ _)) by done.
    rewrite (user_same (pmem s) (set_sock _ _ _)) by done.
    unfold system_refs. cbn [ops queue waits cbs enqueue set_ops]. rewrite !occ_app, map_remove_nth.
    assert (X : map (fun o => PSock (op_pk o)) (ops (sys s)) !! i = Some (PSock (op_pk o))).
    { change (((fun o => PSock (op_pk o)) <$> ops (sys s)) !! i = Some (PSock (op_pk o))). by rewrite list_lookup_fmap, E. }
    pose proof (occ_remove_nth p _ _ _ X). lia.
  - destruct (waits (sys s) !! h) as [n|] eqn:E; [|done]. cbn in H. simplify_eq.
    apply (rinv_env s); [done..|]. intros p. cbn [pmem emit emits set_sys].
    unfold rest. cbn [pmem sys emit emits set_sys pending leaks]. rewrite (table_same s (emit _ _)) by done.
    unfold system_refs. cbn [ops queue waits cbs]. rewrite map_app, !occ_app. cbn [map cb_packet].
    pose proof (occ_map_delete p PWait _ _ _ E). lia.
  - destruct (cbs (sys s) !! j) as [x|] eqn:E; [|done]. cbn -[do_post] in H. destruct x as [n|n].
    + destruct (wtbs (pmem s) !! n) as [w|] eqn:Ew; [|done]. cbn in H. simplify_eq.
      apply (rinv_env s); [done..|]. intros p. cbn [pmem set_mem set_sys].
      change (count (set_wtb (pmem s) ?a ?k) p) with (count (pmem s) p).
      unfold rest. cbn [pmem sys set_mem set_sys pending leaks]. rewrite (table_same s (set_sys _ _)) by done.
      rewrite (user_same (pmem s) (set_wtb _ _ _)) by done.
      unfold system_refs. cbn [ops queue waits cbs set_cbs]. rewrite !occ_app.
      assert (map cb_packet (<[j:=CbPost n]> (cbs (sys s))) = map cb_packet (cbs (sys s))) as ->; [|lia].
      change (cb_packet <$> (<[j:=CbPost n]> (cbs (sys s))) = cb_packet <$> cbs (sys s)). rewrite list_fmap_insert.
      apply list_insert_id. by rewrite list_lookup_fmap, E.
    + simplify_eq. apply (rinv_env s); [by destruct o..|]. intros p.
      assert (X : map cb_packet (cbs (sys s)) !! j = Some (PWait n)).
      { change ((cb_packet <$> cbs (sys s)) !! j = Some (PWait n)). by rewrite list_lookup_fmap, E. }
      pose proof (occ_remove_nth p _ _ _ X) as Y.
      destruct o; cbn [snd do_post pmem emit emits leak set_sys]; unfold rest;
        cbn [pmem sys emit emits leak set_sys pending leaks]; rewrite (table_same s (emit _ _)) by done;
        unfold system_refs; cbn [ops queue waits cbs set_cbs enqueue]; rewrite !occ_app, map_remove_nth; lia.
Qed.
Lemma rinv_reach c s : reachable c s -> rinv s.
Proof.
  induction 1 as [n|s l s' Hr IH L H]; [|eapply rinv_step; eauto using tinv_reach, swinv_reach].
  apply rinv_intro. intros p. unfold rest, system_refs, table_refs, user_refs. cbn -[occ].
  rewrite !map_to_list_empty. cbn -[occ]. rewrite !occ_nil.
  assert (concat (map pc_refs (replicate n Out)) = []) as -> by (induction n; done). rewrite occ_nil.
  unfold count, occ. cbn. case_bool_decide.
  - subst. by rewrite lookup_singleton.
  - by rewrite lookup_singleton_ne.
Qed.
