(** One socket packet seen on its own: every step of the poller is a sequence of the steps below,
    for every packet. *)
From stdpp Require Import prelude list gmap.
From Verif Require Import Bits Types EventModel Pool IocpModel IocpSpec IocpProofs IocpProofs2 IocpProofs3.
Local Open Scope nat_scope.

(** The requests on packet [n]. *)
Definition mine (n : nat) (l : list op) : list op := List.filter (fun o => bool_decide (op_pk o = n)) l.
(** The packet, its requests in flight, the number of its completions that were not taken up, and
    whether one is being processed. *)
Record view := V { v_k : option sock; v_ops : list op; v_c : nat; v_o : nat }.
Definition view_of (n : nat) (s : state) : view :=
  V (socks (pmem s) !! n) (mine n (ops (sys s)))
    (occ (PSock n) (queue (sys s)) + occ (PSock n) (batch (waiter s))) (occ (PSock n) (opened (waiter s))).

Definition cancel_view (n : nat) (k : sock) (F : list op) (o : kout) : sock * list op * list obs :=
  match sk_iosb k with
  | BPending =>
      match F, o with
      | [], _ => (with_status k Cancelled, F, [])
      | _, None => (with_status k Cancelled, map (cancel_op n) F, [])
      | _, Some _ => (k, F, [Fault (PSock n)])
      end
  | _ => (with_status k Cancelled, F, [])
  end.
Definition poll_view (n : nat) (k : sock) (F : list op) (o : kout) : sock * list op * list obs :=
  let mask := mask_of k in
  if sk_in_use k then (with_status k (Polling mask), F, [])
  else
    let k1 := with_buffer (with_in_use k true) BPending 1 mask in
    match o with
    | None => (with_status k1 (Polling mask), F ++ [Op n mask false], [])
    | Some e => (if bad_handle e then with_status k1 (Polling mask) else k1, F, [Fault (PSock n)])
    end.
Definition update_view (n : nat) (k : sock) (F : list op) (o : kout) : sock * list op * list obs :=
  if sk_deleting k then (k, F, [])
  else
    match sk_status k with
    | Polling f => if bool_decide (mask_of k <> f) then cancel_view n k F o else (k, F, [])
    | Cancelled => (k, F, [])
    | Idle => poll_view n k F o
    end.
Definition delete_view (n : nat) (k : sock) (F : list op) (o : kout) : sock * list op * list obs :=
  if sk_deleting k then (k, F, [])
  else
    match sk_status k with
    | Polling _ => cancel_view n (with_deleting k) F o
    | _ => (with_deleting k, F, [])
    end.

Definition about (n : nat) (o : obs) : Prop :=
  match o with
  | Armed p _ _ | Fed p _ | Removed p | Lost p | Fault p => p = PSock n
  | Done j _ _ => j = n
  | _ => False
  end.

Inductive vstep (n : nat) : view -> list obs -> view -> Prop :=
| v_quiet v d : Forall (fun o => ~ about n o) d -> vstep n v d v
| v_lost k F c o : vstep n (V (Some k) F c o) [Lost (PSock n)] (V (Some k) F c o)
| v_new x e m : vstep n (V None [] 0 0) [Armed (PSock n) e m] (V (Some (Sock x e true m false Idle false BDone 0 0%N)) [] 0 0)
| v_set k F c o e m : vstep n (V (Some k) F c o) [Armed (PSock n) e m] (V (Some (with_interest k e true m)) F c o)
| v_update k F c o out k' F' d :
    update_view n k F out = (k', F', d) -> vstep n (V (Some k) F c o) d (V (Some k') F' c o)
| v_delete k F c o out k' F' d :
    delete_view n k F out = (k', F', d) -> vstep n (V (Some k) F c o) (d ++ [Removed (PSock n)]) (V (Some k') F' c o)
| v_done k F c o i x b j e :
    F !! i = Some x -> b <> BPending ->
    vstep n (V (Some k) F c o) [Done n b (flags_of j e)] (V (Some (with_buffer k b j e)) (remove_nth i F) (S c) o)
| v_open k F c o : vstep n (V (Some k) F (S c) o) [] (V (Some (with_in_use k false)) F c (S o))
| v_feed k F c o k' r :
    feed_sock k = FResult k' r \/ (r = None /\ (feed_sock k = FClosed k' \/ feed_sock k = FDeleting k')) ->
    vstep n (V (Some k) F c (S o)) [Fed (PSock n) r] (V (Some k') F c o)
| v_discard k F c o : vstep n (V (Some k) F (S c) o) [Lost (PSock n)] (V (Some (with_in_use k false)) F c o).

Inductive vsteps (n : nat) : view -> list obs -> view -> Prop :=
| vs_nil v : vsteps n v [] v
| vs_snoc v d v' d' v'' : vsteps n v d v' -> vstep n v' d' v'' -> vsteps n v (d ++ d') v''.
Lemma vsteps_one n v d v' : vstep n v d v' -> vsteps n v d v'.
Proof. intros H. apply (vs_snoc n v [] v d v'); [constructor|done]. Qed.
Lemma vsteps_trans n v d v' d' v'' : vsteps n v d v' -> vsteps n v' d' v'' -> vsteps n v (d ++ d') v''.
Proof.
  intros H1 H2. induction H2 as [|v' d' w d'' w' H2 IH X]; [by rewrite app_nil_r|].
  rewrite app_assoc. econstructor; eauto.
Qed.

(** From [s] to [s'] packet [n] makes such steps. *)
Definition refines (n : nat) (s s' : state) : Prop :=
  exists d, log s' = log s ++ d /\ vsteps n (view_of n s) d (view_of n s').
Lemma refines_trans n a b c : refines n a b -> refines n b c -> refines n a c.
Proof.
  intros (d & L & H) (d' & L' & H'). exists (d ++ d'). split; [by rewrite L', L, app_assoc|]. by eapply vsteps_trans.
Qed.
Lemma refines_same n s s' : log s' = log s -> view_of n s' = view_of n s -> refines n s s'.
Proof. intros L E. exists []. rewrite app_nil_r, E. split; [done|constructor]. Qed.
Lemma refines_quiet n s d : Forall (fun o => ~ about n o) d -> refines n s (emits s d).
Proof. intros H. exists d. split; [done|]. apply vsteps_one. by constructor. Qed.
Lemma refines_one n s s' d : log s' = log s ++ d -> vstep n (view_of n s) d (view_of n s') -> refines n s s'.
Proof. intros L H. exists d. split; [done|]. by apply vsteps_one. Qed.
(** A change the packet does not see, then the rest. *)
Lemma refines_then n a b c : log b = log a -> view_of n b = view_of n a -> refines n b c -> refines n a c.
Proof. intros L E H. eapply refines_trans; [by apply refines_same|done]. Qed.
Lemma refines_last n a b c : refines n a b -> log c = log b -> view_of n c = view_of n b -> refines n a c.
Proof. intros H L E. eapply refines_trans; [done|]. by apply refines_same. Qed.

(* ------------------------------------------------------------------ *)
(** ** Requests *)

Lemma mine_app n l l' : mine n (l ++ l') = mine n l ++ mine n l'.
Proof. apply List.filter_app. Qed.
Lemma mine_cancel_ne n j l : j <> n -> mine n (map (cancel_op j) l) = mine n l.
Proof.
  intros H. induction l as [|o l IH]; [done|]. cbn [map]. unfold mine, cancel_op in *. cbn [List.filter].
  case_decide; cbn [op_pk].
  - rewrite !bool_decide_false by congruence. apply IH.
  - case_bool_decide; [f_equal|]; apply IH.
Qed.
Lemma mine_cancel n l : mine n (map (cancel_op n) l) = map (cancel_op n) (mine n l).
Proof.
  induction l as [|o l IH]; [done|]. cbn [map]. unfold mine in *. cbn [List.filter].
  assert (op_pk (cancel_op n o) = op_pk o) as -> by (unfold cancel_op; by case_decide).
  case_bool_decide; [cbn [map]; f_equal|]; apply IH.
Qed.
Lemma mine_flight k n : in_flight k n = match mine n (ops k) with [] => false | _ => true end.
Proof.
  unfold in_flight, mine. induction (ops k) as [|o l IH]; [done|]. cbn. by case_bool_decide.
Qed.
Lemma filter_remove_nth {A} (f : A -> bool) i l x :
  l !! i = Some x ->
  if f x then exists j, List.filter f l !! j = Some x /\ List.filter f (remove_nth i l) = remove_nth j (List.filter f l)
  else List.filter f (remove_nth i l) = List.filter f l.
Proof.
  intros H. pose proof (take_drop_middle l i x H) as E. unfold remove_nth at 1 3.
  assert (E' : List.filter f l = List.filter f (take i l) ++ (if f x then [x] else []) ++ List.filter f (drop (S i) l)).
  { rewrite <- E at 1. rewrite List.filter_app. cbn [List.filter]. by destruct (f x). }
  rewrite E', List.filter_app. destruct (f x); [|done].
  exists (length (List.filter f (take i l))). cbn [app]. rewrite list_lookup_middle by done. split; [done|].
  unfold remove_nth. rewrite take_app, drop_app_ge by lia.
  by replace (S (length (List.filter f (take i l))) - length (List.filter f (take i l))) with 1 by lia.
Qed.
Lemma mine_in n l o : o ∈ mine n l <-> o ∈ l /\ op_pk o = n.
Proof.
  unfold mine. rewrite elem_of_list_In, List.filter_In, <- elem_of_list_In. by rewrite bool_decide_eq_true.
Qed.

(* ------------------------------------------------------------------ *)
(** ** The operations *)

Lemma occ_one p q : occ p [q] = if decide (p = q) then 1 else 0.
Proof. unfold occ. cbn. destruct (decide (p = q)); [by rewrite bool_decide_true|by rewrite bool_decide_false]. Qed.
Lemma view_sock n s j k : 
  view_of n (set_mem s (set_sock (pmem s) j k))
  = if decide (j = n) then V (Some k) (v_ops (view_of n s)) (v_c (view_of n s)) (v_o (view_of n s)) else view_of n s.
Proof.
  unfold view_of. cbn. case_decide; [subst; by rewrite lookup_insert|by rewrite lookup_insert_ne].
Qed.

Lemma refines_update n s p o : source (pmem s) p -> refines n s (do_update s p o).2.
Proof.
  intros Hp. destruct p as [j|j|j|]; [| |by destruct Hp..].
  - destruct Hp as [k Hk]. unfold do_update, update. cbn [snd]. rewrite Hk.
    destruct (decide (j = n)) as [->|Hne].
    + destruct (update_view n k (mine n (ops (sys s))) o) as [[k' F'] d] eqn:E.
      assert (X : exists e, apply_eff s (PSock n)
        (if sk_deleting k then Eff (Ok tt) (pmem s) (sys s) [] false
         else match sk_status k with
            | Idle => afd_poll (pmem s) (sys s) n k o
            | Polling f => if bool_decide (mask_of k <> f) then afd_cancel (pmem s) (sys s) n k o else Eff (Ok tt) (pmem s) (sys s) [] false
            | Cancelled => Eff (Ok tt) (pmem s) (sys s) [] false
            end) = apply_eff s (PSock n) e
          /\ socks (ef_mem e) !! n = Some k' /\ mine n (ops (ef_sys e)) = F' /\ queue (ef_sys e) = queue (sys s)
          /\ d = (if ef_fault e then [Fault (PSock n)] else [])).
      { eexists. split; [reflexivity|]. unfold update_view in E. destruct (sk_deleting k); [simplify_eq; by cbn|].
        destruct (sk_status k); [|case_bool_decide|]; try (simplify_eq; by cbn).
        - unfold poll_view in E. unfold afd_poll. repeat case_match; simplify_eq; cbn [ef_mem ef_sys ef_fault socks set_sock clone set_refs ops set_ops queue]; rewrite lookup_insert;
            (split; [done|]); try done. split; [|done]. rewrite mine_app. cbn. by rewrite bool_decide_true.
        - unfold cancel_view in E. unfold afd_cancel. rewrite mine_flight.
          destruct (sk_iosb k); simplify_eq; cbn; try by rewrite lookup_insert.
          destruct (mine n (ops (sys s))) eqn:Em; [simplify_eq; cbn; by rewrite lookup_insert|].
          destruct o; simplify_eq; cbn [ef_mem ef_sys ef_fault socks set_sock clone set_refs ops set_ops queue]; rewrite lookup_insert; (split; [done|]); [done|].
          split; [|done]. by rewrite mine_cancel, Em. }
      destruct X as (e & -> & Xk & Xo & Xq & Xd). apply (refines_one n _ _ d); [by rewrite Xd|].
      unfold view_of, apply_eff. cbn. rewrite Xk, Xo, Xq, Hk. by eapply v_update.
    + match goal with |- refines n s (apply_eff s _ ?e) => set (x := e) end.
      assert (X : socks (ef_mem x) !! n = socks (pmem s) !! n /\ mine n (ops (ef_sys x)) = mine n (ops (sys s)) /\ queue (ef_sys x) = queue (sys s)).
      { unfold x, afd_poll, afd_cancel. repeat case_match; cbn [ef_mem ef_sys ef_fault socks set_sock clone set_refs ops set_ops queue]; rewrite ?lookup_insert_ne by done; try done.
        - split; [done|]. split; [|done]. rewrite mine_app. cbn. rewrite bool_decide_false by congruence. apply app_nil_r.
        - split; [done|]. split; [|done]. by apply mine_cancel_ne. }
      destruct X as (Xk & Xo & Xq).
      apply (refines_one n _ _ (if ef_fault x then [Fault (PSock j)] else [])); [done|].
      assert (view_of n (apply_eff s (PSock j) x) = view_of n s) as ->.
      { unfold view_of, apply_eff. cbn. by rewrite Xk, Xo, Xq. }
      constructor. destruct (ef_fault x); [|done]. apply Forall_singleton. cbn. congruence.
  - match goal with |- refines n s (do_update s ?q ?o').2 => set (x := update (pmem s) (sys s) q o') end.
    assert (X : socks (ef_mem x) = socks (pmem s) /\ ops (ef_sys x) = ops (sys s) /\ queue (ef_sys x) = queue (sys s)).
    { unfold x, update. repeat case_match; cbn; done. }
    destruct X as (Xk & Xo & Xq).
    apply (refines_one n _ _ (if ef_fault x then [Fault (PWait j)] else [])); [done|].
    assert (view_of n (do_update s (PWait j) o).2 = view_of n s) as ->.
    { change (do_update s (PWait j) o).2 with (apply_eff s (PWait j) x). clearbody x. unfold view_of, apply_eff. cbn. by rewrite Xk, Xo, Xq. }
    constructor. destruct (ef_fault x); [|done]. apply Forall_singleton. done.
Qed.

Lemma refines_delete n s p o : source (pmem s) p -> refines n s (do_delete s p o).2.
Proof.
  intros Hp. destruct p as [j|j|j|]; [| |by destruct Hp..].
  - destruct Hp as [k Hk]. unfold do_delete, begin_delete. cbn [snd]. rewrite Hk.
    destruct (decide (j = n)) as [->|Hne].
    + destruct (delete_view n k (mine n (ops (sys s))) o) as [[k' F'] d] eqn:E.
      assert (X : exists e, apply_eff s (PSock n)
        (if sk_deleting k then Eff (Ok tt) (pmem s) (sys s) [] false
         else match sk_status k with
            | Polling f => afd_cancel (pmem s) (sys s) n (with_deleting k) o
            | _ => Eff (Ok tt) (set_sock (pmem s) n (with_deleting k)) (sys s) [] false
            end) = apply_eff s (PSock n) e
          /\ socks (ef_mem e) !! n = Some k' /\ mine n (ops (ef_sys e)) = F' /\ queue (ef_sys e) = queue (sys s)
          /\ d = (if ef_fault e then [Fault (PSock n)] else [])).
      { eexists. split; [reflexivity|]. unfold delete_view in E. destruct (sk_deleting k); [simplify_eq; by cbn|].
        destruct (sk_status k); try (simplify_eq; cbn; by rewrite lookup_insert).
        unfold cancel_view in E. unfold afd_cancel. rewrite mine_flight.
        destruct (sk_iosb (with_deleting k)); simplify_eq; cbn; try by rewrite lookup_insert.
        destruct (mine n (ops (sys s))) eqn:Em; [simplify_eq; cbn; by rewrite lookup_insert|].
        destruct o; simplify_eq; cbn [ef_mem ef_sys ef_fault socks set_sock clone set_refs ops set_ops queue]; rewrite lookup_insert; (split; [done|]); [done|].
        split; [|done]. by rewrite mine_cancel, Em. }
      destruct X as (e & X0 & Xk & Xo & Xq & Xd).
      assert (X1 : emit (apply_eff s (PSock n)
        (if sk_deleting k then Eff (Ok tt) (pmem s) (sys s) [] false
         else match sk_status k with
            | Polling f => afd_cancel (pmem s) (sys s) n (with_deleting k) o
            | _ => Eff (Ok tt) (set_sock (pmem s) n (with_deleting k)) (sys s) [] false
            end)) (Removed (PSock n)) = emit (apply_eff s (PSock n) e) (Removed (PSock n))) by by rewrite X0.
      apply (refines_one n _ _ (d ++ [Removed (PSock n)])).
      { etransitivity; [exact (f_equal log X1)|]. cbn. rewrite Xd. by rewrite app_assoc. }
      match goal with |- vstep n _ _ (view_of n ?a) => assert (view_of n a = V (Some k') F' (v_c (view_of n s)) (v_o (view_of n s))) as -> end.
      { etransitivity; [exact (f_equal (view_of n) X1)|]. unfold view_of, apply_eff. cbn. by rewrite Xk, Xo, Xq. }
      unfold view_of. rewrite Hk. by eapply v_delete.
    + match goal with |- refines n s (emit (apply_eff s _ ?e) _) => set (x := e) end.
      assert (X : socks (ef_mem x) !! n = socks (pmem s) !! n /\ mine n (ops (ef_sys x)) = mine n (ops (sys s)) /\ queue (ef_sys x) = queue (sys s)).
      { unfold x, afd_cancel. repeat case_match; cbn [ef_mem ef_sys ef_fault socks set_sock clone set_refs ops set_ops queue]; rewrite ?lookup_insert_ne by done; try done.
        split; [done|]. split; [|done]. by apply mine_cancel_ne. }
      destruct X as (Xk & Xo & Xq).
      apply (refines_one n _ _ ((if ef_fault x then [Fault (PSock j)] else []) ++ [Removed (PSock j)])); [cbn; by rewrite app_assoc|].
      assert (view_of n (emit (apply_eff s (PSock j) x) (Removed (PSock j))) = view_of n s) as ->.
      { unfold view_of, apply_eff. cbn. by rewrite Xk, Xo, Xq. }
      constructor. apply Forall_app. split; [destruct (ef_fault x); [|done]|]; apply Forall_singleton; cbn; congruence.
  - match goal with |- refines n s (do_delete s ?q ?o').2 => set (x := begin_delete (pmem s) (sys s) q o') end.
    assert (X : socks (ef_mem x) = socks (pmem s) /\ ops (ef_sys x) = ops (sys s) /\ queue (ef_sys x) = queue (sys s)).
    { unfold x, begin_delete. repeat case_match; cbn; done. }
    destruct X as (Xk & Xo & Xq).
    apply (refines_one n _ _ ((if ef_fault x then [Fault (PWait j)] else []) ++ [Removed (PWait j)])).
    { change (do_delete s (PWait j) o).2 with (emit (apply_eff s (PWait j) x) (Removed (PWait j))). clearbody x. cbn. by rewrite app_assoc. }
    assert (view_of n (do_delete s (PWait j) o).2 = view_of n s) as ->.
    { change (do_delete s (PWait j) o).2 with (emit (apply_eff s (PWait j) x) (Removed (PWait j))). clearbody x. unfold view_of, apply_eff. cbn. by rewrite Xk, Xo, Xq. }
    constructor. apply Forall_app. split; [destruct (ef_fault x); [|done]|]; by apply Forall_singleton.
Qed.

Ltac quiet := apply Forall_singleton; cbn [about]; first [tauto | congruence].
Lemma refines_ustep n c s p u o s' x :
  source (pmem s) p -> upc_ok (pmem s) u -> ustep c s p u o = (s', x) -> refines n s s'.
Proof.
  intros Hp Hu H. unfold ustep in H. destruct u as [| | |[|i]|i q].
  - simplify_eq. by apply refines_same.
  - pose proof (refines_update n s p o Hp). destruct (do_update s p o). by simplify_eq.
  - case_decide; simplify_eq; by apply refines_same.
  - simplify_eq. by apply refines_same.
  - destruct (pending s); simplify_eq; by apply refines_same.
  - pose proof (refines_update n s q o Hu) as R.
    assert (Hp' : source (pmem (do_update s q o).2) p).
    { eapply grow_source; [|exact Hp]. cbn. apply grows_drop, grows_update. }
    destruct (do_update s q o) as [r s1]. cbn [snd] in R, Hp'.
    assert (X : refines n s (emit (set_mem s1 (drop_ref (pmem s1) p)) (Lost p))).
    { eapply refines_trans; [exact R|]. apply (refines_one n _ _ [Lost p]); [done|].
      destruct (decide (p = PSock n)) as [->|Hne].
      - destruct Hp' as [k Hk]. unfold view_of. cbn. rewrite Hk. apply v_lost.
      - apply v_quiet. quiet. }
    destruct r; simplify_eq; [exact R|exact X..].
Qed.

(** Discarding the rest of a batch. *)
Definition strip (b : list pid) (w : wpc) : Prop := batch w = b.
Lemma socks_unlock m p n :
  socks (unlock m p) !! n = if decide (p = PSock n) then (fun k => with_in_use k false) <$> socks m !! n else socks m !! n.
Proof.
  destruct p as [j|j|j|]; cbn; [|by rewrite decide_False..]. destruct (socks m !! j) as [k|] eqn:E.
  - cbn. destruct (decide (j = n)) as [->|].
    + by rewrite lookup_insert, decide_True, E.
    + rewrite lookup_insert_ne by done. rewrite decide_False by congruence. done.
  - case_decide; [|done]. simplify_eq. by rewrite E.
Qed.
Lemma vsteps_discards n b m F c o :
  Forall (exists_in m) b ->
  vsteps n (V (socks m !! n) F (c + occ (PSock n) b) o) (map Lost b) (V (socks (foldl discard m b) !! n) F c o).
Proof.
  revert m c. induction b as [|p b IH]; intros m c B.
  - cbn. rewrite occ_nil, Nat.add_0_r. constructor.
  - apply Forall_cons in B as [Bp B]. cbn [foldl map].
    assert (B' : Forall (exists_in (discard m p)) b).
    { eapply grow_all; [|exact B]. unfold discard. apply grows_drop, grows_unlock. }
    change (Lost p :: map Lost b) with ([Lost p] ++ map Lost b).
    eapply vsteps_trans; [|apply (IH _ c B')]. apply vsteps_one.
    assert (socks (discard m p) !! n = socks (unlock m p) !! n) as -> by done.
    rewrite socks_unlock, (occ_cons (PSock n) p b), occ_one. destruct (decide (p = PSock n)) as [->|Hne].
    + rewrite decide_True by done. destruct Bp as [k Hk]. rewrite Hk. cbn.
      replace (c + S (occ (PSock n) b)) with (S (c + occ (PSock n) b)) by lia. apply v_discard.
    + rewrite decide_False by congruence. cbn. apply v_quiet. quiet.
Qed.
(** Leaving the batch behind: [s] is the state in which it is still counted. *)
Lemma refines_abandon n s b w w' :
  Forall (exists_in (pmem s)) b -> batch w = b -> opened w = [] -> batch w' = [] -> opened w' = [] ->
  refines n (set_waiter s w) (set_waiter (abandon s b) w').
Proof.
  intros B Hb Ho Hb' Ho'. exists (map Lost b). split; [done|].
  unfold view_of. cbn [pmem sys waiter set_waiter abandon emits set_mem]. rewrite Hb, Ho, Hb', Ho', occ_nil, Nat.add_0_r.
  by apply vsteps_discards.
Qed.

Lemma view_pc n s i q : view_of n (set_pc s i q) = view_of n s.
Proof. done. Qed.
Lemma refines_pc n s s' i q : refines n s s' -> refines n s (set_pc s' i q).
Proof. intros H. by eapply refines_last. Qed.
Lemma view_mem n s m : socks m !! n = socks (pmem s) !! n -> view_of n (set_mem s m) = view_of n s.
Proof. intros H. unfold view_of. cbn. by rewrite H. Qed.
Lemma occ_exists m n l : Forall (exists_in m) l -> socks m !! n = None -> occ (PSock n) l = 0.
Proof.
  intros H E. apply occ_not_in. intros Hin. rewrite Forall_forall in H. specialize (H _ Hin). cbn in H. rewrite E in H.
  by destruct H.
Qed.
Lemma view_none n s : tinv s -> socks (pmem s) !! n = None -> view_of n s = V None [] 0 0.
Proof.
  intros T E. unfold view_of. pose proof (t_kern _ T) as (Q & O & _). pose proof (t_wait _ T) as W.
  rewrite E, (occ_exists _ _ _ Q E). rewrite (occ_exists _ _ _ (wpc_batch _ _ W) E).
  assert (occ (PSock n) (opened (waiter s)) = 0) as ->.
  { destruct (waiter s); cbn in *; try done. apply Forall_cons in W as [W _]. apply occ_not_in. intros Hin.
    apply elem_of_list_singleton in Hin. subst. cbn in W. rewrite E in W. by destruct W. }
  f_equal. destruct (mine n (ops (sys s))) as [|x l] eqn:Em; [done|].
  assert (Hx : x ∈ mine n (ops (sys s))) by (rewrite Em; constructor). apply mine_in in Hx as [Hx <-].
  rewrite Forall_forall in O. specialize (O _ Hx). cbn in O. rewrite E in O. by destruct O.
Qed.

Lemma refines_thread n c s i q a s' :
  tinv s -> threads s !! i = Some q -> thread_step c s i q a = Some s' -> refines n s s'.
Proof.
  intros T Hq H. pose proof (t_pc _ T _ _ Hq) as P. destruct q, a; try done; unfold thread_step in H; cbn in P.
  - simplify_eq. eapply refines_trans; [|apply refines_quiet; quiet]. by apply refines_same.
  - destruct o; simplify_eq; [by apply refines_same|].
    destruct (new_packet _ _) as [[[m p] ob]|] eqn:E; simplify_eq/=. apply refines_pc.
    destruct c0; simplify_eq/=.
    + apply (refines_one n _ _ [Armed (PSock (next (pmem s))) e m0]); [done|].
      assert (F : socks (pmem s) !! next (pmem s) = None).
      { apply eq_None_not_Some. intros ?%(t_dom _ T). lia. }
      destruct (decide (next (pmem s) = n)) as [<-|Hne].
      * assert (X := view_none _ _ T F). rewrite X.
        match goal with |- vstep _ _ _ (view_of ?j ?z) => assert (view_of j z = V (Some (Sock sock e true m0 false Idle false BDone 0 0%N)) (v_ops (view_of j s)) (v_c (view_of j s)) (v_o (view_of j s))) as -> end.
        { unfold view_of. cbn. by rewrite lookup_insert. }
        rewrite X. apply v_new.
      * match goal with |- vstep _ _ _ (view_of n ?z) => assert (view_of n z = view_of n s) as -> end.
        { unfold view_of. cbn. by rewrite lookup_insert_ne. }
        apply v_quiet. quiet.
    + apply (refines_one n _ _ [Armed (PWait (next (pmem s))) e m0]); [done|].
      apply v_quiet. quiet.
  - destruct (insert_packet _ _ _) as [s1|] eqn:E; simplify_eq.
    + apply refines_pc. destruct c0, p; cbn in E; try done; (case_in E; [done|]); simplify_eq;
        (match goal with |- refines _ _ (emit _ ?x) => apply (refines_one n _ _ [x]); [reflexivity|] end); apply v_quiet; quiet.
    + by apply refines_same.
  - destruct (lookup_packet _ _) as [p|] eqn:E; simplify_eq; by apply refines_same.
  - destruct (do_set _ _ _) as [[s1 b]|] eqn:E; simplify_eq/=.
    assert (X : refines n s s1).
    { destruct c0, p as [j|j|j|]; cbn in E; try done.
      - destruct (socks (pmem s) !! j) as [k|] eqn:Ek; simplify_eq/=. apply (refines_one n _ _ [Armed (PSock j) e m]); [done|].
        unfold view_of. cbn. destruct (decide (j = n)) as [->|Hne].
        + rewrite lookup_insert, Ek. apply v_set.
        + rewrite lookup_insert_ne by done. apply v_quiet. quiet.
      - destruct (wtbs (pmem s) !! j) as [k|] eqn:Ek; simplify_eq/=. apply (refines_one n _ _ [Armed (PWait j) e m]); [done|].
        apply v_quiet. quiet. }
    destruct b; simplify_eq; by eapply refines_last.
  - destruct P as (P1 & P2 & P3). destruct (ustep _ _ _ _ _) as [s1 x] eqn:E. simplify_eq. apply refines_pc.
    eapply refines_ustep; eauto. by eapply names_source.
  - destruct (lookup_packet _ _) as [p|] eqn:E; simplify_eq; apply refines_same; try done; by destruct c0.
  - destruct P as [P1 P2]. pose proof (refines_delete n s p o (names_source _ _ _ P2)) as R.
    destruct (do_delete s p o) as [r s1]. simplify_eq. by apply refines_pc.
  - destruct (notified s); simplify_eq; by apply refines_same.
  - apply (refines_then n _ (set_mem s (clone (pmem s) p))); [done|done|]. unfold do_post in H.
    destruct o; simplify_eq; apply refines_pc.
    + apply (refines_one n _ _ [Fault p]); [done|]. apply v_quiet. destruct p; cbn in P; try done; quiet.
    + apply (refines_one n _ _ [Posted p]); [done|].
      match goal with |- vstep _ ?a _ (view_of n ?z) => assert (view_of n z = a) as -> end.
      { unfold view_of. cbn. rewrite occ_app, occ_one, decide_False by (by destruct p). by rewrite Nat.add_0_r. }
      apply v_quiet. quiet.
  - simplify_eq. eapply refines_trans; [|apply refines_quiet; quiet]. by apply refines_same.
Qed.

Lemma view_feed n s (m : mem) p l z b :
  waiter s = WOpen l z p b ->
  view_of n s = V (socks (pmem s) !! n) (mine n (ops (sys s))) (occ (PSock n) (queue (sys s)) + occ (PSock n) b) (occ (PSock n) [p]).
Proof. intros E. unfold view_of. rewrite E. done. Qed.
Lemma refines_feed n s l z p b o s' :
  tinv s -> waiter s = WOpen l z p b -> feed_step s l z p b o = Some s' -> refines n s s'.
Proof.
  intros T E H. pose proof (t_wait _ T) as W. rewrite E in W. cbn in W. apply Forall_cons in W as [Wp Wb].
  destruct p as [j|j|j|]; unfold feed_step in H.
  - destruct (socks (pmem s) !! j) as [k|] eqn:Ek; [|done]. cbn [mbind option_bind] in H.
    (* the socket itself, up to the first use of the table *)
    assert (X : forall k' r w,
      feed_sock k = FResult k' r \/ (r = None /\ (feed_sock k = FClosed k' \/ feed_sock k = FDeleting k')) ->
      batch w = b -> opened w = [] ->
      refines n s (set_waiter (emit (set_mem s (set_sock (pmem s) j k')) (Fed (PSock j) r)) w)).
    { intros k' r w F Hb Ho. apply (refines_one n _ _ [Fed (PSock j) r]); [done|].
      unfold view_of. rewrite E. cbn [pmem sys waiter set_waiter emit emits set_mem set_sock socks opened batch].
      rewrite Hb, Ho, occ_nil, occ_one. destruct (decide (PSock n = PSock j)) as [Heq|Hne].
      - injection Heq as ->. rewrite Ek, lookup_insert. by apply v_feed.
      - rewrite lookup_insert_ne by congruence. apply v_quiet. quiet. }
    assert (G : grows (pmem s) (set_sock (pmem s) j (with_status k Idle))) by (by eapply grows_sock).
    destruct (feed_sock k) as [k'|k'|k' r] eqn:F.
    + assert (Hk' : sk_socket k' = sk_socket k) by (apply feed_socket; auto).
      destruct (sources s !! sk_socket k) as [n'|] eqn:Es.
      * match type of H with context [set_maps ?a ?b' ?c'] => set (s2 := set_maps a b' c') in * end.
        assert (X2 : forall w, batch w = b -> opened w = [] -> refines n s (set_waiter s2 w)).
        { intros w Hb Ho. eapply refines_last; [apply (X k' None w); auto|done|done]. }
        case_decide.
        -- simplify_eq. by apply X2.
        -- assert (G2 : grows (pmem s) (pmem s2)) by by eapply grows_sock.
           assert (S' : source (pmem s2) (PSock n')).
           { apply (grow_source _ _ G2). destruct (t_src _ T _ _ Es) as (k1 & Hk1 & _). by exists k1. }
           pose proof (fun w => refines_delete n (set_waiter s2 w) (PSock n') o S') as R.
           assert (X3 : forall w, (do_delete (set_waiter s2 w) (PSock n') o).2 = set_waiter (do_delete s2 (PSock n') o).2 w) by done.
           assert (B3 : Forall (exists_in (pmem (do_delete s2 (PSock n') o).2)) b).
           { eapply grow_all; [|eapply grow_all; [exact G2|exact Wb]]. apply (grows_drop (pmem s2)), grows_delete. }
           assert (R' : forall w, refines n (set_waiter s2 w) (set_waiter (do_delete s2 (PSock n') o).2 w)) by (intros w; apply (R w)).
           clear R X3. destruct (do_delete s2 (PSock n') o) as [r s3]. cbn [snd] in *.
           assert (Y : forall w, batch w = b -> opened w = [] -> refines n s (set_waiter (set_mem s3 (drop_ref (pmem s3) (PSock j))) w)).
           { intros w Hb Ho. eapply refines_trans; [by apply X2|]. eapply refines_last; [apply R'|done|done]. }
           destruct r; simplify_eq; [by apply Y| |by apply Y].
           eapply refines_trans; [apply (Y (WFeed l z b)); done|]. by apply refines_abandon.
      * simplify_eq. apply X; auto.
    + simplify_eq. eapply refines_last; [apply (X k' None (WFeed l z b)); auto|done|done].
    + simplify_eq. eapply refines_last; [apply (X k' r (WUpd l z b r (PSock j) ULoad)); auto|done|done].
  - destruct (wtbs (pmem s) !! j) as [k|] eqn:Ek; [|done]. cbn in H. simplify_eq.
    match goal with |- refines _ _ (emit _ ?x) => apply (refines_one n _ _ [x]); [done|] end.
    unfold view_of. rewrite E. cbn. rewrite occ_one, decide_False by done. apply v_quiet. quiet.
  - destruct (customs (pmem s) !! j) as [e|]; [|done]. cbn in H. simplify_eq.
    match goal with |- refines _ _ (emit _ ?x) => apply (refines_one n _ _ [x]); [done|] end.
    unfold view_of. rewrite E. cbn. rewrite occ_one, decide_False by done. apply v_quiet. quiet.
  - simplify_eq. match goal with |- refines _ _ (emit _ ?x) => apply (refines_one n _ _ [x]); [done|] end.
    unfold view_of. rewrite E. cbn. rewrite occ_one, decide_False by done. apply v_quiet. quiet.
Qed.

Lemma refines_waiter n s w : batch w = batch (waiter s) -> opened w = opened (waiter s) -> refines n s (set_waiter s w).
Proof. intros Hb Ho. apply refines_same; [done|]. unfold view_of. cbn. by rewrite Hb, Ho. Qed.
Lemma set_waiter_same s : set_waiter s (waiter s) = s.
Proof. by destruct s. Qed.
Lemma refines_wait n c s a s' : tinv s -> wait_step c s a = Some s' -> refines n s s'.
Proof.
  intros T H. pose proof (t_wait _ T) as W. unfold wait_step in H.
  destruct (waiter s) as [|l|l|l q|l z|l z b|l z b|l z p b|l z b ret p u|l e g|l|d own b] eqn:E, a;
    try done; try (by destruct b); cbn in W.
  - simplify_eq. apply refines_same; [done|]. unfold view_of. by rewrite E.
  - destruct (pending s) as [|q r] eqn:Ep; simplify_eq.
    + eapply refines_trans; [|apply refines_quiet; quiet]. apply refines_waiter; by rewrite E.
    + apply refines_same; [done|]. unfold view_of. by rewrite E.
  - pose proof (refines_update n s q o W) as R. assert (Z : waiter (do_update s q o).2 = waiter s) by done.
    destruct (do_update s q o) as [r s1]. cbn [snd] in *. simplify_eq. eapply refines_trans; [exact R|].
    apply refines_waiter; rewrite Z, E; by destruct r.
  - simplify_eq. apply refines_waiter; by rewrite E.
  - simplify_eq. apply refines_waiter; by rewrite E.
  - case_decide; simplify_eq. apply refines_same; [done|]. unfold view_of. rewrite E. cbn.
    rewrite occ_nil, Nat.add_0_r. f_equal. rewrite Nat.add_comm, <- occ_app. by rewrite take_drop.
  - simplify_eq. apply refines_same; [done|]. unfold view_of. by rewrite E.
  - destruct b as [|p b].
    + case_match; simplify_eq; apply refines_waiter; by rewrite E.
    + simplify_eq. apply Forall_cons in W as [Wp Wb]. apply (refines_one n _ _ []); [by rewrite app_nil_r|].
      unfold view_of. rewrite E. cbn [pmem sys waiter set_waiter set_mem opened batch]. rewrite socks_unlock.
      rewrite (occ_cons (PSock n) p b), occ_one, occ_nil. destruct (decide (p = PSock n)) as [->|Hne].
      * rewrite decide_True by done. destruct Wp as [k Hk]. rewrite Hk. cbn.
        rewrite <- plus_n_Sm. apply v_open.
      * rewrite decide_False by congruence. cbn. by apply v_quiet.
  - by eapply refines_feed.
  - destruct W as (W1 & W2 & W3). destruct (ustep _ _ _ _ _) as [s1 x] eqn:Eu.
    pose proof (refines_ustep n _ _ _ _ _ _ _ W1 W2 Eu) as R.
    destruct (ustep_frame _ _ _ _ _ _ _ Eu) as (_ & Z & _ & _ & _ & _ & G).
    assert (Y : forall w, batch w = b -> opened w = [] -> refines n s (set_waiter s1 w)).
    { intros w Hb Ho. eapply refines_trans; [exact R|]. apply refines_waiter; by rewrite Z, E. }
    destruct x as [u'|[]]; simplify_eq; try by apply Y.
    eapply refines_trans; [apply (Y (WFeed l z b)); done|]. apply refines_abandon; try done. by eapply grow_all.
  - simplify_eq. eapply refines_trans; [|apply refines_quiet; quiet].
    apply refines_same; [done|]. unfold view_of. by rewrite E.
  - simplify_eq. eapply refines_trans; [|apply refines_quiet; quiet].
    apply refines_same; [done|]. unfold view_of. by rewrite E.
Qed.

Theorem refines_step n c s l s' : tinv s -> legal s l -> step c s l = Some s' -> refines n s s'.
Proof.
  intros T L H. destruct l; cbn -[do_post] in H.
  - destruct (threads s !! i) eqn:E; [|done]. cbn in H. by eapply refines_thread.
  - simplify_eq. by apply refines_same.
  - destruct (waiter s) eqn:E; simplify_eq. eapply refines_trans; [|apply refines_quiet; quiet].
    apply refines_waiter; by rewrite E.
  - by eapply refines_wait.
  - destruct (ops (sys s) !! i) as [o|] eqn:E; [|done]. cbn in H.
    destruct (socks (pmem s) !! op_pk o) as [x|] eqn:Ex; [|done]. cbn in H. simplify_eq.
    apply (refines_one n _ _ [Done (op_pk o) b (flags_of n0 e)]); [done|].
    unfold view_of. cbn [pmem sys waiter set_sys set_mem emit emits enqueue set_ops ops queue set_sock socks].
    rewrite occ_app, occ_one. pose proof (filter_remove_nth (fun o => bool_decide (op_pk o = n)) _ _ _ E) as X.
    cbv beta in X. destruct (decide (op_pk o = n)) as [Hn|Hn]; [rewrite bool_decide_true in X by done|rewrite bool_decide_false in X by done].
    + destruct X as (j & Xj & X). unfold mine. rewrite X. subst n. rewrite decide_True by done. rewrite lookup_insert, Ex.
      match goal with |- vstep _ (V _ _ ?c _) _ (V _ _ ?c' _) => replace c' with (S c) by lia end.
      by eapply v_done.
    + unfold mine. rewrite X. rewrite decide_False by congruence. rewrite lookup_insert_ne by done. rewrite Nat.add_0_r.
      apply v_quiet. quiet.
  - destruct (waits (sys s) !! h) as [j|] eqn:E; [|done]. cbn in H. simplify_eq.
    eapply refines_trans; [|apply refines_quiet; quiet]. by apply refines_same.
  - destruct (cbs (sys s) !! j) as [x|] eqn:E; [|done]. cbn -[do_post] in H. destruct x as [i|i].
    + destruct (wtbs (pmem s) !! i) as [w|] eqn:Ew; [|done]. cbn in H. simplify_eq. by apply refines_same.
    + simplify_eq. destruct o; cbn [do_post snd].
      * apply (refines_one n _ _ [Fault (PWait i)]); [done|]. apply v_quiet. quiet.
      * apply (refines_one n _ _ [Posted (PWait i)]); [done|].
        unfold view_of. cbn. rewrite occ_app, occ_one, decide_False, Nat.add_0_r by done. apply v_quiet. quiet.
Qed.
