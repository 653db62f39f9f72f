(** Packets: kinds, existence and reference counts (C62). *)
From stdpp Require Import prelude list gmap.
From Verif Require Import Bits Types EventModel Pool IocpModel IocpSpec.
Local Open Scope nat_scope.

(* ------------------------------------------------------------------ *)
(** ** Memory only grows *)

Definition grows (m m' : mem) : Prop :=
  next m <= next m'
  /\ (forall n k, socks m !! n = Some k -> exists k', socks m' !! n = Some k' /\ sk_socket k' = sk_socket k)
  /\ (forall n k, wtbs m !! n = Some k -> exists k', wtbs m' !! n = Some k' /\ wt_handle k' = wt_handle k)
  /\ (forall n e, customs m !! n = Some e -> customs m' !! n = Some e).
Lemma grows_refl m : grows m m.
Proof. repeat split; eauto. Qed.
Lemma grows_trans a b c : grows a b -> grows b c -> grows a c.
Proof.
  intros (N1 & S1 & W1 & C1) (N2 & S2 & W2 & C2). split; [lia|]. split; [|split].
  - intros n k (k1 & H & E)%S1. apply S2 in H as (k2 & H & E2). exists k2. split; [done|congruence].
  - intros n k (k1 & H & E)%W1. apply W2 in H as (k2 & H & E2). exists k2. split; [done|congruence].
  - eauto.
Qed.
Lemma grows_sock m n k k' :
  socks m !! n = Some k -> sk_socket k' = sk_socket k -> grows m (set_sock m n k').
Proof.
  intros H E. split; [done|]. split; [|split]; cbn; eauto. intros n1 k1 H1.
  destruct (decide (n1 = n)) as [->|].
  - rewrite lookup_insert. exists k'. split; [done|congruence].
  - rewrite lookup_insert_ne by done. eauto.
Qed.
Lemma grows_wtb m n k k' :
  wtbs m !! n = Some k -> wt_handle k' = wt_handle k -> grows m (set_wtb m n k').
Proof.
  intros H E. split; [done|]. split; [|split]; cbn; eauto. intros n1 k1 H1.
  destruct (decide (n1 = n)) as [->|].
  - rewrite lookup_insert. exists k'. split; [done|congruence].
  - rewrite lookup_insert_ne by done. eauto.
Qed.
Lemma grows_refs m p c : grows m (set_refs m p c).
Proof. repeat split; eauto. Qed.
Lemma grows_unlock m p : grows m (unlock m p).
Proof.
  destruct p; cbn; try apply grows_refl. destruct (socks m !! n) eqn:E; [|apply grows_refl].
  by eapply grows_sock.
Qed.
Lemma grows_discards b m : grows m (foldl discard m b).
Proof.
  revert m. induction b as [|p b IH]; intros m; [apply grows_refl|]. cbn [foldl].
  eapply grows_trans; [|apply IH]. unfold discard, drop_ref. eapply grows_trans; [apply grows_unlock|apply grows_refs].
Qed.
Lemma grows_poll m k n s o : socks m !! n = Some s -> grows m (ef_mem (afd_poll m k n s o)).
Proof.
  intros H. unfold afd_poll, clone. repeat case_match; cbn [ef_mem];
    repeat first [by eapply grows_sock | eapply grows_trans; [|apply grows_refs]].
Qed.
Lemma grows_cancel m k n s s0 o :
  socks m !! n = Some s0 -> sk_socket s = sk_socket s0 -> grows m (ef_mem (afd_cancel m k n s o)).
Proof. intros H E. unfold afd_cancel. repeat case_match; cbn [ef_mem]; by eapply grows_sock. Qed.
Lemma grows_update m k p o : grows m (ef_mem (update m k p o)).
Proof.
  unfold update. destruct p as [n|n|n|]; try apply grows_refl.
  - destruct (socks m !! n) eqn:E; [|apply grows_refl]. repeat case_match; try apply grows_refl.
    + by apply grows_poll.
    + by eapply grows_cancel.
  - destruct (wtbs m !! n) eqn:E; [|apply grows_refl]. unfold clone.
    repeat case_match; cbn [ef_mem];
      repeat first [apply grows_refl | by eapply grows_wtb | eapply grows_trans; [|apply grows_refs]].
Qed.
Lemma grows_delete m k p o : grows m (ef_mem (begin_delete m k p o)).
Proof.
  unfold begin_delete. destruct p as [n|n|n|]; try apply grows_refl.
  - destruct (socks m !! n) eqn:E; [|apply grows_refl]. repeat case_match; try apply grows_refl; cbn [ef_mem];
      first [by eapply grows_sock | by eapply grows_cancel].
  - destruct (wtbs m !! n) eqn:E; [|apply grows_refl]. repeat case_match; cbn [ef_mem]; by eapply grows_wtb.
Qed.
Lemma grows_drop m m' p : grows m m' -> grows m (drop_ref m' p).
Proof. intros H. eapply grows_trans; [exact H|apply grows_refs]. Qed.
Lemma grows_clone m m' p : grows m m' -> grows m (clone m' p).
Proof. intros H. eapply grows_trans; [exact H|apply grows_refs]. Qed.

(** The parts of the state that update_packet does not touch. *)
Lemma ustep_frame c s p u o s' x :
  ustep c s p u o = (s', x) ->
  threads s' = threads s /\ waiter s' = waiter s /\ sources s' = sources s /\ waitables s' = waitables s
  /\ polling s' = polling s /\ notified s' = notified s /\ grows (pmem s) (pmem s').
Proof.
  unfold ustep, do_update. intros H.
  repeat case_match; simplify_eq; cbn; do 6 (split; [done|]);
    repeat first [apply grows_refl | apply grows_update | apply grows_drop].
Qed.

(* ------------------------------------------------------------------ *)
(** ** Packets have the right kind and exist *)

(** A packet of a source. *)
Definition source (m : mem) (p : pid) : Prop :=
  match p with PSock n => is_Some (socks m !! n) | PWait n => is_Some (wtbs m !! n) | _ => False end.
Definition exists_in (m : mem) (p : pid) : Prop :=
  match p with
  | PSock n => is_Some (socks m !! n)
  | PWait n => is_Some (wtbs m !! n)
  | PCustom n => is_Some (customs m !! n)
  | PWake => True
  end.
(** The packet belongs to the source that the call names. *)
Definition names (m : mem) (c : call) (p : pid) : Prop :=
  match c, p with
  | CAdd x _ _, PSock n | CModify x _ _, PSock n | CDelete x, PSock n =>
      exists k, socks m !! n = Some k /\ sk_socket k = x
  | CAddW h _ _, PWait n | CModifyW h _ _, PWait n | CRemoveW h, PWait n =>
      exists k, wtbs m !! n = Some k /\ wt_handle k = h
  | _, _ => False
  end.
Definition is_add (c : call) : Prop := match c with CAdd _ _ _ | CAddW _ _ _ => True | _ => False end.
Definition is_modify (c : call) : Prop := match c with CModify _ _ _ | CModifyW _ _ _ => True | _ => False end.
Definition is_delete (c : call) : Prop := match c with CDelete _ | CRemoveW _ => True | _ => False end.
Definition upc_ok (m : mem) (u : upc) : Prop := match u with UDrainDo _ q => source m q | _ => True end.
Definition pc_ok (m : mem) (q : pc) : Prop :=
  match q with
  | AMake c => is_add c
  | AInsert c p => is_add c /\ names m c p
  | MLook c => is_modify c
  | MSet c p => is_modify c /\ names m c p
  | Upd c p u => (is_add c \/ is_modify c) /\ names m c p /\ upc_ok m u
  | DRemove c => is_delete c
  | DBegin c p => is_delete c /\ names m c p
  | NSwap c => c = CNotify
  | Post c p => match p with PWake => c = CNotify | PCustom n => c = CPost n /\ is_Some (customs m !! n) | _ => False end
  | _ => True
  end.
Definition wpc_ok (m : mem) (w : wpc) : Prop :=
  match w with
  | WDrainDo _ q => source m q
  | WUpd _ _ b _ p u => source m p /\ upc_ok m u /\ Forall (exists_in m) b
  | WDead _ own b => Forall (exists_in m) b
  | _ => Forall (exists_in m) (opened w ++ batch w)
  end.

(** Domains are bounded by [next]. *)
Definition dom_ok (m : mem) : Prop :=
  (forall n, is_Some (socks m !! n) -> n < next m) /\ (forall n, is_Some (wtbs m !! n) -> n < next m)
  /\ (forall n, is_Some (customs m !! n) -> n < next m).
Definition kern_ok (m : mem) (k : kern) : Prop :=
  Forall (exists_in m) (queue k)
  /\ Forall (fun o => is_Some (socks m !! op_pk o)) (ops k)
  /\ Forall (fun x => match x with CbStart n | CbPost n => is_Some (wtbs m !! n) end) (cbs k)
  /\ (forall h n, waits k !! h = Some n -> is_Some (wtbs m !! n)).
Record tinv (s : state) : Prop := {
  t_dom : dom_ok (pmem s);
  t_src : forall x n, sources s !! x = Some n -> exists k, socks (pmem s) !! n = Some k /\ sk_socket k = x;
  t_wts : forall x n, waitables s !! x = Some n -> exists k, wtbs (pmem s) !! n = Some k /\ wt_handle k = x;
  t_pc : forall i q, threads s !! i = Some q -> pc_ok (pmem s) q;
  t_wait : wpc_ok (pmem s) (waiter s);
  t_pend : Forall (source (pmem s)) (pending s);
  t_kern : kern_ok (pmem s) (sys s)
}.

Section grow.
  Context (m m' : mem) (G : grows m m').
  Lemma grow_source p : source m p -> source m' p.
  Proof.
    destruct G as (_ & S & W & _). destruct p; cbn; try done.
    - intros [k (k' & -> & _)%S]. done.
    - intros [k (k' & -> & _)%W]. done.
  Qed.
  Lemma grow_exists p : exists_in m p -> exists_in m' p.
  Proof.
    destruct G as (_ & S & W & C). destruct p; cbn; try done.
    - intros [k (k' & -> & _)%S]. done.
    - intros [k (k' & -> & _)%W]. done.
    - intros [e ->%C]. done.
  Qed.
  Lemma grow_names c p : names m c p -> names m' c p.
  Proof.
    destruct G as (_ & S & W & _). destruct c, p; cbn; try done;
      intros (k & H & E); first [apply S in H as (k' & H & E') | apply W in H as (k' & H & E')];
      exists k'; (split; [done|congruence]).
  Qed.
  Lemma grow_upc u : upc_ok m u -> upc_ok m' u.
  Proof. destruct u; cbn; try done. apply grow_source. Qed.
  Lemma grow_pc q : pc_ok m q -> pc_ok m' q.
  Proof.
    destruct q; cbn; try done.
    - intros [? ?]. split; [done|]. by apply grow_names.
    - intros [? ?]. split; [done|]. by apply grow_names.
    - intros (? & ? & ?). split; [done|]. split; [by apply grow_names|by apply grow_upc].
    - intros [? ?]. split; [done|]. by apply grow_names.
    - destruct p; try done. intros [? H]. split; [done|]. destruct G as (_ & _ & _ & C). destruct H as [e ->%C]. done.
  Qed.
  Lemma grow_all l : Forall (exists_in m) l -> Forall (exists_in m') l.
  Proof. intros H. eapply Forall_impl; [exact H|]. intros; by apply grow_exists. Qed.
  Lemma grow_wpc w : wpc_ok m w -> wpc_ok m' w.
  Proof.
    destruct w; cbn [wpc_ok]; try apply grow_all.
    - apply grow_source.
    - intros (? & ? & ?). split; [by apply grow_source|]. split; [by apply grow_upc|by apply grow_all].
  Qed.
End grow.

(** A change of memory, program counters and queues that are all right. *)
Lemma names_source m c p : names m c p -> source m p.
Proof. destruct c, p; cbn; try done; intros (k & -> & _); done. Qed.
Lemma source_exists m p : source m p -> exists_in m p.
Proof. by destruct p. Qed.

(** Same packets. *)
Definition same_dom (m m' : mem) : Prop :=
  next m' = next m /\ (forall n, is_Some (socks m' !! n) <-> is_Some (socks m !! n))
  /\ (forall n, is_Some (wtbs m' !! n) <-> is_Some (wtbs m !! n))
  /\ customs m' = customs m.
Lemma same_refl m : same_dom m m.
Proof. done. Qed.
Lemma same_trans a b c : same_dom a b -> same_dom b c -> same_dom a c.
Proof.
  intros (N1 & S1 & W1 & C1) (N2 & S2 & W2 & C2). split; [congruence|]. split; [|split; [|congruence]].
  - intros n. by rewrite S2.
  - intros n. by rewrite W2.
Qed.
Lemma same_sock m n k : is_Some (socks m !! n) -> same_dom m (set_sock m n k).
Proof.
  intros H. split; [done|]. split; [|done]. intros j. cbn. destruct (decide (j = n)) as [->|].
  - rewrite lookup_insert. done.
  - by rewrite lookup_insert_ne.
Qed.
Lemma same_wtb m n k : is_Some (wtbs m !! n) -> same_dom m (set_wtb m n k).
Proof.
  intros H. split; [done|]. split; [done|]. split; [|done]. intros j. cbn. destruct (decide (j = n)) as [->|].
  - rewrite lookup_insert. done.
  - by rewrite lookup_insert_ne.
Qed.
Lemma same_refs m m' p c : same_dom m m' -> same_dom m (set_refs m' p c).
Proof. intros H. eapply same_trans; [exact H|]. done. Qed.
Lemma same_drop m m' p : same_dom m m' -> same_dom m (drop_ref m' p).
Proof. apply same_refs. Qed.
Lemma same_clone m m' p : same_dom m m' -> same_dom m (clone m' p).
Proof. apply same_refs. Qed.
Lemma same_unlock m p : same_dom m (unlock m p).
Proof. destruct p; cbn; try done. case_match eqn:E; [|done]. apply same_sock. by rewrite E. Qed.
Lemma same_discards b m : same_dom m (foldl discard m b).
Proof.
  revert m. induction b as [|p b IH]; intros m; [done|]. cbn [foldl]. eapply same_trans; [|apply IH].
  apply same_drop, same_unlock.
Qed.
Lemma same_update m k p o : same_dom m (ef_mem (update m k p o)).
Proof.
  unfold update, afd_poll, afd_cancel. destruct p as [n|n|n|]; try done.
  - destruct (socks m !! n) eqn:E; [|done]. repeat case_match; cbn [ef_mem]; try apply same_clone; try done;
      apply same_sock; by rewrite E.
  - destruct (wtbs m !! n) eqn:E; [|done]. repeat case_match; cbn [ef_mem]; try apply same_clone; try done;
      apply same_wtb; by rewrite E.
Qed.
Lemma same_delete m k p o : same_dom m (ef_mem (begin_delete m k p o)).
Proof.
  unfold begin_delete, afd_cancel. destruct p as [n|n|n|]; try done.
  - destruct (socks m !! n) eqn:E; [|done]. repeat case_match; cbn [ef_mem]; try done;
      apply same_sock; by rewrite E.
  - destruct (wtbs m !! n) eqn:E; [|done]. repeat case_match; cbn [ef_mem]; try done;
      apply same_wtb; by rewrite E.
Qed.
Lemma same_dom_ok m m' : same_dom m m' -> dom_ok m -> dom_ok m'.
Proof.
  intros (N & S & W & C) (A & B & D). unfold dom_ok. rewrite N, C. split; [|split; [|done]].
  - intros n H%S. by apply A.
  - intros n H%W. by apply B.
Qed.
Lemma kern_grow m m' k : grows m m' -> kern_ok m k -> kern_ok m' k.
Proof.
  intros G (Q & O & B & W). split; [by eapply grow_all|]. split; [|split].
  - eapply Forall_impl; [exact O|]. intros o. apply (grow_source _ _ G (PSock (op_pk o))).
  - eapply Forall_impl; [exact B|]. intros [n|n]; apply (grow_source _ _ G (PWait n)).
  - intros h n H%W. by apply (grow_source _ _ G (PWait n)).
Qed.
Lemma kern_ops m k l : kern_ok m k -> Forall (fun o => is_Some (socks m !! op_pk o)) l -> kern_ok m (set_ops k l).
Proof. intros (Q & O & B & W) H. done. Qed.
Lemma kern_cancel m k n : kern_ok m k -> kern_ok m (set_ops k (map (cancel_op n) (ops k))).
Proof.
  intros H. apply kern_ops; [done|]. destruct H as (_ & H & _). apply Forall_fmap.
  eapply Forall_impl; [exact H|]. intros o Ho. unfold compose, cancel_op. by case_decide.
Qed.
Lemma kern_update m k p o : kern_ok m k -> kern_ok (ef_mem (update m k p o)) (ef_sys (update m k p o)).
Proof.
  intros H. pose proof (kern_grow _ _ _ (grows_update m k p o) H) as G. revert G.
  unfold update, afd_poll, afd_cancel. destruct p as [n|n|n|]; try done.
  - destruct (socks m !! n) eqn:E; [|done]. repeat case_match; cbn [ef_mem ef_sys]; try done; intros G.
    + apply kern_ops; [done|]. apply Forall_app. split; [apply G|]. apply Forall_singleton. cbn.
      by rewrite lookup_insert.
    + by apply kern_cancel.
  - destruct (wtbs m !! n) eqn:E; [|done]. repeat case_match; cbn [ef_mem ef_sys]; try done.
    intros (Q & O & B & W). split; [done|]. split; [done|]. split; [done|]. cbn. intros h i.
    destruct (decide (h = fresh k)) as [->|].
    + rewrite lookup_insert. intros [= <-]. by rewrite lookup_insert.
    + rewrite lookup_insert_ne by done. apply W.
Qed.
Lemma kern_delete m k p o : kern_ok m k -> kern_ok (ef_mem (begin_delete m k p o)) (ef_sys (begin_delete m k p o)).
Proof.
  intros H. pose proof (kern_grow _ _ _ (grows_delete m k p o) H) as G. revert G.
  unfold begin_delete, afd_cancel. destruct p as [n|n|n|]; try done.
  - destruct (socks m !! n) eqn:E; [|done]. repeat case_match; cbn [ef_mem ef_sys]; try done. apply kern_cancel.
  - destruct (wtbs m !! n) eqn:E; [|done]. repeat case_match; cbn [ef_mem ef_sys]; try done;
    intros (Q & O & B & W); (split; [done|]; split; [done|]; split; [done|]); cbn; intros h' i [_ ?]%lookup_delete_Some; eauto.
Qed.
Lemma kern_queue m k p : kern_ok m k -> exists_in m p -> kern_ok m (enqueue k p).
Proof. intros (Q & O & B & W) H. split; [|done]. apply Forall_app. split; [done|]. by apply Forall_singleton. Qed.

(** A step that changes no map. *)
Lemma tinv_keep s s' :
  tinv s -> grows (pmem s) (pmem s') -> dom_ok (pmem s') ->
  sources s' = sources s -> waitables s' = waitables s ->
  (forall i q, threads s' !! i = Some q -> threads s !! i = Some q \/ pc_ok (pmem s') q) ->
  (waiter s' = waiter s \/ wpc_ok (pmem s') (waiter s')) ->
  (pending s' = pending s \/ Forall (source (pmem s')) (pending s')) ->
  (sys s' = sys s \/ kern_ok (pmem s') (sys s')) -> tinv s'.
Proof.
  intros T G D ES EW P W L K. pose proof G as (GN & GS & GW & GC). split; [done|..].
  - intros x n. rewrite ES. intros H. destruct (t_src _ T _ _ H) as (k & Hk & E).
    apply GS in Hk as (k' & ? & ?). exists k'. split; [done|congruence].
  - intros x n. rewrite EW. intros H. destruct (t_wts _ T _ _ H) as (k & Hk & E).
    apply GW in Hk as (k' & ? & ?). exists k'. split; [done|congruence].
  - intros i q [H|H]%P; [|done]. eapply grow_pc; [exact G|]. by eapply t_pc.
  - destruct W as [->|?]; [|done]. eapply grow_wpc; [exact G|]. apply T.
  - destruct L as [->|?]; [|done]. eapply Forall_impl; [apply T|]. intros p. by apply grow_source.
  - destruct K as [->|?]; [|done]. eapply kern_grow; [exact G|]. apply T.
Qed.
Lemma pc_change (P : pc -> Prop) (l : list pc) (i : nat) (q' : pc) :
  P q' -> forall (j : nat) q, <[i:=q']> l !! j = Some q -> l !! j = Some q \/ P q.
Proof.
  intros H j q. destruct (decide (j = i)) as [->|].
  - intros Hl. right. rewrite list_lookup_insert in Hl by (apply lookup_lt_Some in Hl; by rewrite insert_length in Hl).
    congruence.
  - rewrite list_lookup_insert_ne by done. auto.
Qed.

Lemma ustep_tinv c s p u o s' x :
  tinv s -> source (pmem s) p -> upc_ok (pmem s) u -> ustep c s p u o = (s', x) ->
  tinv s' /\ match x with inl u' => upc_ok (pmem s') u' | inr _ => True end.
Proof.
  intros T Hp Hu H. unfold ustep, do_update in H. destruct u as [| | |[|n]|n q].
  - simplify_eq. split; [done|]. by case_match.
  - simplify_eq. split; [|done]. eapply tinv_keep; eauto; cbn.
    + apply grows_drop, grows_update.
    + eapply same_dom_ok; [apply same_drop, same_update|]. apply T.
    + right. eapply kern_grow; [apply grows_drop, grows_refl|]. apply kern_update, T.
  - case_decide; simplify_eq; [|done]. split; [|done]. eapply tinv_keep; eauto; cbn; try apply grows_refl; try apply T.
    right. apply Forall_app. split; [apply T|]. by apply Forall_singleton.
  - by simplify_eq.
  - destruct (pending s) as [|q l] eqn:E; simplify_eq; [done|]. pose proof (t_pend _ T) as F. rewrite E in F.
    apply Forall_cons in F as [Fq Fl]. split; [|done].
    eapply tinv_keep; eauto; cbn; try apply grows_refl; try apply T.
  - assert (A : tinv (apply_eff s q (update (pmem s) (sys s) q o))).
    { eapply tinv_keep; eauto; cbn.
      + apply grows_drop, grows_update.
      + eapply same_dom_ok; [apply same_drop, same_update|]. apply T.
      + right. eapply kern_grow; [apply grows_drop, grows_refl|]. apply kern_update, T. }
    case_match; simplify_eq; split; try done;
      (eapply tinv_keep; [exact A|..]; cbn; eauto; [apply grows_refs|eapply same_dom_ok; [|apply A]; done]).
Qed.

Lemma tinv_pc s i q : tinv s -> pc_ok (pmem s) q -> tinv (set_pc s i q).
Proof.
  intros T H. eapply tinv_keep; eauto; cbn; try apply grows_refl; try apply T. by apply pc_change.
Qed.
Lemma tinv_waiter s w : tinv s -> wpc_ok (pmem s) w -> tinv (set_waiter s w).
Proof. intros T H. eapply tinv_keep; eauto; cbn; try apply grows_refl; try apply T. Qed.
Lemma tinv_emit s o : tinv s -> tinv (emits s o).
Proof. intros T. eapply tinv_keep; eauto; cbn; try apply grows_refl; try apply T. Qed.
Lemma tinv_flags s a b : tinv s -> tinv (set_flags s a b).
Proof. intros T. eapply tinv_keep; eauto; cbn; try apply grows_refl; try apply T. Qed.
Lemma tinv_leak s l : tinv s -> tinv (leak s l).
Proof. intros T. eapply tinv_keep; eauto; cbn; try apply grows_refl; try apply T. Qed.
Lemma tinv_mem s m : tinv s -> grows (pmem s) m -> same_dom (pmem s) m -> tinv (set_mem s m).
Proof. intros T G D. eapply tinv_keep; eauto; cbn. eapply same_dom_ok; [exact D|]. apply T. Qed.
Lemma tinv_sys s k : tinv s -> kern_ok (pmem s) k -> tinv (set_sys s k).
Proof. intros T H. eapply tinv_keep; eauto; cbn; try apply grows_refl; try apply T. Qed.
Lemma tinv_drop s p : tinv s -> tinv (set_mem s (drop_ref (pmem s) p)).
Proof. intros T. by apply tinv_mem; [|apply grows_drop, grows_refl|apply same_drop]. Qed.
Lemma tinv_clone s p : tinv s -> tinv (set_mem s (clone (pmem s) p)).
Proof. intros T. by apply tinv_mem; [|apply grows_clone, grows_refl|apply same_clone]. Qed.
Lemma tinv_delete s p o : tinv s -> tinv (do_delete s p o).2.
Proof.
  intros T. apply tinv_emit. eapply tinv_keep; eauto; cbn.
  - apply grows_drop, grows_delete.
  - eapply same_dom_ok; [apply same_drop, same_delete|]. apply T.
  - right. eapply kern_grow; [apply grows_drop, grows_refl|]. apply kern_delete, T.
Qed.
Lemma tinv_update s p o : tinv s -> tinv (do_update s p o).2.
Proof.
  intros T. eapply tinv_keep; eauto; cbn.
  - apply grows_drop, grows_update.
  - eapply same_dom_ok; [apply same_drop, same_update|]. apply T.
  - right. eapply kern_grow; [apply grows_drop, grows_refl|]. apply kern_update, T.
Qed.
Lemma tinv_post s p o : tinv s -> exists_in (pmem s) p -> tinv (do_post s p o).2.
Proof.
  intros T H. unfold do_post. case_match; apply tinv_emit; [by apply tinv_leak|].
  apply tinv_sys; [done|]. apply kern_queue; [apply T|done].
Qed.
Lemma tinv_maps s a b :
  tinv s ->
  (forall x n, a !! x = Some n -> exists k, socks (pmem s) !! n = Some k /\ sk_socket k = x) ->
  (forall x n, b !! x = Some n -> exists k, wtbs (pmem s) !! n = Some k /\ wt_handle k = x) ->
  tinv (set_maps s a b).
Proof. intros T A B. destruct T. by split. Qed.
Lemma grow_fresh m c m' p ob :
  dom_ok m -> new_packet m c = Some (m', p, ob) -> grows m m' /\ dom_ok m' /\ (is_add c /\ names m' c p).
Proof.
  intros (DS & DW & DC) H.
  assert (FS : socks m !! next m = None).
  { apply eq_None_not_Some. intros ?%DS. lia. }
  assert (FW : wtbs m !! next m = None).
  { apply eq_None_not_Some. intros ?%DW. lia. }
  destruct c; simplify_eq/=.
  - split; [|split].
    + split; [cbn; lia|]. cbn. split; [|eauto]. intros i k Hi. destruct (decide (i = next m)) as [->|]; [congruence|].
      rewrite lookup_insert_ne by done. eauto.
    + split; [|split]; cbn.
      * intros i. destruct (decide (i = next m)) as [->|]; [lia|]. rewrite lookup_insert_ne by done. intros ?%DS. lia.
      * intros i ?%DW. lia.
      * intros i ?%DC. lia.
    + split; [done|]. cbn. rewrite lookup_insert. eauto.
  - split; [|split].
    + split; [cbn; lia|]. cbn. split; [eauto|]. split; [|eauto]. intros i k Hi. destruct (decide (i = next m)) as [->|]; [congruence|].
      rewrite lookup_insert_ne by done. eauto.
    + split; [|split]; cbn.
      * intros i ?%DS. lia.
      * intros i. destruct (decide (i = next m)) as [->|]; [lia|]. rewrite lookup_insert_ne by done. intros ?%DW. lia.
      * intros i ?%DC. lia.
    + split; [done|]. cbn. rewrite lookup_insert. eauto.
Qed.

Lemma lookup_names s c p : tinv s -> (is_modify c \/ is_delete c) -> lookup_packet s c = Some p -> names (pmem s) c p.
Proof.
  intros T HC H. destruct c; cbn in *; try tauto;
    apply fmap_Some in H as (n & Hn & ->); cbn; first [by apply (t_src _ T) | by apply (t_wts _ T)].
Qed.
Lemma tinv_insert s c p s' : tinv s -> names (pmem s) c p -> insert_packet s c p = Some s' ->
  tinv s' /\ names (pmem s') c p.
Proof.
  intros T N H. destruct c, p; cbn in H; try done; case_match; simplify_eq; (split; [|exact N]); apply tinv_emit.
  - assert (T' : tinv (set_mem s (clone (pmem s) (PSock n)))) by by apply tinv_clone.
    apply (tinv_maps _ _ _ T'); [|exact (t_wts _ T')]. intros x i. destruct (decide (x = sock)) as [->|].
    + rewrite lookup_insert. intros [= <-]. done.
    + rewrite lookup_insert_ne by done. exact (t_src _ T' _ _).
  - assert (T' : tinv (set_mem s (clone (pmem s) (PWait n)))) by by apply tinv_clone.
    apply (tinv_maps _ _ _ T'); [exact (t_src _ T')|]. intros x i. destruct (decide (x = h)) as [->|].
    + rewrite lookup_insert. intros [= <-]. done.
    + rewrite lookup_insert_ne by done. exact (t_wts _ T' _ _).
Qed.
Lemma tinv_remove s c : tinv s -> tinv (remove_packet s c).
Proof.
  intros T. destruct c; cbn; try done; apply tinv_maps; try apply T; intros x n [_ H]%lookup_delete_Some;
    first [by apply T | by apply (t_wts _ T)].
Qed.
Lemma tinv_set s c p s' b : tinv s -> do_set s c p = Some (s', b) -> tinv s' /\ (names (pmem s) c p -> names (pmem s') c p).
Proof.
  intros T H. destruct c, p; cbn in H; try done.
  - destruct (socks (pmem s) !! n) eqn:E; simplify_eq/=. split.
    + apply tinv_emit, tinv_mem; [done|by eapply grows_sock|apply same_sock; by rewrite E].
    + intros (k & ? & ?). cbn. rewrite lookup_insert. eexists. split; [done|]. cbn. congruence.
  - destruct (wtbs (pmem s) !! n) eqn:E; simplify_eq/=. split.
    + apply tinv_emit, tinv_mem; [done|by eapply grows_wtb|apply same_wtb; by rewrite E].
    + intros (k & ? & ?). cbn. rewrite lookup_insert. eexists. split; [done|]. cbn. congruence.
Qed.

Lemma tinv_thread c s i q a s' :
  tinv s -> legal s (LThread i a) -> threads s !! i = Some q -> thread_step c s i q a = Some s' -> tinv s'.
Proof.
  intros T L Hq H. pose proof (t_pc _ T _ _ Hq) as P. destruct q, a; cbn in H; try done; cbn in P.
  - simplify_eq. apply tinv_emit, tinv_pc; [done|]. destruct c0; cbn; try done; by destruct m.
  - destruct o; simplify_eq; [by apply tinv_pc|]. destruct (new_packet _ _) as [[[m p] ob]|] eqn:E; simplify_eq/=.
    destruct (grow_fresh _ _ _ _ _ (t_dom _ T) E) as (G & D & N). apply tinv_pc; [|done].
    eapply tinv_keep; eauto.
  - destruct P as [P1 P2]. destruct (insert_packet _ _ _) eqn:E; simplify_eq.
    + destruct (tinv_insert _ _ _ _ T P2 E) as [T' N]. apply tinv_pc; [done|]. cbn. tauto.
    + apply tinv_pc; [|done]. by apply tinv_drop.
  - destruct (lookup_packet _ _) eqn:E; simplify_eq.
    + apply tinv_pc; [by apply tinv_clone|]. split; [done|].
      eapply grow_names; [apply grows_clone, grows_refl|]. eapply lookup_names; eauto.
    + by apply tinv_pc.
  - destruct P as [P1 P2]. destruct (do_set _ _ _) as [[s1 b]|] eqn:E; simplify_eq/=.
    destruct (tinv_set _ _ _ _ _ T E) as [T' N]. destruct b; simplify_eq.
    + apply tinv_pc; [done|]. cbn. auto.
    + apply tinv_pc; [by apply tinv_drop|done].
  - destruct P as (P1 & P2 & P3). destruct (ustep _ _ _ _ _) as [s1 x] eqn:E. simplify_eq.
    destruct (ustep_tinv _ _ _ _ _ _ _ T (names_source _ _ _ P2) P3 E) as [T' X].
    apply tinv_pc; [done|]. destruct x; cbn; [|done]. split; [done|]. split; [|done].
    apply ustep_frame in E as (_ & _ & _ & _ & _ & _ & G). by eapply grow_names.
  - destruct (lookup_packet _ _) eqn:E; simplify_eq.
    + apply tinv_pc; [by apply tinv_remove|]. split; [done|].
      assert (N : names (pmem s) c0 p) by (eapply lookup_names; eauto). by destruct c0.
    + by apply tinv_pc.
  - simplify_eq. apply tinv_pc; [exact (tinv_delete s p o T)|done].
  - destruct (notified s); simplify_eq; apply tinv_pc; try done. by apply tinv_flags.
  - destruct (do_post _ _ _) as [r s1] eqn:E. simplify_eq. apply tinv_pc; [|done].
    change s1 with (r, s1).2. rewrite <- E. apply tinv_post; [by apply tinv_clone|]. destruct p; cbn in *; tauto.
  - simplify_eq. apply tinv_emit. by apply tinv_pc.
Qed.

Lemma wpc_batch m w : wpc_ok m w -> Forall (exists_in m) (batch w).
Proof. destruct w; cbn [wpc_ok opened batch app]; try (intros; by constructor); try tauto. intros H. by inversion H. Qed.
Lemma tinv_abandon s b : tinv s -> tinv (abandon s b).
Proof. intros T. apply tinv_emit, tinv_mem; [done|apply grows_discards|apply same_discards]. Qed.
Lemma feed_socket k k' : (feed_sock k = FClosed k' \/ feed_sock k = FDeleting k' \/ exists r, feed_sock k = FResult k' r) ->
  sk_socket k' = sk_socket k.
Proof.
  unfold feed_sock. repeat case_match; intros [|[|[r ?]]]; simplify_eq; done.
Qed.

Lemma tinv_feed s l z p b o s' :
  tinv s -> exists_in (pmem s) p -> Forall (exists_in (pmem s)) b ->
  feed_step s l z p b o = Some s' -> tinv s'.
Proof.
  intros T P B H. destruct p as [n|n|n|]; unfold feed_step in H.
  - destruct (socks (pmem s) !! n) as [k|] eqn:E; [|done]. cbn [mbind option_bind] in H.
    assert (SE : is_Some (socks (pmem s) !! n)) by by rewrite E.
    destruct (feed_sock k) as [k'|k'|k' r] eqn:F.
    + assert (GS : grows (pmem s) (set_sock (pmem s) n k')).
      { eapply grows_sock; [done|]. apply feed_socket. auto. }
      destruct (sources s !! sk_socket k) as [n'|] eqn:Es; [case_decide|].
      * simplify_eq. apply (tinv_waiter _ _). 2:{ cbn. by eapply grow_all. }
        apply tinv_maps. { apply tinv_emit, tinv_mem; [done|done|by apply same_sock]. }
        -- intros x i [_ Hx]%lookup_delete_Some. apply (t_src _ T) in Hx as (k1 & Hk & Ek).
           destruct GS as (_ & GS & _). apply GS in Hk as (k2 & ? & ?). exists k2. split; [done|congruence].
        -- intros x i Hx. apply (t_wts _ T) in Hx. done.
      * match type of H with context [do_delete ?st _ _] => set (s2 := st) in * end.
        assert (T2 : tinv s2).
        { apply tinv_maps. { apply tinv_emit, tinv_mem; [done|done|by apply same_sock]. }
          -- intros x i [_ Hx]%lookup_delete_Some. apply (t_src _ T) in Hx as (k1 & Hk & Ek).
             destruct GS as (_ & GS & _). apply GS in Hk as (k2 & ? & ?). exists k2. split; [done|congruence].
          -- intros x i Hx. apply (t_wts _ T) in Hx. done. }
        pose proof (tinv_delete s2 (PSock n') o T2) as T3.
        assert (B3 : Forall (exists_in (pmem (do_delete s2 (PSock n') o).2)) b).
        { eapply grow_all; [|eapply grow_all; [exact GS|exact B]]. apply (grows_drop (pmem s2)), grows_delete. }
        destruct (do_delete s2 (PSock n') o) as [r s3]. cbn [snd] in *. simplify_eq. destruct r.
        -- apply tinv_waiter; [by apply tinv_drop|]. done.
        -- apply tinv_waiter; [by apply tinv_abandon, tinv_drop|]. cbn. done.
        -- apply tinv_waiter; [by apply tinv_drop|]. done.
      * simplify_eq. apply (tinv_waiter _ _). 2:{ cbn. by eapply grow_all. }
        apply tinv_emit, tinv_mem; [done|done|by apply same_sock].
    + simplify_eq. apply tinv_emit, (tinv_waiter _ _). 2:{ cbn. done || (eapply grow_all; [|exact B]). apply grows_drop. eapply grows_sock; [done|]. apply feed_socket. auto. }
      apply tinv_mem; [done|apply grows_drop; eapply grows_sock; [done|]; apply feed_socket; auto|by apply same_drop, same_sock].
    + simplify_eq. assert (GS : grows (pmem s) (set_sock (pmem s) n k')).
      { eapply grows_sock; [done|]. apply feed_socket. eauto. }
      apply tinv_emit, (tinv_waiter _ _).
      * apply tinv_mem; [done|done|by apply same_sock].
      * split; [by eapply (grow_source _ _ GS (PSock n))|]. split; [done|]. by eapply grow_all.
  - destruct (wtbs (pmem s) !! n) as [k|] eqn:E; [|done]. cbn in H. simplify_eq.
    match goal with |- context [set_wtb _ n ?x] => set (k' := x) end.
    assert (GS : grows (pmem s) (set_wtb (pmem s) n k')).
    { eapply grows_wtb; [done|]. subst k'. by destruct (wt_mode k). }
    apply tinv_emit, (tinv_waiter _ _).
    + apply tinv_mem; [done|done|apply same_wtb; by rewrite E].
    + split; [by eapply (grow_source _ _ GS (PWait n))|]. split; [done|]. by eapply grow_all.
  - destruct (customs (pmem s) !! n) as [e|] eqn:E; [|done]. cbn in H. simplify_eq.
    apply tinv_emit, (tinv_waiter _ _); [by apply tinv_drop|]. done.
  - simplify_eq. apply tinv_emit, (tinv_waiter _ _); [by apply tinv_drop|]. done.
Qed.

Lemma tinv_wait c s a s' : tinv s -> wait_step c s a = Some s' -> tinv s'.
Proof.
  intros T H. pose proof (t_wait _ T) as W. unfold wait_step in H.
  destruct (waiter s) as [|l|l|l q|l z|l z b|l z b|l z p b|l z b ret p u|l e g|l|d own b] eqn:E, a; try done; try (by destruct b); cbn in W.
  - simplify_eq. apply tinv_waiter; [by apply tinv_flags|by constructor].
  - destruct (pending s) as [|q r] eqn:Ep; simplify_eq.
    + apply tinv_emit, tinv_waiter; [done|by constructor].
    + pose proof (t_pend _ T) as F. rewrite Ep in F. apply Forall_cons in F as [Fq Fl].
      apply tinv_waiter; [|done]. eapply tinv_keep; eauto; cbn; try apply grows_refl; try apply T.
  - pose proof (tinv_update s q o T) as T'. destruct (do_update s q o) as [r s1]. simplify_eq.
    apply tinv_waiter; [done|]. by destruct r; constructor.
  - simplify_eq. apply tinv_waiter; [done|]. by constructor.
  - simplify_eq. apply tinv_waiter; [done|]. by constructor.
  - case_decide; simplify_eq. pose proof (t_kern _ T) as (Q & O & B & Wa). apply tinv_waiter.
    + apply tinv_sys; [done|]. split; [|done]. cbn. by apply Forall_drop.
    + cbn. by apply Forall_take.
  - simplify_eq. apply tinv_waiter; [by apply tinv_flags|done].
  - destruct b as [|p b]; [case_match; simplify_eq; by apply tinv_waiter|]. simplify_eq. apply tinv_waiter.
    + apply tinv_mem; [done|apply grows_unlock|apply same_unlock].
    + cbn. eapply grow_all; [apply grows_unlock|done].
  - apply Forall_cons in W as [Wp Wb]. by eapply tinv_feed.
  - destruct W as (W1 & W2 & W3). destruct (ustep _ _ _ _ _) as [s1 x] eqn:Eu. simplify_eq.
    destruct (ustep_tinv _ _ _ _ _ _ _ T W1 W2 Eu) as [T' X].
    apply ustep_frame in Eu as (_ & _ & _ & _ & _ & _ & G). destruct x as [u'|[]].
    + apply tinv_waiter; [done|]. split; [by eapply grow_source|]. split; [done|by eapply grow_all].
    + apply tinv_waiter; [done|]. cbn. by eapply grow_all.
    + apply tinv_waiter; [by apply tinv_abandon|]. by constructor.
    + apply tinv_waiter; [done|]. cbn. by eapply grow_all.
  - simplify_eq. apply tinv_emit, tinv_waiter; [by apply tinv_flags|by constructor].
  - simplify_eq. apply tinv_emit, tinv_waiter; [by apply tinv_flags|by constructor].
Qed.

Lemma Forall_remove_nth {A} (P : A -> Prop) i l : Forall P l -> Forall P (remove_nth i l).
Proof. intros H. apply Forall_app. split; [by apply Forall_take|by apply Forall_drop]. Qed.

Lemma tinv_step c s l s' : tinv s -> legal s l -> step c s l = Some s' -> tinv s'.
Proof.
  intros T L H. destruct l; cbn in H.
  - destruct (threads s !! i) eqn:E; [|done]. cbn in H. by eapply tinv_thread.
  - simplify_eq. pose proof (t_dom _ T) as (DS & DW & DC). eapply tinv_keep; eauto; cbn.
    + split; [cbn; lia|]. split; [eauto|]. split; [eauto|]. cbn. intros n x Hn.
      rewrite lookup_insert_ne; [done|]. intros <-. specialize (DC (next (pmem s)) ltac:(by rewrite Hn)). lia.
    + split; [|split]; cbn.
      * intros n ?%DS. lia.
      * intros n ?%DW. lia.
      * intros n. destruct (decide (n = next (pmem s))) as [->|]; [lia|]. rewrite lookup_insert_ne by done. intros ?%DC. lia.
  - destruct (waiter s); simplify_eq. apply tinv_emit, tinv_waiter; [done|by constructor].
  - by eapply tinv_wait.
  - destruct (ops (sys s) !! i) as [o|] eqn:E; [|done]. cbn in H.
    destruct (socks (pmem s) !! op_pk o) as [x|] eqn:Ex; [|done]. cbn in H. simplify_eq.
    apply tinv_emit, tinv_sys.
    + apply tinv_mem; [done|by eapply grows_sock|apply same_sock; by rewrite Ex].
    + apply kern_queue; [|cbn; by rewrite lookup_insert]. eapply kern_grow.
      { cbn. by eapply grows_sock. }
      apply kern_ops; [apply T|]. apply Forall_remove_nth, (t_kern _ T).
  - destruct (waits (sys s) !! h) as [n|] eqn:E; [|done]. cbn in H. simplify_eq.
    pose proof (t_kern _ T) as (Q & O & B & W). apply tinv_emit, tinv_sys; [done|].
    split; [done|]. split; [done|]. split; cbn.
    + apply Forall_app. split; [done|]. apply Forall_singleton. eauto.
    + intros h' n' [_ ?]%lookup_delete_Some. eauto.
  - destruct (cbs (sys s) !! j) as [x|] eqn:E; [|done]. cbn in H. pose proof (t_kern _ T) as (Q & O & B & W).
    pose proof (Forall_lookup_1 _ _ _ _ B E) as Hx. destruct x as [n|n].
    + destruct (wtbs (pmem s) !! n) as [w|] eqn:Ew; [|done]. cbn in H. simplify_eq. apply tinv_sys.
      * apply tinv_mem; [done|by eapply grows_wtb|apply same_wtb; by rewrite Ew].
      * eapply kern_grow; [cbn; by eapply grows_wtb|]. split; [done|]. split; [done|]. split; [|done]. cbn.
        by apply Forall_insert.
    + simplify_eq. apply tinv_post; [|done]. apply tinv_sys; [done|]. split; [done|]. split; [done|]. split; [|done].
      by apply Forall_remove_nth.
Qed.
Lemma tinv_init n : tinv (init n).
Proof.
  split; cbn; try done.
  - repeat split; cbn; intros i [x Hx]; done.
  - intros i q Hq. apply lookup_replicate in Hq as [-> _]. done.
  - repeat split; cbn; try constructor. intros h i Hh. done.
Qed.
Lemma tinv_reach c s : reachable c s -> tinv s.
Proof. induction 1; [apply tinv_init|by eapply tinv_step]. Qed.
