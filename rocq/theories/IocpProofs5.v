(** What holds of a socket packet at any time. *)
From stdpp Require Import prelude list gmap.
From Verif Require Import Bits Types EventModel Pool IocpModel IocpSpec IocpProofs IocpProofs2 IocpProofs3 IocpProofs4.
Local Open Scope nat_scope.

Record ainv (n : nat) (k : sock) (F : list op) (c o : nat) (h : list obs) : Prop := {
  a_sum : length F + c + o <= 1;
  a_ops : forall x, x ∈ F -> op_pk x = n /\ sk_in_use k = true /\ sk_iosb k = BPending /\ sk_count k = 1
            /\ sk_events k = op_mask x
            /\ sk_status k = if op_cancel x then Cancelled else Polling (op_mask x);
  a_comp : 0 < c -> sk_in_use k = true;
  a_open : 0 < o -> sk_in_use k = false;
  a_done : 0 < c + o -> sk_iosb k <> BPending /\ sk_status k <> Idle /\ last_done n h = Some (sk_iosb k, flags_of (sk_count k) (sk_events k));
  a_idle : spared (PSock n) h -> length F + c + o = 0 -> sk_status k = Idle /\ sk_in_use k = false;
  a_int : interest_of (PSock n) h = Some (sk_interest k, sk_error k, sk_mode k);
  a_del : sk_deleting k = true <-> Removed (PSock n) ∈ h
}.
Definition vinv (n : nat) (v : view) (h : list obs) : Prop :=
  all_justified n h
  /\ match v_k v with
     | None => v_ops v = [] /\ v_c v = 0 /\ v_o v = 0 /\ Forall (fun o => ~ about n o) h
     | Some k => ainv n k (v_ops v) (v_c v) (v_o v) h
     end.

(** Reading an extended log. *)
Lemma last_done_app n h d : last_done n (h ++ d) = fold_left (fun x o => match o with Done j b e => if decide (j = n) then Some (b, e) else x | _ => x end) d (last_done n h).
Proof. unfold last_done. by rewrite fold_left_app. Qed.
Lemma interest_app p h d : interest_of p (h ++ d) = fold_left (interest_step p) d (interest_of p h).
Proof. unfold interest_of. by rewrite fold_left_app. Qed.
Lemma spared_app p h d : spared p (h ++ d) <-> spared p h /\ spared p d.
Proof. unfold spared. rewrite !not_elem_of_app. tauto. Qed.
Lemma quiet_done n h d : Forall (fun o => ~ about n o) d -> last_done n (h ++ d) = last_done n h.
Proof.
  rewrite last_done_app. generalize (last_done n h). induction d as [|o d IH]; intros x; [done|].
  intros [H1 H2]%Forall_cons. cbn. rewrite IH by done. destruct o; try done. cbn in H1. by rewrite decide_False.
Qed.
Lemma quiet_interest n h d : Forall (fun o => ~ about n o) d -> interest_of (PSock n) (h ++ d) = interest_of (PSock n) h.
Proof.
  rewrite interest_app. generalize (interest_of (PSock n) h). induction d as [|o d IH]; intros x; [done|].
  intros [H1 H2]%Forall_cons. cbn [fold_left]. rewrite IH by done. destruct o; try done; cbn in H1 |- *.
  - by rewrite decide_False.
  - destruct r; [|done]. by rewrite decide_False.
Qed.
Lemma quiet_not_in n o d : about n o -> Forall (fun o => ~ about n o) d -> o ∉ d.
Proof. intros H F Hin. rewrite Forall_forall in F. by apply (F _ Hin). Qed.
Lemma justified_quiet n h d :
  (forall e, Fed (PSock n) (Some e) ∉ d) -> all_justified n h -> all_justified n (h ++ d).
Proof.
  intros H J h1 e h2 E. destruct (app_eq_inv _ _ _ _ E) as [(k & -> & Ek)|(k & -> & Ek)].
  - destruct k as [|x k]; cbn in Ek; [|simplify_eq; by eapply J].
    destruct (H e). rewrite <- Ek. constructor.
  - destruct (H e). rewrite Ek. set_solver.
Qed.
Lemma justified_snoc n h e : all_justified n h -> justified n h e -> all_justified n (h ++ [Fed (PSock n) (Some e)]).
Proof.
  intros J N h1 e1 h2 E. destruct h2 as [|x h2 _] using rev_ind.
  - apply app_inj_tail in E as [-> E]. by simplify_eq.
  - rewrite app_comm_cons, app_assoc in E. apply app_inj_tail in E as [-> _]. by eapply J.
Qed.

(** A change of the packet that leaves the log as it is for this packet. *)
Lemma single_of (F : list op) c o x : length F + c + o <= 1 -> x ∈ F -> F = [x] /\ c = 0 /\ o = 0.
Proof.
  intros H Hx. destruct F as [|y [|z F]]; cbn in H; [by inversion Hx| |lia]. apply elem_of_list_singleton in Hx as ->.
  split; [done|]. lia.
Qed.

(** Logs without anything of the packet but [Fault], [Lost] and [Removed]. *)
Definition only_marks (n : nat) (d : list obs) : Prop :=
  Forall (fun o => ~ about n o \/ o = Fault (PSock n) \/ o = Lost (PSock n) \/ o = Removed (PSock n)) d.
Lemma marks_done n h d : only_marks n d -> last_done n (h ++ d) = last_done n h.
Proof.
  rewrite last_done_app. generalize (last_done n h). induction d as [|o d IH]; intros x; [done|].
  intros [H1 H2]%Forall_cons. cbn. rewrite IH by done. destruct o; try done. cbn in H1.
  rewrite decide_False; [done|]. intros ->. by destruct H1 as [?|[?|[?|?]]].
Qed.
Lemma marks_interest n h d : only_marks n d -> interest_of (PSock n) (h ++ d) = interest_of (PSock n) h.
Proof.
  rewrite interest_app. generalize (interest_of (PSock n) h). induction d as [|o d IH]; intros x; [done|].
  intros [H1 H2]%Forall_cons. cbn [fold_left]. rewrite IH by done. destruct o; try done; cbn in H1 |- *.
  - rewrite decide_False; [done|]. intros <-. by destruct H1 as [?|[?|[?|?]]].
  - destruct r; [|done]. rewrite decide_False; [done|]. intros <-. by destruct H1 as [?|[?|[?|?]]].
Qed.
Lemma marks_fed n d e : only_marks n d -> Fed (PSock n) (Some e) ∉ d.
Proof.
  intros F Hin. unfold only_marks in F. rewrite Forall_forall in F. specialize (F _ Hin). cbn in F.
  by destruct F as [?|[?|[?|?]]].
Qed.

Ltac marks := repeat first [apply Forall_app; split | apply Forall_cons; split | apply Forall_nil_2]; cbn; tauto.
Ltac peel := match goal with H : ainv _ _ _ _ _ _ |- _ => destruct H as [AS AO AC AP AD AI AN AR] end.

Lemma not_removed n d : only_marks n d -> (Removed (PSock n) ∈ d -> False) -> forall h, Removed (PSock n) ∈ h ++ d <-> Removed (PSock n) ∈ h.
Proof. intros _ H h. rewrite elem_of_app. tauto. Qed.

(** Cancellation of the request of a packet that polls. *)
Lemma ainv_cancel n k k0 F c o h out k' F' d f :
  ainv n k F c o h -> sk_status k = Polling f ->
  sk_status k0 = sk_status k -> sk_in_use k0 = sk_in_use k -> sk_iosb k0 = sk_iosb k -> sk_count k0 = sk_count k ->
  sk_events k0 = sk_events k -> sk_interest k0 = sk_interest k -> sk_error k0 = sk_error k -> sk_mode k0 = sk_mode k ->
  cancel_view n k0 F out = (k', F', d) ->
  forall d', only_marks n d' -> (sk_deleting k0 = true <-> Removed (PSock n) ∈ h ++ d') -> ainv n k' F' c o (h ++ d ++ d').
Proof.
  intros A S ES EU EB EC EE EI EEr EM H d' M' D. peel.
  assert (M : only_marks n d) by (unfold cancel_view in H; repeat case_match; simplify_eq; marks).
  assert (MM : only_marks n (d ++ d')) by by apply Forall_app.
  assert (RD : sk_deleting k0 = true <-> Removed (PSock n) ∈ h ++ d ++ d').
  { rewrite D, !elem_of_app. assert (Removed (PSock n) ∉ d); [|tauto].
    unfold cancel_view in H. repeat case_match; simplify_eq; rewrite ?elem_of_list_singleton; try done; apply not_elem_of_nil. }
  assert (L : length F' = length F) by (unfold cancel_view in H; repeat case_match; simplify_eq; cbn; rewrite ?map_length; done).
  unfold cancel_view in H. rewrite EB in H.
  assert (K : sk_iosb k <> BPending \/ F = [] ->
     (k', F', d) = (with_status k0 Cancelled, F, []) -> ainv n k' F' c o (h ++ d ++ d')).
  { intros HK [= -> -> ->]. split; cbn [with_status sk_interest sk_error sk_mode sk_status sk_deleting sk_in_use sk_iosb sk_count sk_events].
    - done.
    - intros x Hx. exfalso. destruct (AO _ Hx) as (_ & _ & B & _). destruct HK as [| ->]; [done|]. by apply not_elem_of_nil in Hx.
    - rewrite EU. done.
    - rewrite EU. done.
    - intros Hco. rewrite EB, EE, EC, marks_done by done. destruct (AD Hco) as (? & ? & ?). done.
    - intros [Sp _]%spared_app Z. destruct (AI Sp Z) as [X _]. congruence.
    - rewrite marks_interest, EI, EEr, EM by done. done.
    - done. }
  destruct (sk_iosb k) eqn:B; [|by apply K; [left|]..].
  destruct F as [|x F]; [apply K; [by right|done]|].
  assert (Hx : x ∈ x :: F) by constructor.
  destruct (single_of _ _ _ _ AS Hx) as (E1 & -> & ->). injection E1 as ->.
  destruct (AO _ Hx) as (P1 & P2 & P3 & P4 & P5 & P6). rewrite S in P6. destruct (op_cancel x) eqn:Ec; [done|].
  destruct out; simplify_eq.
  - split; rewrite ?ES, ?EU, ?EB, ?EE, ?EC, ?EI, ?EEr, ?EM, ?B; try done; try (cbn; lia).
    all: first [by rewrite marks_interest | intros y ->%elem_of_list_singleton; rewrite Ec, S; auto 10].
  - split; cbn [with_status sk_interest sk_error sk_mode sk_status sk_deleting sk_in_use sk_iosb sk_count sk_events];
      rewrite ?ES, ?EU, ?EB, ?EE, ?EC, ?EI, ?EEr, ?EM, ?B; try done; try (cbn; lia).
    all: first [by rewrite marks_interest
      | intros y ->%elem_of_list_singleton; unfold cancel_op; rewrite decide_True by done; cbn; auto 10].
Qed.

Lemma ainv_update n k F c o h out k' F' d :
  ainv n k F c o h -> update_view n k F out = (k', F', d) -> only_marks n d /\ ainv n k' F' c o (h ++ d).
Proof.
  intros A H. unfold update_view in H. destruct (sk_deleting k) eqn:Dl; [simplify_eq; rewrite app_nil_r; split; [marks|done]|].
  destruct (sk_status k) as [|f|] eqn:S; [|case_bool_decide|]; try (simplify_eq; rewrite app_nil_r; split; [marks|done]).
  - unfold poll_view in H. destruct (sk_in_use k) eqn:U.
    + simplify_eq. split; [marks|]. rewrite app_nil_r. peel. split; cbn; rewrite ?U; try done.
      * intros x Hx. exfalso. destruct (AO _ Hx) as (_ & _ & _ & _ & _ & X). rewrite S in X. by destruct (op_cancel x).
      * intros Ho. apply AP in Ho. congruence.
      * intros Z. destruct (AD Z) as (_ & X & _). done.
      * intros Sp Z. destruct (AI Sp Z). congruence.
    + assert (Z : F = [] /\ c = 0 /\ o = 0).
      { peel. assert (~ 0 < c + o) by (intros (_ & X & _)%AD; done). split; [|lia].
        destruct F as [|x F]; [done|]. assert (Hx : x ∈ x :: F) by constructor.
        destruct (AO _ Hx) as (_ & _ & _ & _ & _ & X). rewrite S in X. by destruct (op_cancel x). }
      destruct Z as (-> & -> & ->). destruct out as [e|]; simplify_eq.
      * split; [marks|]. assert (NS : ~ spared (PSock n) (h ++ [Fault (PSock n)])).
        { intros [X _]. destruct X. set_solver. }
        assert (M : only_marks n [Fault (PSock n)]) by marks.
        peel. split; try done; try (cbn; lia).
        -- by intros x ?%not_elem_of_nil.
        -- rewrite marks_interest by done. by destruct (bad_handle e).
        -- rewrite not_removed; [|done|set_solver]. by destruct (bad_handle e).
      * split; [marks|]. rewrite app_nil_r. peel. split; cbn; try done; try lia.
        intros x ->%elem_of_list_singleton. done.
  - assert (M : only_marks n d) by (unfold cancel_view in H; repeat case_match; simplify_eq; marks).
    split; [done|]. rewrite <- (app_nil_r d). eapply (ainv_cancel n k k); try done.
    + constructor.
    + rewrite app_nil_r. apply A.
Qed.
Lemma ainv_delete n k F c o h out k' F' d :
  ainv n k F c o h -> delete_view n k F out = (k', F', d) ->
  only_marks n (d ++ [Removed (PSock n)]) /\ ainv n k' F' c o (h ++ d ++ [Removed (PSock n)]).
Proof.
  intros A H. unfold delete_view in H.
  assert (MR : only_marks n [Removed (PSock n)]) by marks.
  assert (KK : forall k1, (k', F', d) = (k1, F, []) -> (k1 = k /\ sk_deleting k = true \/ k1 = with_deleting k) ->
     only_marks n (d ++ [Removed (PSock n)]) /\ ainv n k' F' c o (h ++ d ++ [Removed (PSock n)])).
  { intros k1 [= -> -> ->] Hk. split; [marks|]. cbn [app].
    assert (D1 : sk_deleting k1 = true) by (destruct Hk as [[-> ?]| ->]; done).
    assert (E1 : sk_status k1 = sk_status k /\ sk_in_use k1 = sk_in_use k /\ sk_iosb k1 = sk_iosb k /\ sk_count k1 = sk_count k
      /\ sk_events k1 = sk_events k /\ sk_interest k1 = sk_interest k /\ sk_error k1 = sk_error k /\ sk_mode k1 = sk_mode k)
      by (destruct Hk as [[-> ?]| ->]; done).
    destruct E1 as (E1 & E2 & E3 & E4 & E5 & E6 & E7 & E8). peel.
    split; rewrite ?E1, ?E2, ?E3, ?E4, ?E5, ?E6, ?E7, ?E8; try done.
    - rewrite marks_done by done. done.
    - intros [Sp _]%spared_app. by apply AI.
    - by rewrite marks_interest.
    - rewrite D1. set_solver. }
  destruct (sk_deleting k) eqn:Dl; [eapply KK; [done|auto]|].
  destruct (sk_status k) as [|f|] eqn:S; try (eapply KK; [done|auto]).
  split. { apply Forall_app. split; [|done]. unfold cancel_view in H; repeat case_match; simplify_eq; marks. }
  eapply (ainv_cancel n k (with_deleting k)); try done. cbn. set_solver.
Qed.

Lemma feed_shape k k' r :
  feed_sock k = FResult k' r \/ (r = None /\ (feed_sock k = FClosed k' \/ feed_sock k = FDeleting k')) ->
  sk_status k' = Idle /\ sk_in_use k' = sk_in_use k /\ sk_iosb k' = sk_iosb k /\ sk_deleting k' = sk_deleting k
  /\ sk_events k' = sk_events k /\ sk_mode k' = sk_mode k
  /\ (r = None -> sk_interest k' = sk_interest k /\ sk_error k' = sk_error k)
  /\ (forall e, r = Some e -> sk_deleting k = false /\
        match sk_mode k with
        | Oneshot => sk_interest k' = Ev (ev_key (sk_interest k)) false false 0%N /\ sk_error k' = false
        | _ => sk_interest k' = sk_interest k /\ sk_error k' = sk_error k
        end).
Proof.
  intros H. unfold feed_sock in H. destruct (sk_deleting k) eqn:D.
  { destruct H as [|[-> [|]]]; simplify_eq. cbn; rewrite ?D; split_and!; done. }
  destruct (reported k) as [[[r0 w0] fl]|] eqn:R.
  2:{ destruct H as [|[-> [|]]]; simplify_eq. cbn; rewrite ?D; split_and!; done. }
  case_match eqn:C; destruct H as [H|[-> [|]]]; simplify_eq; cbn; rewrite ?D.
  - split_and!; try done; try (by destruct (sk_mode k)). by destruct (sk_mode k) eqn:Em.
  - split_and!; done.
Qed.
Lemma feed_justified n k F c o h k' e :
  ainv n k F c (S o) h -> feed_sock k = FResult k' (Some e) -> justified n h e.
Proof.
  intros A H. peel. unfold feed_sock in H. destruct (sk_deleting k) eqn:D; [done|].
  destruct (AD ltac:(lia)) as (B1 & B2 & B3).
  destruct (reported k) as [[[r0 w0] fl]|] eqn:R; [|done]. case_match eqn:C; simplify_eq.
  exists (sk_interest k), (sk_error k), (sk_mode k), (sk_iosb k), (flags_of (sk_count k) (sk_events k)).
  split; [done|]. split; [done|]. split; [rewrite <- AR; done|]. split; [done|]. cbn.
  assert (X : (r0 = true -> sk_iosb k = BError \/ sk_iosb k = BDone /\ (afd_mask_to_event (flags_of (sk_count k) (sk_events k))).1 = true)
    /\ (w0 = true -> sk_iosb k = BError \/ sk_iosb k = BDone /\ (afd_mask_to_event (flags_of (sk_count k) (sk_events k))).2 = true)
    /\ (fl = 0%N \/ sk_iosb k = BDone /\ fl = flags_of (sk_count k) (sk_events k))).
  { unfold reported in R. unfold flags_of. destruct (sk_iosb k); simplify_eq; auto. case_decide; simplify_eq; auto.
    case_match; simplify_eq. destruct (afd_mask_to_event (sk_events k)). simplify_eq. cbn. auto. }
  destruct X as (X1 & X2 & X3). split; [|split; [|split]].
  - intros [? ?]%andb_true_iff. auto.
  - intros [? ?]%andb_true_iff. auto.
  - done.
  - done.
Qed.

Lemma vinv_step n v d v' h : vinv n v h -> vstep n v d v' -> vinv n v' (h ++ d).
Proof.
  intros [J A] H. destruct H.
  - (* quiet *)
    split. { apply justified_quiet; [|done]. intros e. by apply (quiet_not_in n). }
    destruct (v_k v) as [k|]; [|destruct A as (? & ? & ? & ?); split_and!; try done; by apply Forall_app].
    peel. split; rewrite ?quiet_done, ?quiet_interest by done; try done.
    + intros [Sp _]%spared_app. by apply AI.
    + rewrite elem_of_app. assert (Removed (PSock n) ∉ d) by (by apply (quiet_not_in n)). tauto.
  - (* lost *)
    assert (M : only_marks n [Lost (PSock n)]) by marks.
    split. { apply justified_quiet; [|done]. intros e. by apply marks_fed. }
    cbn in *. peel. split; rewrite ?marks_done, ?marks_interest by done; try done.
    + intros [Sp _]%spared_app. by apply AI.
    + rewrite not_removed; [done|done|set_solver].
  - (* new *)
    split. { apply justified_quiet; [|done]. intros x1. set_solver. }
    cbn in A. destruct A as (_ & _ & _ & Q). cbn. split; cbn; try done; try lia.
    + by intros x1 ?%not_elem_of_nil.
    + rewrite interest_app. cbn. by rewrite decide_True.
    + split; [done|]. rewrite elem_of_app. intros [X|X]; [|set_solver]. by apply (quiet_not_in n (Removed (PSock n)) h) in Q.
  - split. { apply justified_quiet; [|done]. intros x. set_solver. }
    cbn in *. peel. split; cbn; try done.
    + rewrite last_done_app. cbn. done.
    + intros [Sp _]%spared_app. by apply AI.
    + rewrite interest_app. cbn. by rewrite decide_True.
    + rewrite elem_of_app. set_solver.
  - cbn in *. destruct (ainv_update _ _ _ _ _ _ _ _ _ _ A H) as [M A']. split; [|done].
    apply justified_quiet; [|done]. intros e. by apply marks_fed.
  - cbn in *. destruct (ainv_delete _ _ _ _ _ _ _ _ _ _ A H) as [M A']. split; [|done].
    apply justified_quiet; [|done]. intros e'. by apply marks_fed.
  - (* done *)
    split. { apply justified_quiet; [|done]. intros y. set_solver. }
    cbn in *. peel. destruct (single_of _ _ _ _ AS (elem_of_list_lookup_2 _ _ _ H)) as (-> & -> & ->).
    assert (i = 0) as -> by (destruct i; [done|by destruct i]). cbn.
    destruct (AO x ltac:(constructor)) as (P1 & P2 & P3 & P4 & P5 & P6).
    split; cbn; try done; try lia.
    + by intros y ?%not_elem_of_nil.
    + intros _. split; [done|]. split; [rewrite P6; by destruct (op_cancel x)|]. rewrite last_done_app. cbn. by rewrite decide_True.
    + rewrite interest_app. done.
    + rewrite elem_of_app. set_solver.
  - (* open *)
    rewrite app_nil_r. split; [done|]. cbn in *. peel. assert (F = [] /\ c = 0 /\ o = 0) as (-> & -> & ->).
    { destruct F; cbn in AS; [|lia]. split; [done|lia]. }
    split; cbn; try done; try lia.
    + by intros y ?%not_elem_of_nil.
  - (* feed *)
    cbn in *. pose proof (feed_shape _ _ _ H) as (S1 & S2 & S3 & S4 & S5 & S6 & S7 & S8).
    split.
    { destruct r as [e|].
      - apply justified_snoc; [done|]. destruct H as [H|[H _]]; [|done]. by eapply feed_justified.
      - apply justified_quiet; [|done]. intros e. set_solver. }
    peel. assert (F = [] /\ c = 0 /\ o = 0) as (-> & -> & ->).
    { destruct F; cbn in AS; [|lia]. split; [done|lia]. }
    split; cbn; try done; try lia.
    + by intros y ?%not_elem_of_nil.
    + intros _ _. split; [done|]. rewrite S2. apply AP. lia.
    + rewrite interest_app, AN. cbn. destruct r as [e|].
      * rewrite decide_True by done. destruct (S8 e eq_refl) as [_ X]. rewrite S6. by destruct (sk_mode k); destruct X as [-> ->].
      * destruct S7 as [-> ->]; [done|]. by rewrite S6.
    + rewrite S4, elem_of_app. set_solver.
  - (* discard *)
    assert (M : only_marks n [Lost (PSock n)]) by marks.
    split. { apply justified_quiet; [|done]. intros e. by apply marks_fed. }
    cbn in *. peel. assert (F = [] /\ c = 0 /\ o = 0) as (-> & -> & ->).
    { destruct F; cbn in AS; [|lia]. split; [done|lia]. }
    split; cbn; try done; try lia.
    + by intros y ?%not_elem_of_nil.
    + intros [_ [_ Sp]]%spared_app. exfalso. apply Sp. constructor.
    + by rewrite marks_interest.
    + rewrite not_removed; [done|done|set_solver].
Qed.

Lemma vinv_steps n v d v' h : vinv n v h -> vsteps n v d v' -> vinv n v' (h ++ d).
Proof.
  intros I H. induction H as [|v d v1 d' v2 H IH X]; [by rewrite app_nil_r|]. rewrite app_assoc.
  eapply vinv_step; [by apply IH|done].
Qed.
Lemma vinv_reach c s n : reachable c s -> vinv n (view_of n s) (log s).
Proof.
  induction 1 as [i|s l s' Hr IH L H].
  - split; [intros h1 e h2; by destruct h1|]. cbn. done.
  - destruct (refines_step n c s l s' (tinv_reach _ _ Hr) L H) as (d & -> & V). by eapply vinv_steps.
Qed.
Lemma ainv_reach c s n k :
  reachable c s -> socks (pmem s) !! n = Some k ->
  ainv n k (mine n (ops (sys s))) (occ (PSock n) (queue (sys s)) + occ (PSock n) (batch (waiter s)))
    (occ (PSock n) (opened (waiter s))) (log s).
Proof. intros Hr Hk. destruct (vinv_reach c s n Hr) as [_ A]. cbn in A. by rewrite Hk in A. Qed.

(** While a request is in flight its buffer does not change. *)
Definition buffer (k : sock) : iosb * nat * N := (sk_iosb k, sk_count k, sk_events k).
Lemma vstep_buffer n v d v' h k :
  vinv n v h -> vstep n v d v' -> (forall b e, Done n b e ∉ d) -> v_k v = Some k -> v_ops v <> [] ->
  exists k', v_k v' = Some k' /\ buffer k' = buffer k /\ v_ops v' <> [].
Proof.
  intros [_ A] H ND Hk Ho. rewrite Hk in A.
  destruct H; cbn [v_k v_ops v_c v_o] in *; simplify_eq; try by eexists.
  - destruct F as [|x F]; [done|]. assert (Hx : x ∈ x :: F) by constructor.
    destruct (a_ops _ _ _ _ _ _ A _ Hx) as (P1 & P2 & P3 & P4 & P5 & P6).
    unfold update_view, poll_view, cancel_view in H. rewrite P6 in H. exists k'.
    destruct (op_cancel x); repeat case_match; simplify_eq; done.
  - destruct F as [|x F]; [done|]. assert (Hx : x ∈ x :: F) by constructor.
    destruct (a_ops _ _ _ _ _ _ A _ Hx) as (P1 & P2 & P3 & P4 & P5 & P6).
    unfold delete_view, cancel_view in H. rewrite P6 in H. exists k'.
    destruct (op_cancel x); repeat case_match; simplify_eq; done.
  - destruct (ND b (flags_of j e)). constructor.
  - pose proof (a_sum _ _ _ _ _ _ A). destruct F; cbn in *; [done|lia].
Qed.
Lemma vsteps_buffer n v d v' h k :
  vinv n v h -> vsteps n v d v' -> (forall b e, Done n b e ∉ d) -> v_k v = Some k -> v_ops v <> [] ->
  exists k', v_k v' = Some k' /\ buffer k' = buffer k /\ v_ops v' <> [].
Proof.
  intros I H ND Hk Ho. induction H as [|v d v1 d' v2 H IH X]; [by exists k|].
  destruct IH as (k1 & E1 & B1 & O1); try done.
  { intros b e Hb. apply (ND b e). set_solver. }
  destruct (vstep_buffer n v1 d' v2 (h ++ d) k1) as (k2 & ? & ? & ?); try done.
  { by eapply vinv_steps. }
  { intros b e Hb. apply (ND b e). set_solver. }
  exists k2. split; [done|]. split; [congruence|done].
Qed.
