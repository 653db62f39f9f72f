(** The calls under way come to an end. *)
From stdpp Require Import prelude list.
From Verif Require Import Pool NotifyModel NotifySpec NotifyProofs.

(** An upper bound of the number of steps a thread has to make. *)
Definition todo (p : pc) : nat :=
  match p with
  | Idle => 0 | NCas => 4 | NSys => 3 | NDone => 1 | NFail => 1
  | WTry => 8 | WPre => 7 | WKern => 6 | WClear => 5 | WRearm => 4 | WSwap => 3 | WRet => 2 | WErr => 1
  end.
Notation work := (sumw todo).
Lemma work_le l : work l <= 8 * length l.
Proof. induction l as [|p l IH]; cbn; [lia|]. assert (todo p <= 8) by (destruct p; cbn; lia). lia. Qed.

Lemma proceeds_less c s i a s' : wf_config c -> proceeds a -> step c s (i, a) = Some s' -> work (threads s') + tokens s' < work (threads s) + tokens s.
Proof.
  intros [_ Hrd] P H. remember (i, a) as l eqn:El. step_cases H as Hp;
    try (destruct P as [P|[? P]]; discriminate P);
    try (destruct P as [P|[k P]]; [discriminate P|injection P as P]; try discriminate P);
    try match goal with |- context [work (<[?i := ?p]> ?l)] => pose proof (sumw_insert todo l i _ p Hp) as W; cbn [todo] in W end; cbn; try lia.
  all: try (injection P as P; lia).
Qed.
Lemma going_threads c k s s' : going_on c k s s' -> length (threads s') = length (threads s).
Proof.
  induction 1 as [|k s1 s i a s2 G IH P H]; [done|]. rewrite <- IH. clear IH G. remember (i, a) as l eqn:El. step_cases H as Hp; rewrite ?insert_length; done.
Qed.
Lemma going_bound c k s s' : wf_config c -> going_on c k s s' -> k + work (threads s') + tokens s' <= work (threads s) + tokens s.
Proof.
  intros W. induction 1 as [|k s1 s i a s2 G IH P H]; [lia|]. pose proof (proceeds_less c s i a s2 W P H). lia.
Qed.
Lemma going_reach c k s s' : going_on c k s s' -> reachable_ok c s -> reachable_ok c s'.
Proof.
  intros G R. induction G as [|k s1 s i a s2 G IH P H]; [done|]. specialize (IH R). eapply reach_ok_step; [exact IH|exact H|].
  intros (e & E & _). cbn in E. destruct P as [->|[n ->]]; discriminate E.
Qed.

(** The pipe does not fill up. *)
Definition rearming (p : pc) : bool := match p with WRearm | WSwap => true | _ => false end.
Lemma cnt_apart {A} (f g : A -> bool) l : (forall x, f x = true -> g x = false) -> cnt f l + cnt g l <= length l.
Proof.
  intros H. induction l as [|y l IH]; cbn; [lia|]. specialize (H y). destruct (f y); cbn; [rewrite H by done; cbn; lia|]. destruct (g y); cbn; lia.
Qed.
Lemma pipe_bound c s : kind_of c = EpollPipe -> reachable c s ->
  tokens s + cnt is_nsys (threads s) + b2n (negb (flag s)) + cnt rearming (threads s) <= length (threads s) + 1.
Proof.
  intros K. induction 1 as [n|s l s' Hr IH Hs].
  - cbn. rewrite !cnt_replicate. cbn. lia.
  - pose proof (cnt_apart is_nsys holds (threads s) ltac:(by intros [])) as D.
    step_cases Hs as Hp; try congruence; rewrite ?insert_length; counts Hp;
      repeat match goal with H : flag s = _ |- _ => rewrite H in *; clear H end; cbn in *; try lia.
    + by rewrite K in Heqb.
    + assert (cnt rearming (threads s) = 0).
      { apply cnt_zero. intros j q Hq. destruct (rearming q) eqn:Q; [|done]. exfalso. destruct (decide (n = j)) as [->|N]; [rewrite Hp in Hq; by simplify_eq/=|].
        apply N. eapply (unique_holder c s n j _ _ Hr Hp Hq); [done|by destruct q]. }
      pose proof (cnt_lookup holds _ _ _ Hp eq_refl). destruct (flag s); cbn in *; lia.
Qed.

(** Where nothing goes on. *)
Lemma rest_pcs c s : wf_config c -> reachable c s -> (kind_of c = EpollPipe -> length (threads s) < pipe_cap c) -> at_rest c s ->
  forall i p, threads s !! i = Some p -> p = Idle \/ (p = WKern /\ kernel_ready (kind_of c) s = false).
Proof.
  intros W R B A i p Hp. assert (G : forall s', step c s (i, Go) <> Some s') by (intros s'; apply A; by left).
  unfold step in G. rewrite Hp in G.
  destruct p; try (by left); try (exfalso; by eapply G); try (exfalso; destruct (flag s); by eapply G); try (exfalso; destruct (lock s); by eapply G).
  - exfalso. unfold kick in G. destruct (kind_of c) eqn:K; try (by eapply G).
    + rewrite decide_True in G; [by eapply G|]. specialize (B eq_refl). pose proof (pipe_bound c s K R) as X.
      pose proof (cnt_lookup is_nsys _ _ _ Hp eq_refl). lia.
    + case_decide; by eapply G.
  - right. split; [done|]. destruct (kernel_ready (kind_of c) s) eqn:K; [|done]. exfalso.
    destruct (ready_returns c s i K Hp) as (s' & H & _). eapply A; [|exact H]. right. by exists 0.
  - exfalso. destruct (kind_of c); try (by eapply G); case_decide; by eapply G.
Qed.

(** A run can be continued until nothing goes on. *)
Lemma enabled_dec c s : at_rest c s \/ exists i a s', proceeds a /\ step c s (i, a) = Some s'.
Proof.
  assert (X : forall i, (exists a s', proceeds a /\ step c s (i, a) = Some s') \/ forall a s', proceeds a -> step c s (i, a) <> Some s').
  { intros i. destruct (threads s !! i) as [p|] eqn:Hp; [|right; intros a s' _; cbn; by rewrite Hp].
    destruct (step c s (i, Go)) as [s'|] eqn:G; [left; exists Go, s'; split; [by left|done]|].
    destruct (step c s (i, KRet 1)) as [s'|] eqn:K; [left; exists (KRet 1), s'; split; [right; by exists 0|done]|].
    right. intros a s' [->|[n ->]]; [by rewrite G|]. intros H. clear G. cbn in K, H. rewrite Hp in K, H. destruct p; try discriminate H.
    unfold kernel_return in K, H. destruct (kernel_ready (kind_of c) s) eqn:R; [|discriminate H].
    assert (0 < tokens s) by (unfold kernel_ready in R; apply andb_prop in R as [R _]; by apply bool_decide_eq_true in R).
    destruct (kind_of c); rewrite (decide_True) in K by lia; discriminate K. }
  assert (Y : forall m, (exists i a s', proceeds a /\ step c s (i, a) = Some s') \/ forall i a s', i < m -> proceeds a -> step c s (i, a) <> Some s').
  { induction m as [|m [IH|IH]]; [right; intros; lia|by left|]. destruct (X m) as [(a & s' & H)|H]; [left; by exists m, a, s'|].
    right. intros i a s' L. destruct (decide (i = m)) as [->|]; [apply H|]. apply IH. lia. }
  destruct (Y (length (threads s))) as [H|H]; [by right|]. left. intros i a s' P E. destruct (decide (i < length (threads s))) as [L|L]; [by eapply H|].
  unfold step in E. rewrite lookup_ge_None_2 in E by lia. discriminate E.
Qed.
Lemma going_trans c j k s1 s2 s3 : going_on c j s1 s2 -> going_on c k s2 s3 -> going_on c (j + k) s1 s3.
Proof.
  intros H G. induction G as [|k s2 s i a s3 G IH P E]; [by rewrite Nat.add_0_r|]. rewrite Nat.add_succ_r. eapply going_step; [by apply IH|exact P|exact E].
Qed.
Lemma comes_to_rest c s : wf_config c -> exists k s', going_on c k s s' /\ at_rest c s'.
Proof.
  intros W. remember (work (threads s) + tokens s) as m eqn:M. revert s M. induction (lt_wf m) as [m _ IH]; intros s ->.
  destruct (enabled_dec c s) as [A|(i & a & s1 & P & E)]; [exists 0, s; split; [constructor|done]|].
  destruct (IH _ (proceeds_less c s i a s1 W P E) s1 eq_refl) as (k & s' & G & A). exists (1 + k), s'. split; [|done].
  eapply going_trans; [|exact G]. eapply going_step; [constructor|exact P|exact E].
Qed.

(** The wait that was owed a notification. *)
Definition on_the_way (p : pc) : Prop := p = WKern \/ p = WClear \/ p = WRearm \/ p = WSwap \/ p = WRet.
Lemma owed_more h h' : owed h -> (forall j, WaitOk j ∉ h') -> owed (h ++ h').
Proof.
  intros (h1 & i & h2 & h3 & -> & N & W) H. exists h1, i, h2, (h3 ++ h'). split; [by rewrite <- !(assoc_L (++))|]. split; [done|].
  intros j. rewrite !elem_of_app. intros [X|[X|X]]; [apply (W j), elem_of_app; by left|apply (W j), elem_of_app; by right|by apply (H j)].
Qed.
Lemma goes_through c k s s' i : reachable c s -> blocked_in_kernel s i -> going_on c k s s' ->
  exists h, log s' = log s ++ h /\ (WaitOk i ∈ h \/ ((forall j, WaitOk j ∉ h) /\ exists p, threads s' !! i = Some p /\ on_the_way p)).
Proof.
  intros R B G. assert (Rs : forall k s', going_on c k s s' -> reachable c s').
  { intros k0 s0 G0. induction G0 as [|k0 s1 s0 j a s2 G0 IH P E]; [done|]. eapply reach_step; [by apply IH|exact E]. }
  induction G as [|k s1 s i' a s2 G IH P E].
  - exists []. rewrite app_nil_r. split; [done|]. right. split; [intros j; apply not_elem_of_nil|]. exists WKern. split; [done|by left].
  - destruct (IH R B Rs) as (h & L & X). clear IH. specialize (Rs _ _ G).
    assert (L2 : exists o, log s2 = log s ++ o /\ (o = [] \/ exists x, o = [x] /\ forall j, x = WaitOk j -> threads s !! j = Some WRet /\ j = i')).
    { clear X L. remember (i', a) as l eqn:El. step_cases E as Hp; try (exists []; rewrite app_nil_r; split; [done|by left]); (eexists [_]; split; [done|right; eexists; split; [done|]]; intros j [= ->]; done). }
    destruct L2 as (o & L2 & O). exists (h ++ o). rewrite L2, L, (assoc_L (++)). split; [done|].
    destruct X as [X|(X & p & Hp & Q)]; [left; apply elem_of_app; by left|].
    assert (Z : (exists j, WaitOk j ∈ o) -> WaitOk i ∈ h ++ o /\ i' = i).
    { intros [j Hj]. destruct O as [->|(x & -> & O)]; [by apply not_elem_of_nil in Hj|]. apply elem_of_list_singleton in Hj. symmetry in Hj.
      destruct (O j Hj) as [H1 ->]. assert (i' = i) as -> by (eapply (unique_holder c s _ i _ p Rs H1 Hp); [done|destruct Q as [->|[->|[->|[->| ->]]]]; done]).
      split; [|done]. apply elem_of_app. right. rewrite Hj. by left. }
    destruct (decide (i' = i)) as [->|N].
    + destruct O as [->|(x & -> & O)].
      * right. split; [intros j; rewrite app_nil_r; apply X|]. clear Z.
        destruct (threads s2 !! i) as [q|] eqn:Hq; [|exfalso; pose proof (going_threads c _ _ _ (going_step c 0 s s i a s2 (going_none c s) P E)) as T;
          apply lookup_ge_None in Hq; apply lookup_lt_Some in Hp; lia].
        exists q. split; [done|]. rewrite app_nil_r in L2. clear L X.
        remember (i, a) as l eqn:El. unfold on_the_way in *. step_cases E as Hr; simplify_eq/=; try (rewrite (lookup_upd _ _ _ _ _ Hr), decide_True in Hq by done; simplify_eq/=); try tauto.
        all: try (exfalso; destruct Q as [Q|[Q|[Q|[Q|Q]]]]; discriminate Q).
        all: try (exfalso; destruct P as [P|[? P]]; discriminate P).
        exfalso. apply (f_equal length) in L2. rewrite app_length in L2. cbn in L2. lia.
      * left. enough (x = WaitOk i) as -> by (apply elem_of_app; right; by left).
        clear Z L O. remember (i, a) as l eqn:El.
        assert (T : log s2 <> log s) by (rewrite L2; intros T; apply (f_equal length) in T; rewrite app_length in T; cbn in T; lia).
        step_cases E as Hr; simplify_eq/=; try done; try (exfalso; destruct Q as [Q|[Q|[Q|[Q|Q]]]]; discriminate Q).
    + right. split.
      * intros j. rewrite elem_of_app. intros [H|H]; [by apply (X j)|]. destruct Z as [_ ->]; [by exists j|done].
      * exists p. split; [|done]. clear Z O L2. remember (i', a) as l eqn:El. step_cases E as Hq; rewrite ?(lookup_upd _ _ _ _ _ Hq), ?decide_False by done; done.
Qed.

Lemma notified_wait_returns c s i k s' : wf_config c -> reachable_ok c s -> (kind_of c = EpollPipe -> length (threads s) < pipe_cap c) ->
  owed (log s) -> blocked_in_kernel s i -> going_on c k s s' -> at_rest c s' -> exists h, log s' = log s ++ h /\ WaitOk i ∈ h.
Proof.
  intros W R C O B G A. pose proof (reachable_ok_reachable _ _ R) as R0.
  destruct (goes_through c k s s' i R0 B G) as (h & L & [H|(N & p & Hp & Q)]); [by exists h|]. exfalso.
  pose proof (going_reach _ _ _ _ G R) as R'. pose proof (reachable_ok_reachable _ _ R') as R1.
  assert (C' : kind_of c = EpollPipe -> length (threads s') < pipe_cap c) by (rewrite (going_threads _ _ _ _ G); exact C).
  destruct (rest_pcs c s' W R1 C' A i p Hp) as [->|[-> K]].
  - by destruct Q as [Q|[Q|[Q|[Q|Q]]]].
  - destruct (not_lost c s' i W R') as [K'|(j & J)]; [rewrite L; by apply owed_more|done|congruence|].
    destruct (rest_pcs c s' W R1 C' A j NSys J) as [?|[? _]]; done.
Qed.
