(** Proofs about [NotifyModel]. *)
From stdpp Require Import prelude list.
From Verif Require Import Pool NotifyModel NotifySpec.

Definition holds (p : pc) : bool :=
  match p with WPre | WKern | WClear | WRearm | WSwap | WRet | WErr => true | _ => false end.
Definition is_nsys (p : pc) : bool := match p with NSys => true | _ => false end.
Definition is_wret (p : pc) : bool := match p with WRet => true | _ => false end.
Definition consuming (p : pc) : bool :=
  match p with WClear | WRearm | WSwap => true | _ => false end.
Definition unarmed (p : pc) : bool := match p with WClear | WRearm => true | _ => false end.
Definition post_cas (p : pc) : bool := match p with NSys | NDone => true | _ => false end.

Lemma holds_waiting p : holds p = true <-> waiting p.
Proof.
  unfold waiting. destruct p; simpl; split; intros H; try done; try (by tauto); naive_solver.
Qed.

Definition n_lock (s : state) : nat := match lock s with Some _ => 1 | None => 0 end.

(** Split [step] into its cases. *)
Tactic Notation "step_cases" hyp(H) "as" ident(Hp) :=
  unfold step in H;
  match type of H with
  | context [let (i, a) := ?l in _] => destruct l as [? ?]
  end;
  let q := fresh "q" in
  match type of H with
  | context [match ?ts !! ?i with _ => _ end] =>
      destruct (ts !! i) as [q|] eqn:Hp; [|discriminate H]
  end;
  match type of H with
  | context [match q with _ => _ end] => destruct q
  end;
  match goal with a : act |- _ => destruct a; try discriminate H end;
  unfold after_kernel, kernel_return, kick in H;
  repeat match type of H with
  | context [match ?x with _ => _ end] =>
      lazymatch x with
      | context [match _ with _ => _ end] => fail
      | _ => destruct x eqn:?; try discriminate H
      end
  end;
  simplify_eq/=.

Ltac counts Hp :=
  repeat match goal with
  | |- context [cnt ?f (<[?i:=?p]> ?l)] =>
      lazymatch goal with
      | _ : cnt f (<[i:=p]> l) + _ = _ |- _ => fail
      | _ => pose proof (cnt_insert f l i _ p Hp)
      end
  end; simpl in *.

Lemma mutex_inv c s : reachable c s -> cnt holds (threads s) = n_lock s.
Proof.
  induction 1 as [n|s l s' Hr IH Hs].
  - simpl. rewrite cnt_replicate. simpl. unfold n_lock. simpl. lia.
  - unfold n_lock in *. step_cases Hs as Hp; counts Hp; try lia.
    all: destruct (lock s); simplify_eq; lia.
Qed.

Lemma unique_holder c s i j p q :
  reachable c s -> threads s !! i = Some p -> threads s !! j = Some q ->
  holds p = true -> holds q = true -> i = j.
Proof.
  intros Hr Hi Hj Hp Hq. destruct (decide (i = j)) as [|Hne]; [done|].
  pose proof (cnt_two holds _ i j p q Hi Hj Hp Hq Hne).
  rewrite (mutex_inv c s Hr) in H. unfold n_lock in H. destruct (lock s); lia.
Qed.

Lemma reachable_ok_reachable c s : reachable_ok c s -> reachable c s.
Proof. induction 1; econstructor; eauto. Qed.

Lemma contended c s i j p l s' :
  reachable c s -> threads s !! j = Some p -> waiting p -> threads s !! i = Some WTry ->
  l.1 = i -> step c s l = Some s' ->
  s' = emit (set_pc s i Idle) (WaitContended i).
Proof.
  intros Hr Hj Hw Hi Hl Hs. apply holds_waiting in Hw.
  assert (Hlk : lock s <> None).
  { intros E. pose proof (mutex_inv c s Hr) as H. unfold n_lock in H. rewrite E in H.
    pose proof (cnt_lookup holds _ j p Hj Hw). lia. }
  destruct l as [i' a]. simpl in Hl. subst i'. unfold step in Hs. rewrite Hi in Hs.
  destruct a; try done. destruct (lock s); [|done]. congruence.
Qed.

(** *** Logs *)
Definition fresh_in (h : list obs) (i : nat) : Prop :=
  exists h1 h2, h = h1 ++ [NotifyCall i] ++ h2 /\ NotifyCall i ∉ h2 /\ (forall j, WaitOk j ∉ h2).

Lemma app_snoc_inv {A} (h : list A) x a b :
  h ++ [x] = a ++ b -> b = [] \/ exists b', b = b' ++ [x] /\ h = a ++ b'.
Proof.
  intros H. destruct b as [|y b' _] using rev_ind; [by left|]. right. exists b'.
  rewrite (assoc_L (++)) in H. apply app_inj_tail in H as [-> ->]. done.
Qed.

Lemma fresh_snoc h x i :
  fresh_in (h ++ [x]) i -> x = NotifyCall i \/ (fresh_in h i /\ (forall j, x <> WaitOk j)).
Proof.
  intros (h1 & h2 & E & Hn & Hw).
  destruct h2 as [|y h2 _] using rev_ind.
  - rewrite app_nil_r in E. apply app_inj_tail in E as [_ ->]. by left.
  - right. rewrite !(assoc_L (++)) in E. apply app_inj_tail in E as [-> ->]. split.
    + exists h1, h2. rewrite (assoc_L (++)). split; [done|]. split; [set_solver|].
      intros j. specialize (Hw j). set_solver.
    + intros j ->. specialize (Hw j). set_solver.
Qed.

Lemma owed_snoc h x :
  owed (h ++ [x]) ->
  (forall j, x <> WaitOk j) /\ (owed h \/ exists i, x = NotifyOk i /\ fresh_in h i).
Proof.
  intros (h1 & i & h2 & h3 & E & Hn & Hw).
  destruct h3 as [|y h3 _] using rev_ind.
  - rewrite app_nil_r in E. rewrite !(assoc_L (++)) in E. apply app_inj_tail in E as [-> ->].
    split; [done|]. right. exists i. split; [done|]. exists h1, h2.
    rewrite (assoc_L (++)). split; [done|]. split; [done|].
    intros j. specialize (Hw j). set_solver.
  - rewrite !(assoc_L (++)) in E. apply app_inj_tail in E as [-> ->]. split.
    + intros j ->. specialize (Hw j). set_solver.
    + left. exists h1, i, h2, h3. rewrite !(assoc_L (++)). split; [done|]. split; [done|].
      intros j. specialize (Hw j). set_solver.
Qed.

Record inv (c : config) (s : state) : Prop := Inv {
  inv_armed : needs_rearm (kind_of c) = true -> armed s = false -> 0 < cnt unarmed (threads s);
  inv_flag : flag s = true ->
    0 < tokens s \/ 0 < cnt is_nsys (threads s) \/ 0 < cnt consuming (threads s);
  inv_fresh : forall i p, threads s !! i = Some p -> post_cas p = true -> fresh_in (log s) i ->
    flag s = true \/ 0 < cnt is_wret (threads s);
  inv_owed : owed (log s) -> flag s = true \/ 0 < cnt is_wret (threads s);
  inv_mutex : cnt holds (threads s) <= 1
}.

Lemma owed_nil : ~ owed [].
Proof. intros (h1 & i & h2 & h3 & E & _). destruct h1; done. Qed.

Lemma wret_unique c s i p :
  inv c s -> threads s !! i = Some p -> holds p = true -> p <> WRet ->
  cnt is_wret (threads s) = 0.
Proof.
  intros Hi Hp Hh Hne. apply cnt_zero. intros j q Hq. destruct q; try done. exfalso.
  destruct (decide (i = j)) as [->|Hij]; [congruence|].
  pose proof (cnt_two holds _ i j p WRet Hp Hq Hh eq_refl Hij). destruct Hi. lia.
Qed.

Lemma inv_ok c s : wf_config c -> reachable_ok c s -> inv c s.
Proof.
  intros [Hcap Hrd]. induction 1 as [n|s l s' Hr IH Hs Hh].
  - constructor; simpl; try done.
    + intros i p Hp Hc. apply lookup_replicate in Hp as [-> _]. done.
    + intros H. destruct (owed_nil H).
    + rewrite cnt_replicate. simpl. lia.
  - assert (Hmx : cnt holds (threads s') <= 1).
    { rewrite (mutex_inv c s').
      - unfold n_lock. destruct (lock s'); lia.
      - apply reachable_ok_reachable. econstructor; eauto. }
    destruct IH as [Ha Hf Hfr Ho Hm].
    constructor; [| | | |exact Hmx]; clear Hmx.
    + (* armed *)
      step_cases Hs as Hp; intros; counts Hp; simplify_eq/=;
        repeat match goal with H : ?a = true -> _, H' : ?a = true |- _ => specialize (H H') end;
        try congruence; try lia;
        try (match goal with H : armed s = false -> _ |- _ => specialize (H ltac:(assumption)); lia end).
      all: try (exfalso; apply Hh; eexists; simpl; split; [done|]; rewrite Hp; tauto).
      all: try (specialize (Ha eq_refl ltac:(assumption)); lia).
    + (* flag *)
      step_cases Hs as Hp; intros Hfl; counts Hp; simplify_eq/=;
        try (specialize (Hf ltac:(congruence)));
        try lia.
      all: try (exfalso; apply Hh; eexists; simpl; split; [done|]; rewrite Hp; tauto).
      all: pose proof (cnt_ge consuming _ _ _ Hp) as Hge; simpl in Hge; lia.
    + (* fresh *)
      intros j q Hj Hq Hfresh.
      step_cases Hs as Hp; rewrite ?(lookup_upd _ _ _ _ _ Hp) in Hj; counts Hp;
        try (apply fresh_snoc in Hfresh as [Hx|[Hfresh Hnw]]; [simplify_eq/=|]);
        try (case_decide; simplify_eq/=);
        try (by left); try (right; lia);
        try (by destruct (Hnw _ eq_refl)).
      all: try (specialize (Hfr j _ Hj Hq Hfresh); destruct Hfr as [Hfr|Hfr]; [by left|right; lia]).
      all: try (specialize (Hfr _ _ Hp eq_refl Hfresh); destruct Hfr as [Hfr|Hfr]; [by left|right; lia]).
      all: try (exfalso; apply Hh; eexists; simpl; split; [done|]; rewrite Hp; tauto).
    + (* owed *)
      intros Hw.
      step_cases Hs as Hp; counts Hp;
        try (apply owed_snoc in Hw as [Hnw [Hw|(k & Hk & Hw)]]; simplify_eq/=);
        try (by destruct (Hnw _ eq_refl));
        try (specialize (Ho Hw));
        try (by left); try (right; lia);
        try (destruct Ho as [Ho|Ho]; [by left|right; lia]).
      all: try (specialize (Hfr _ _ Hp eq_refl Hw); destruct Hfr as [Hfr|Hfr]; [by left|right; lia]).
Qed.

Lemma not_lost c s i :
  wf_config c -> reachable_ok c s -> owed (log s) -> blocked_in_kernel s i ->
  kernel_ready (kind_of c) s = true \/ exists j, about_to_kick s j.
Proof.
  intros Hc Hr Ho Hb. pose proof (inv_ok c s Hc Hr) as Hi.
  assert (Hw : cnt is_wret (threads s) = 0) by (eapply (wret_unique c s i WKern); eauto; done).
  destruct (inv_owed c s Hi Ho) as [Hf|]; [|lia].
  assert (Hcon : cnt consuming (threads s) = 0).
  { apply cnt_zero. intros j q Hq. destruct (consuming q) eqn:E; [|done]. exfalso.
    assert (i <> j) by (intros ->; unfold blocked_in_kernel in Hb; rewrite Hb in Hq; by simplify_eq).
    pose proof (cnt_two holds _ i j WKern q Hb Hq eq_refl ltac:(by destruct q) H).
    destruct Hi. lia. }
  destruct (inv_flag c s Hi Hf) as [Ht|[Hn|Hn]]; [| |lia].
  - left. unfold kernel_ready. rewrite bool_decide_true by done. simpl.
    destruct (needs_rearm (kind_of c)) eqn:En; [|destruct (armed s); done].
    destruct (armed s) eqn:Ea; [done|].
    pose proof (inv_armed c s Hi En Ea) as Hu. exfalso.
    pose proof (cnt_mono unarmed consuming (threads s)) as Hmono.
    assert (cnt unarmed (threads s) <= cnt consuming (threads s))
      by (apply Hmono; intros []; done). lia.
  - right. destruct (cnt_pos _ _ Hn) as (j & q & Hq & E). exists j. unfold about_to_kick.
    destruct q; done.
Qed.

(** A thread about to kick can do so unless the pipe is full, and then the kernel is ready. *)
Lemma kick_progress c s j :
  wf_config c -> about_to_kick s j ->
  (exists s', step c s (j, Go) = Some s' /\ 0 < tokens s') \/
  (kind_of c = EpollPipe /\ 0 < tokens s).
Proof.
  intros [Hcap _] Hj. unfold step. rewrite Hj. unfold kick. destruct (kind_of c) eqn:E; simpl.
  - left. eexists. split; [done|]. simpl. lia.
  - case_decide.
    + left. eexists. split; [done|]. simpl. lia.
    + right. split; [done|]. lia.
  - left. eexists. split; [done|]. simpl. lia.
  - case_decide.
    + left. eexists. split; [done|]. simpl. lia.
    + left. eexists. split; [done|]. simpl. lia.
  - left. eexists. split; [done|]. simpl. lia.
Qed.

(** *** Coalescing *)
Lemma kicks_snoc h x : kicks (h ++ [x]) = kicks h + b2n (is_kick x).
Proof.
  unfold kicks. rewrite List.filter_app, app_length. f_equal. simpl. by destruct (is_kick x).
Qed.
Lemma waits_snoc h x : waits (h ++ [x]) = waits h + b2n (is_waitok x).
Proof.
  unfold waits. rewrite List.filter_app, app_length. f_equal. simpl. by destruct (is_waitok x).
Qed.

Lemma coalesce_inv c s :
  reachable c s ->
  kicks (log s) + cnt is_nsys (threads s)
    <= waits (log s) + cnt is_wret (threads s) + b2n (flag s).
Proof.
  induction 1 as [n|s l s' Hr IH Hs].
  - simpl. rewrite !cnt_replicate. simpl. unfold kicks. simpl. lia.
  - step_cases Hs as Hp; rewrite ?kicks_snoc, ?waits_snoc; counts Hp;
      repeat match goal with H : flag s = _ |- _ => rewrite H in *; clear H end; simpl in *;
      try lia.
    all: destruct (flag s); simpl in *; lia.
Qed.

Lemma coalesce c s :
  reachable c s -> kicks (log s) <= waits (log s) + 2.
Proof.
  intros Hr. pose proof (coalesce_inv c s Hr).
  assert (cnt is_wret (threads s) <= cnt holds (threads s))
    by (apply cnt_mono; intros []; done).
  rewrite (mutex_inv c s Hr) in H0. unfold n_lock in H0.
  destruct (flag s), (lock s); simpl in *; lia.
Qed.

Lemma coalesce_no_waiter c s :
  reachable c s -> (forall i p, threads s !! i = Some p -> ~ waiting p) ->
  kicks (log s) <= waits (log s) + 1.
Proof.
  intros Hr Hn. pose proof (coalesce_inv c s Hr).
  assert (cnt is_wret (threads s) = 0).
  { apply cnt_zero. intros i p Hp. destruct (is_wret p) eqn:E; [|done].
    destruct (Hn i p Hp). apply holds_waiting. by destruct p. }
  destruct (flag s); simpl in *; lia.
Qed.

(** *** Recovery after failures *)
Definition swapped (p : pc) : bool := match p with WSwap | WRet => true | _ => false end.

Record rinv (c : config) (w : nat) (s : state) : Prop := RInv {
  rinv_le : w <= waits (log s);
  rinv_armed : needs_rearm (kind_of c) = true -> armed s = false ->
    0 < cnt unarmed (threads s) \/ (waits (log s) = w /\ cnt swapped (threads s) = 0);
  rinv_flag : flag s = true ->
    0 < tokens s \/ 0 < cnt is_nsys (threads s) \/ 0 < cnt consuming (threads s)
    \/ (waits (log s) = w /\ cnt is_wret (threads s) = 0)
}.

Lemma quiet_cnt f s : quiet s -> f Idle = false -> cnt f (threads s) = 0.
Proof. intros Hq Hf. apply cnt_zero. intros i p Hp. by rewrite (Hq i p Hp). Qed.

Lemma later_reachable c s0 s : reachable c s0 -> later_ok c s0 s -> reachable c s.
Proof. intros H0. induction 1; [done|]. econstructor; eauto. Qed.

Lemma unarmed_consuming_uniq c s i p :
  reachable c s -> threads s !! i = Some p -> holds p = true ->
  forall f, (forall q, f q = true -> holds q = true) -> f p = false -> cnt f (threads s) = 0.
Proof.
  intros Hr Hp Hh f Hf Hfp. apply cnt_zero. intros j q Hq. destruct (f q) eqn:E; [|done].
  assert (i = j) as <- by (eapply unique_holder; eauto). congruence.
Qed.

Lemma rinv_ok c s0 s :
  wf_config c -> reachable c s0 -> quiet s0 -> later_ok c s0 s -> rinv c (waits (log s0)) s.
Proof.
  intros [Hcap Hrd] Hr0 Hq. induction 1 as [|s l s' Hl IH Hs Hh].
  - constructor; [lia| |].
    + intros _ _. right. split; [done|]. by apply quiet_cnt.
    + intros _. do 3 right. split; [done|]. by apply quiet_cnt.
  - pose proof (later_reachable _ _ _ Hr0 Hl) as Hr.
    destruct IH as [Hle Ha Hf]. constructor.
    + step_cases Hs as Hp; rewrite ?waits_snoc; lia.
    + step_cases Hs as Hp; intros Hn Hna; rewrite ?waits_snoc; counts Hp; simplify_eq/=;
        repeat match goal with
        | H : ?a = ?a -> _ |- _ => specialize (H eq_refl)
        | H : ?a = ?b -> _, H' : ?a = ?b |- _ => specialize (H H')
        end; try lia;
        try (exfalso; apply Hh; eexists; simpl; split; [done|]; rewrite Hp; tauto);
        try (pose proof (unarmed_consuming_uniq c s _ _ Hr Hp eq_refl unarmed
               ltac:(by intros []) eq_refl));
        try (pose proof (cnt_ge swapped _ _ _ Hp)); simpl in *; lia.
    + step_cases Hs as Hp; intros Hfl; rewrite ?waits_snoc; counts Hp; simplify_eq/=;
        repeat match goal with
        | H : ?a = ?a -> _ |- _ => specialize (H eq_refl)
        | H : ?a = ?b -> _, H' : ?a = ?b |- _ => specialize (H H')
        end; try lia;
        try (exfalso; apply Hh; eexists; simpl; split; [done|]; rewrite Hp; tauto);
        try (pose proof (unarmed_consuming_uniq c s _ _ Hr Hp eq_refl consuming
               ltac:(by intros []) eq_refl));
        try (pose proof (cnt_ge consuming _ _ _ Hp));
        try (pose proof (cnt_ge is_wret _ _ _ Hp)); simpl in *; try lia.
Qed.

(** The parts of the invariant about the log hold whatever fails. *)
Lemma log_inv c s :
  reachable c s ->
  (forall i p, threads s !! i = Some p -> post_cas p = true -> fresh_in (log s) i ->
     flag s = true \/ 0 < cnt is_wret (threads s)) /\
  (owed (log s) -> flag s = true \/ 0 < cnt is_wret (threads s)).
Proof.
  induction 1 as [n|s l s' Hr [Hfr Ho] Hs].
  - split.
    + intros i p Hp Hc. apply lookup_replicate in Hp as [-> _]. done.
    + intros H. destruct (owed_nil H).
  - split.
    + intros j q Hj Hq Hfresh.
      step_cases Hs as Hp; rewrite ?(lookup_upd _ _ _ _ _ Hp) in Hj; counts Hp;
        try (apply fresh_snoc in Hfresh as [Hx|[Hfresh Hnw]]; [simplify_eq/=|]);
        try (case_decide; simplify_eq/=);
        try (by left); try (right; lia);
        try (by destruct (Hnw _ eq_refl)).
      all: try (specialize (Hfr j _ Hj Hq Hfresh); destruct Hfr as [Hfr|Hfr]; [by left|right; lia]).
      all: try (specialize (Hfr _ _ Hp eq_refl Hfresh); destruct Hfr as [Hfr|Hfr]; [by left|right; lia]).
    + intros Hw.
      step_cases Hs as Hp; counts Hp;
        try (apply owed_snoc in Hw as [Hnw [Hw|(k & Hk & Hw)]]; simplify_eq/=);
        try (by destruct (Hnw _ eq_refl));
        try (specialize (Ho Hw));
        try (by left); try (right; lia);
        try (destruct Ho as [Ho|Ho]; [by left|right; lia]).
      all: try (specialize (Hfr _ _ Hp eq_refl Hw); destruct Hfr as [Hfr|Hfr]; [by left|right; lia]).
Qed.

Lemma recovery c s0 s i :
  wf_config c -> reachable c s0 -> quiet s0 -> later_ok c s0 s ->
  waits (log s0) < waits (log s) ->
  owed (log s) -> blocked_in_kernel s i ->
  kernel_ready (kind_of c) s = true \/ exists j, about_to_kick s j.
Proof.
  intros Hc Hr0 Hq Hl Hw Ho Hb.
  pose proof (rinv_ok c s0 s Hc Hr0 Hq Hl) as [_ Ha Hf].
  pose proof (later_reachable _ _ _ Hr0 Hl) as Hr.
  destruct (log_inv c s Hr) as [_ Hlo].
  pose proof (unarmed_consuming_uniq c s i WKern Hr Hb eq_refl is_wret ltac:(by intros []) eq_refl).
  pose proof (unarmed_consuming_uniq c s i WKern Hr Hb eq_refl consuming ltac:(by intros []) eq_refl).
  pose proof (unarmed_consuming_uniq c s i WKern Hr Hb eq_refl unarmed ltac:(by intros []) eq_refl).
  destruct (Hlo Ho) as [Hfl|]; [|lia].
  destruct (Hf Hfl) as [Ht|[Hn|[Hn|[Hn _]]]]; [| |lia|lia].
  - left. unfold kernel_ready. rewrite bool_decide_true by done. simpl.
    destruct (needs_rearm (kind_of c)) eqn:En; [|destruct (armed s); done].
    destruct (armed s) eqn:Ea; [done|].
    destruct (Ha eq_refl eq_refl); lia.
  - right. destruct (cnt_pos _ _ Hn) as (j & q & Hqq & E). exists j. unfold about_to_kick.
    destruct q; done.
Qed.

(** *** Coalescing: notifications between two waits make exactly one token *)
Lemma only_inv c s0 s :
  wf_config c -> clean s0 -> only_notifies c s0 s ->
  cnt holds (threads s) = 0 /\ (forall i, threads s !! i <> Some WTry) /\
  (forall i, threads s !! i <> Some NFail) /\
  lock s = None /\ armed s = true /\ tokens s + cnt is_nsys (threads s) = b2n (flag s) /\
  (0 < cnt post_cas (threads s) -> flag s = true) /\
  (log s0 = log s \/ exists h, log s = log s0 ++ h /\
     ((exists i, NotifyOk i ∈ h) -> flag s = true)).
Proof.
  intros [Hcap Hrd] (Hq & Hlk & Hfl & Htk & Har). induction 1 as [|s i a s' Hl IH Hs Ha].
  - rewrite !quiet_cnt by done. rewrite Hfl, Htk. simpl.
    repeat split; try done; try lia; try (by left).
    + intros i Hi. by apply Hq in Hi.
    + intros i Hi. by apply Hq in Hi.
  - destruct IH as (Hh & Ht & Hnf & Hlk' & Har' & Hsum & Hpc & Hlog).
    unfold step in Hs. destruct (threads s !! i) as [p|] eqn:Hp; [|done].
    pose proof (cnt_ge holds _ _ _ Hp) as Hge. rewrite Hh in Hge.
    assert (HT : forall p', p' <> WTry -> forall j, <[i:=p']> (threads s) !! j <> Some WTry).
    { intros p' Hp' j E. rewrite (lookup_upd _ _ _ _ _ Hp) in E. case_decide; [by simplify_eq|by apply (Ht j)]. }
    assert (HF : forall p', p' <> NFail -> forall j, <[i:=p']> (threads s) !! j <> Some NFail).
    { intros p' Hp' j E. rewrite (lookup_upd _ _ _ _ _ Hp) in E. case_decide; [by simplify_eq|by apply (Hnf j)]. }
    assert (Hlog' : forall o, ((exists k, o = NotifyOk k) -> flag s = true) ->
       log s0 = log s ++ [o] \/ exists h, log s ++ [o] = log s0 ++ h /\
         ((exists i, NotifyOk i ∈ h) -> flag s = true)).
    { intros o Ho. right. destruct Hlog as [<-|(h & -> & Hh')].
      - exists [o]. split; [done|]. intros [k Hk]. apply Ho. exists k. set_solver.
      - exists (h ++ [o]). rewrite (assoc_L (++)). split; [done|]. intros [k Hk].
        apply elem_of_app in Hk as [Hk|Hk]; [by apply Hh'; eauto|]. apply Ho. exists k. set_solver. }
    destruct p, a; try done; try (destruct Ha as [Ha|Ha]; discriminate Ha);
      try (by destruct (Ht i)); try (by destruct (Hnf i)); simpl in Hge; try lia.
    + injection Hs as <-. simpl. counts Hp.
      repeat split; try done; try lia; try (apply HT; done); try (apply HF; done); try (intros; apply Hpc; lia).
      apply (Hlog' (NotifyCall i)). by intros [k Hk].
    + destruct (flag s) eqn:Ef; injection Hs as <-; simpl; counts Hp; rewrite ?Ef; simpl;
      (repeat split; try done; try lia; try (apply HT; done); try (apply HF; done)).
      destruct Hlog as [Hlog|(h & E & _)]; [by left|]. right. exists h. by split.
    + destruct (kick c (tokens s)) as [t|] eqn:Ek; [|done]. injection Hs as <-. simpl. counts Hp.
      pose proof (cnt_ge is_nsys _ _ _ Hp) as Hg. simpl in Hg.
      assert (Hf1 : flag s = true) by (destruct (flag s); [done|simpl in *; lia]).
      rewrite Hf1 in *. simpl in *.
      assert (tokens s = 0) as Et by lia. rewrite Et in Ek.
      assert (t = 1) as ->. { unfold kick in Ek. destruct (kind_of c); repeat case_decide; simplify_eq; lia. }
      repeat split; try done; try lia; try (apply HT; done); try (apply HF; done).
      apply (Hlog' (Kick i)). by intros [k Hk].
    + injection Hs as <-. simpl. counts Hp.
      pose proof (cnt_ge post_cas _ _ _ Hp) as Hg. simpl in Hg.
      repeat split; try done; try lia; try (apply HT; done); try (apply HF; done); try (intros; apply Hpc; lia).
      apply (Hlog' (NotifyOk i)). intros _. apply Hpc. lia.
Qed.

Lemma coalesced c s0 s :
  wf_config c -> clean s0 -> only_notifies c s0 s -> quiet s ->
  (exists h i, log s = log s0 ++ h /\ NotifyOk i ∈ h) ->
  flag s = true /\ tokens s = 1 /\ armed s = true /\ lock s = None.
Proof.
  intros Hc Hcl Ho Hq (h & i & E & Hi).
  destruct (only_inv c s0 s Hc Hcl Ho) as (_ & _ & _ & Hlk & Har & Hsum & _ & Hlog).
  assert (flag s = true) as Hf.
  { destruct Hlog as [Hlog|(h' & E' & Hh')].
    - rewrite <-Hlog in E. apply (f_equal length) in E. rewrite app_length in E.
      destruct h; [by apply elem_of_nil in Hi|simpl in E; lia].
    - rewrite E' in E. simplify_list_eq. eauto. }
  rewrite (quiet_cnt is_nsys) in Hsum by done. rewrite Hf in Hsum. simpl in Hsum.
  repeat split; try done; lia.
Qed.

(** A wait run alone from there. *)
Definition solo_ok (c : config) (i : nat) (h0 : list obs) (s : state) : Prop :=
  (forall j p, j <> i -> threads s !! j = Some p -> p = Idle) /\
  exists p, threads s !! i = Some p /\
  match p with
  | WTry => lock s = None /\ flag s = true /\ tokens s = 1 /\ armed s = true /\ log s = h0 ++ [WaitCall i]
  | WPre | WKern => flag s = true /\ tokens s = 1 /\ armed s = true /\ log s = h0 ++ [WaitCall i]
  | WClear => needs_rearm (kind_of c) = true /\ log s = h0 ++ [WaitCall i]
  | WRearm => tokens s = 0 /\ log s = h0 ++ [WaitCall i]
  | WSwap => tokens s = 0 /\ armed s = true /\ log s = h0 ++ [WaitCall i]
  | WRet => flag s = false /\ tokens s = 0 /\ armed s = true /\ log s = h0 ++ [WaitCall i]
  | Idle => (lock s = None /\ flag s = false /\ tokens s = 0 /\ armed s = true
             /\ log s = h0 ++ [WaitCall i; WaitOk i]) \/
            log s = h0 ++ [WaitCall i; WaitError i]
  | WErr => log s = h0 ++ [WaitCall i]
  | _ => False
  end.

Lemma solo_step c i h0 s a s' :
  solo_ok c i h0 s -> step c s (i, a) = Some s' ->
  a <> CallNotify -> a <> CallWait -> a <> KRet 0 -> (forall e, a <> Fault e \/ threads s !! i <> Some WRearm) ->
  solo_ok c i h0 s'.
Proof.
  intros (Hoth & p & Hp & Hinv) Hs Hn1 Hn2 Hn3 Hn4.
  unfold step in Hs. rewrite Hp in Hs.
  assert (HO : forall p' j q, j <> i -> <[i:=p']> (threads s) !! j = Some q -> q = Idle).
  { intros p' j q Hj Hq. rewrite list_lookup_insert_ne in Hq by congruence. eauto. }
  assert (HI : forall p', <[i:=p']> (threads s) !! i = Some p').
  { intros p'. rewrite (lookup_upd _ _ _ _ _ Hp). by rewrite decide_True. }
  destruct p, a; try done.
  - destruct Hinv as (Hlk & Hinv). rewrite Hlk in Hs. injection Hs as <-. split; [apply HO|].
    exists WPre. split; [apply HI|]. done.
  - injection Hs as <-. split; [apply HO|]. exists WKern. split; [apply HI|]. done.
  - injection Hs as <-. split; [apply HO|]. destruct eintr.
    + exists WPre. split; [apply HI|]. done.
    + exists WErr. split; [apply HI|]. simpl. tauto.
  - injection Hs as <-. split; [apply HO|]. destruct eintr.
    + exists WPre. split; [apply HI|]. done.
    + exists WErr. split; [apply HI|]. simpl. tauto.
  - destruct Hinv as (Hf & Ht & Ha & Hl). destruct k as [|k]; [done|].
    unfold kernel_return in Hs. destruct (kernel_ready (kind_of c) s) eqn:Ek; [|done].
    unfold after_kernel in Hs.
    destruct (kind_of c) eqn:E; simpl in Hs;
    (case_decide; [|done]); injection Hs as <-; (split; [apply HO|]);
    (eexists; split; [apply HI|]); simpl; rewrite ?E; simpl; repeat split; try done; lia.
  - destruct Hinv as (Hn & Hl).
    destruct (kind_of c) eqn:E; simpl in Hn; try done;
    repeat case_decide; injection Hs as <-; simpl;
      (split; [try apply HO; exact Hoth|]); (eexists; split; [try apply HI; exact Hp|]);
      simpl; rewrite ?E; repeat split; try done; try lia.
  - injection Hs as <-. split; [apply HO|]. exists WSwap. split; [apply HI|]. simpl.
    destruct Hinv as (Ht & Hl). repeat split; done.
  - exfalso. destruct (Hn4 eintr); done.
  - injection Hs as <-. split; [apply HO|]. exists WRet. split; [apply HI|]. simpl.
    destruct Hinv as (Ht & Ha & Hl). repeat split; done.
  - injection Hs as <-. split; [apply HO|]. exists Idle. split; [apply HI|]. simpl. left.
    destruct Hinv as (Hf & Ht & Ha & Hl). rewrite Hl, <-(assoc_L (++)). repeat split; try done.
  - injection Hs as <-. split; [apply HO|]. exists Idle. split; [apply HI|]. simpl. right.
    rewrite Hinv, <-(assoc_L (++)). done.
Qed.

Lemma wait_alone c s0 s i s1 s2 :
  wf_config c -> clean s0 -> only_notifies c s0 s -> quiet s ->
  (exists h j, log s = log s0 ++ h /\ NotifyOk j ∈ h) ->
  step c s (i, CallWait) = Some s1 -> alone c i s1 s2 ->
  log s2 = log s ++ [WaitCall i; WaitOk i] -> clean s2.
Proof.
  intros Hc Hcl Ho Hq Hn Hs Hal Hlog.
  destruct (coalesced c s0 s Hc Hcl Ho Hq Hn) as (Hf & Ht & Ha & Hlk).
  assert (H1 : solo_ok c i (log s) s1).
  { unfold step in Hs. destruct (threads s !! i) as [p|] eqn:Hp; [|done].
    pose proof (Hq i p Hp) as ->. injection Hs as <-. split.
    - intros j q Hj Hqq. simpl in Hqq. rewrite (lookup_upd _ _ _ _ _ Hp), decide_False in Hqq by done.
      eauto.
    - exists WTry. simpl. rewrite (lookup_upd _ _ _ _ _ Hp), decide_True by done. done. }
  assert (H2 : solo_ok c i (log s) s2).
  { clear Hlog. induction Hal as [|s' a s'' Hal IH Hstep Hna1 Hna2 Hk Hh]; [done|].
    eapply solo_step; eauto. intros e. destruct a as [| | |e'|]; try (left; done).
    right. intros E. apply Hh. exists e'. simpl. auto. }
  destruct H2 as (Hoth & p & Hp & Hinv).
  assert (p = Idle /\ (lock s2 = None /\ flag s2 = false /\ tokens s2 = 0 /\ armed s2 = true))
    as (-> & Hl2 & Hf2 & Ht2 & Ha2).
  { destruct p; try (rewrite Hlog in Hinv); try done; destruct_and?; simplify_list_eq. destruct Hinv; simplify_list_eq.
    tauto. }
  split; [|done]. intros j q Hj. destruct (decide (j = i)) as [->|]; [congruence|eauto].
Qed.

Lemma clean_not_ready k s : clean s -> kernel_ready k s = false.
Proof. intros (_ & _ & _ & Ht & _). unfold kernel_ready. by rewrite Ht. Qed.

Lemma uncontended c s i :
  reachable c s -> (forall j p, threads s !! j = Some p -> ~ waiting p) ->
  threads s !! i = Some WTry ->
  exists s', step c s (i, Go) = Some s' /\ threads s' !! i = Some WPre.
Proof.
  intros Hr Hn Hi. pose proof (mutex_inv c s Hr) as Hm.
  assert (cnt holds (threads s) = 0) as H0.
  { apply cnt_zero. intros j q Hq. destruct (holds q) eqn:E; [|done].
    apply holds_waiting in E. by destruct (Hn j q Hq). }
  rewrite H0 in Hm. unfold n_lock in Hm. unfold step. rewrite Hi.
  destruct (lock s); [done|]. eexists. split; [done|]. simpl.
  by rewrite (lookup_upd _ _ _ _ _ Hi), decide_True.
Qed.

Lemma ready_returns c s i :
  kernel_ready (kind_of c) s = true -> blocked_in_kernel s i ->
  exists s', step c s (i, KRet 1) = Some s' /\ threads s' !! i = Some (after_kernel (kind_of c)).
Proof.
  intros Hk Hb. unfold blocked_in_kernel in Hb. unfold step. rewrite Hb. unfold kernel_return.
  rewrite Hk. unfold kernel_ready in Hk. apply andb_prop in Hk as [Ht _].
  apply bool_decide_eq_true in Ht.
  destruct (kind_of c); (rewrite decide_True by lia);
    (eexists; split; [done|]); simpl; by rewrite (lookup_upd _ _ _ _ _ Hb), decide_True.
Qed.
