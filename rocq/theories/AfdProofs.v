(** The invariant of the pool of AFD instances. *)
From stdpp Require Import prelude list gmap.
From Verif Require Import Types Pool AfdModel AfdSpec.
Local Open Scope nat_scope.

(** ** Lists *)
Lemma swap_remove_spec k l a : l !! k = Some a ->
  exists l1 l2 l3, l = l1 ++ a :: l2 /\ swap_remove k l = l1 ++ l3 /\ l3 ≡ₚ l2 /\ length l1 = k.
Proof.
  intros H. apply elem_of_list_split_length in H as (l1 & l2 & -> & ->). unfold swap_remove.
  destruct l2 as [|x l2 _] using rev_ind.
  - exists l1, [], []. rewrite last_snoc, insert_app_r_alt, Nat.sub_diag by lia. cbn [insert list_insert].
    rewrite app_length. cbn [length]. split_and!; try done. rewrite take_app_alt by lia. by rewrite app_nil_r.
  - exists l1, (l2 ++ [x]), (x :: l2). rewrite app_comm_cons, app_assoc, last_snoc, <- app_assoc.
    split; [done|]. split; [|split; [by rewrite Permutation_cons_append|done]].
    rewrite insert_app_r_alt, Nat.sub_diag by lia. cbn [app insert list_insert].
    change (l1 ++ x :: l2 ++ [x]) with (l1 ++ (x :: l2) ++ [x]). rewrite app_assoc. apply take_app_alt.
    rewrite !app_length. cbn [length]. rewrite app_length. cbn [length]. lia.
Qed.

Definition is_ (a b : nat) : bool := bool_decide (b = a).
Definition holds (a : nat) (p : pc) : bool := match p with Has b | Registering b => is_ a b | _ => false end.
Definition locked (p : pc) : bool := match p with Scan _ | Upgrade _ | New | Registering _ => true | _ => false end.
Definition rest (p : pc) (l : list nat) : list nat := match p with Scan k | Upgrade k => drop k l | _ => [] end.
Definition closes (a : nat) (o : obs) : bool := match o with Closed b => is_ a b | _ => false end.
Definition full_or_dead (z : Z) : Prop := (z = 0 \/ 32 <= z)%Z.

Lemma users_app a h1 h2 : (users a (h1 ++ h2) = users a h1 + users a h2)%Z.
Proof. induction h1 as [|[] h1 IH]; cbn [app users]; try rewrite IH; lia. Qed.
Lemma cnt_app' {A} (f : A -> bool) l1 l2 : cnt f (l1 ++ l2) = cnt f l1 + cnt f l2.
Proof. induction l1 as [|x l1 IH]; cbn [app cnt]; [done|]. lia. Qed.
Lemma cnt_delete {A} (f : A -> bool) l k x : l !! k = Some x -> cnt f (delete k l) + b2n (f x) = cnt f l.
Proof.
  revert k. induction l as [|y l IH]; intros [|k] H; try done.
  - injection H as ->. change (delete 0 (x :: l)) with l. cbn [cnt]. lia.
  - change (delete (S k) (y :: l)) with (y :: delete k l). cbn [cnt]. specialize (IH _ H). lia.
Qed.

Record inv (s : state) : Prop := {
  i_count a : refcount s a = cnt (is_ a) (packets s) + cnt (holds a) (threads s);
  i_log a : users a (log s) = Z.of_nat (refcount s a);
  i_lock i p : threads s !! i = Some p -> (locked p = true <-> lock s = Some i);
  i_owner i : lock s = Some i -> i < length (threads s);
  i_fresh a : fresh s <= a -> refcount s a = 0 /\ a ∉ pool s;
  i_nodup : NoDup (pool s);
  i_live a : 0 < refcount s a -> a ∈ pool s \/ exists i, threads s !! i = Some (Registering a);
  i_reg i a : threads s !! i = Some (Registering a) -> a ∉ pool s /\ refcount s a = 1 /\ a < fresh s;
  i_max a : refcount s a <= 32;
  i_up i k : threads s !! i = Some (Upgrade k) -> exists a, pool s !! k = Some a /\ refcount s a < 32;
  i_opened a : opened a (log s) <-> a < fresh s;
  i_closed a : cnt (closes a) (log s) = if decide (a < fresh s /\ refcount s a = 0) then 1 else 0;
  i_pruned a : Pruned a ∈ log s -> refcount s a = 0 /\ a ∉ pool s /\ a < fresh s;
  i_scan i p : threads s !! i = Some p -> locked p = true ->
    exists h1 h2, log s = h1 ++ Began i :: h2 /\ Began i ∉ h2 /\
      forall b, opened b h1 -> b ∈ rest p (pool s) \/ at_some_time b full_or_dead h1 (Began i :: h2);
  i_created i h1 h2 a h3 : log s = h1 ++ Began i :: h2 ++ Created i a :: h3 -> Began i ∉ h2 ->
    forall b, opened b h1 -> at_some_time b full_or_dead h1 (Began i :: h2)
}.

Lemma opened_app a h1 h2 : opened a (h1 ++ h2) <-> opened a h1 \/ opened a h2.
Proof. unfold opened. setoid_rewrite elem_of_app. naive_solver. Qed.
Lemma time_app b P h d d' : at_some_time b P h d -> at_some_time b P h (d ++ d').
Proof. intros (d1 & d2 & -> & H). exists d1, (d2 ++ d'). by rewrite <- app_assoc. Qed.
Lemma time_now b (P : Z -> Prop) h d : P (users b (h ++ d)) -> at_some_time b P h d.
Proof. intros H. exists d, []. by rewrite app_nil_r. Qed.

(** The last [Began i] is unique. *)
Lemma began_unique (i : nat) h1 h2 k1 k2 : h1 ++ Began i :: h2 = k1 ++ Began i :: k2 -> Began i ∉ h2 -> Began i ∉ k2 -> h1 = k1 /\ h2 = k2.
Proof.
  revert k1. induction h1 as [|x h1 IH]; intros [|y k1] E N M.
  - by injection E as ->.
  - injection E as _ E. subst h2. destruct N. apply elem_of_app. right. constructor.
  - injection E as _ E. subst k2. destruct M. apply elem_of_app. right. constructor.
  - injection E as -> E. destruct (IH _ E N M) as [-> ->]. done.
Qed.

Lemma inv_start n : inv (start n).
Proof.
  assert (T : forall i p, replicate n Out !! i = Some p -> p = Out) by (intros i p H; by apply lookup_replicate in H as [-> _]).
  split; cbn [start pool strong fresh lock threads packets log refcount]; unfold refcount; cbn [strong start].
  - intros a. rewrite lookup_empty. cbn. rewrite cnt_replicate. cbn. lia.
  - intros a. by rewrite lookup_empty.
  - intros i p H. apply T in H as ->. split; done.
  - done.
  - intros a _. rewrite lookup_empty. split; [done|set_solver].
  - constructor.
  - intros a. rewrite lookup_empty. cbn. lia.
  - intros i a H. by apply T in H.
  - intros a. rewrite lookup_empty. cbn. lia.
  - intros i k H. by apply T in H.
  - intros a. split; [intros [i H]; set_solver|lia].
  - intros a. rewrite decide_False by lia. done.
  - intros a H. set_solver.
  - intros i p H. by apply T in H as ->.
  - intros i h1 h2 a h3 E. destruct h1; discriminate.
Qed.

(** ** One step *)
Lemma split_before {A} (x : A) X h L d : L ++ d = X ++ x :: h -> x ∉ d -> exists h', h = h' ++ d /\ L = X ++ x :: h'.
Proof.
  intros E N. apply app_eq_inv in E as [(k & E1 & E2)|(k & E1 & E2)].
  - destruct k as [|y k].
    + cbn in E2. destruct N. rewrite <- E2. constructor.
    + injection E2 as <- ->. exists k. done.
  - destruct N. rewrite E2. apply elem_of_app. right. constructor.
Qed.
Definition scans (i : nat) (p : pc) (l : list nat) (h : list obs) : Prop :=
  exists h1 h2, h = h1 ++ Began i :: h2 /\ Began i ∉ h2 /\
    forall b, opened b h1 -> b ∈ rest p l \/ at_some_time b full_or_dead h1 (Began i :: h2).
Lemma scans_mono i p q l l' h d : scans i p l h -> Began i ∉ d ->
  (forall b, b ∈ rest p l -> b ∈ rest q l' \/ full_or_dead (users b (h ++ d))) -> scans i q l' (h ++ d).
Proof.
  intros (h1 & h2 & -> & N & H) M F. exists h1, (h2 ++ d). split; [by rewrite <- app_assoc|].
  split; [rewrite elem_of_app; naive_solver|]. intros b B. destruct (H b B) as [X|X].
  - apply F in X as [X|X]; [by left|right]. apply time_now. by rewrite <- app_assoc in X.
  - right. rewrite app_comm_cons. by apply time_app.
Qed.
Definition past (h : list obs) : Prop := forall i h1 h2 a h3, h = h1 ++ Began i :: h2 ++ Created i a :: h3 -> Began i ∉ h2 ->
    forall b, opened b h1 -> at_some_time b full_or_dead h1 (Began i :: h2).
Lemma past_mono h d : past h -> (forall i a, Created i a ∉ d) -> past (h ++ d).
Proof.
  intros P N i h1 h2 a h3 E. rewrite app_comm_cons, app_assoc in E. apply split_before in E as (h' & -> & ->); [|done].
  apply (P i h1 h2 a h'). by rewrite app_comm_cons, app_assoc.
Qed.

Lemma inv_pc s i p q : inv s -> threads s !! i = Some p -> (forall a, holds a q = holds a p) -> locked q = locked p ->
  (forall a, q <> Registering a) -> (forall a, p <> Registering a) ->
  (forall k, q = Upgrade k -> exists a, pool s !! k = Some a /\ refcount s a < 32) ->
  (forall b, b ∈ rest p (pool s) -> b ∈ rest q (pool s) \/ full_or_dead (Z.of_nat (refcount s b))) ->
  inv (set_pc s i q).
Proof.
  intros I Hi Hh Hl Nq Np Hu Hr. destruct I. split; cbn [set_pc pool strong fresh lock threads packets log]; unfold refcount in *; cbn [set_pc strong]; try done.
  - intros a. pose proof (cnt_insert (holds a) _ i p q Hi). rewrite Hh in H. rewrite i_count0. lia.
  - intros j r H. rewrite (lookup_upd _ _ _ _ _ Hi) in H. destruct (decide (j = i)) as [->|N]; [|by apply i_lock0].
    injection H as <-. rewrite Hl. by apply i_lock0.
  - intros j. rewrite insert_length. apply i_owner0.
  - intros a H. destruct (i_live0 a H) as [X|[j X]]; [by left|right]. exists j. rewrite (lookup_upd _ _ _ _ _ Hi).
    destruct (decide (j = i)) as [->|N]; [|done]. rewrite Hi in X. by destruct (Np a); congruence.
  - intros j a H. rewrite (lookup_upd _ _ _ _ _ Hi) in H. destruct (decide (j = i)) as [->|N]; [|by apply (i_reg0 j)].
    injection H as H. by destruct (Nq a).
  - intros j k H. rewrite (lookup_upd _ _ _ _ _ Hi) in H. destruct (decide (j = i)) as [->|N]; [|by apply (i_up0 j)].
    injection H as H. by apply Hu.
  - intros j r H L. rewrite (lookup_upd _ _ _ _ _ Hi) in H. destruct (decide (j = i)) as [->|N]; [|by apply i_scan0].
    injection H as <-. rewrite Hl in L. rewrite <- (app_nil_r (log s)). apply (scans_mono i p q (pool s)); [by apply i_scan0|set_solver|].
    intros b B. apply Hr in B as [B|B]; [by left|right]. by rewrite app_nil_r, i_log0.
Qed.

Lemma other_unlocked s i j p q : inv s -> threads s !! i = Some p -> locked p = true -> j <> i -> threads s !! j = Some q -> locked q = false.
Proof.
  intros I Hi Lp N Hj. destruct (locked q) eqn:E; [|done]. apply (i_lock _ I _ _ Hi) in Lp. apply (i_lock _ I _ _ Hj) in E. congruence.
Qed.

(** Taking the lock. *)
Lemma inv_began s i : inv s -> threads s !! i = Some Locking -> lock s = None ->
  inv (say (set_pc (set_lock s (Some i)) i (Scan 0)) [Began i]).
Proof.
  intros I Hi L. pose proof I as I'. destruct I. split; cbn [say set_pc set_lock pool strong fresh lock threads packets log]; unfold refcount in *; cbn [say set_pc set_lock strong]; try done.
  - intros a. pose proof (cnt_insert (holds a) _ i _ (Scan 0) Hi). cbn [holds b2n] in H. rewrite i_count0. lia.
  - intros a. rewrite users_app, i_log0. cbn [users]. lia.
  - intros j r H. rewrite (lookup_upd _ _ _ _ _ Hi) in H. destruct (decide (j = i)) as [->|N]; [by injection H as <-|].
    apply i_lock0 in H. rewrite L in H. split; [intros X; by apply H in X|congruence].
  - intros j [= <-]. rewrite insert_length. by apply lookup_lt_Some in Hi.
  - intros a H. destruct (i_live0 a H) as [X|[j X]]; [by left|right]. exists j. rewrite (lookup_upd _ _ _ _ _ Hi).
    destruct (decide (j = i)) as [->|N]; [|done]. congruence.
  - intros j a H. rewrite (lookup_upd _ _ _ _ _ Hi) in H. destruct (decide (j = i)) as [->|N]; [done|by apply (i_reg0 j)].
  - intros j k H. rewrite (lookup_upd _ _ _ _ _ Hi) in H. destruct (decide (j = i)) as [->|N]; [done|by apply (i_up0 j)].
  - intros a. rewrite opened_app, i_opened0. split; [|by left]. intros [X|[j X]]; [done|]. by apply elem_of_list_singleton in X.
  - intros a. rewrite cnt_app'. cbn [cnt closes b2n]. rewrite i_closed0. lia.
  - intros a. rewrite elem_of_app, elem_of_list_singleton. intros [X|X]; [by apply i_pruned0|done].
  - intros j r H Lk. rewrite (lookup_upd _ _ _ _ _ Hi) in H. destruct (decide (j = i)) as [->|N].
    + injection H as <-. exists (log s), []. split; [done|]. split; [set_solver|]. intros b B. cbn [rest]. rewrite drop_0.
      destruct (decide (default 0 (strong s !! b) = 0)) as [E|E].
      * right. apply time_now. left. rewrite users_app, i_log0, E. done.
      * left. destruct (i_live0 b) as [X|[k X]]; [lia|done|]. pose proof (i_lock0 _ _ X) as [Y _]. specialize (Y eq_refl). congruence.
    + pose proof (i_lock0 _ _ H) as [Y _]. specialize (Y Lk). congruence.
  - apply past_mono; [done|]. intros j a. by rewrite elem_of_list_singleton.
Qed.

(** Removing a dead pointer. *)
Lemma inv_prune s i p k a : inv s -> threads s !! i = Some p -> (p = Scan k \/ p = Upgrade k) -> pool s !! k = Some a -> refcount s a = 0 ->
  inv (set_pc (prune s k) i (Scan k)).
Proof.
  intros I Hi P Hk Z. unfold prune. rewrite Hk. pose proof I as I'. destruct I.
  assert (Lp : locked p = true) by (by destruct P as [->| ->]). assert (Hp : forall b, holds b p = false) by (by destruct P as [->| ->]).
  assert (Rp : rest p (pool s) = drop k (pool s)) by (by destruct P as [->| ->]).
  apply swap_remove_spec in Hk as (l1 & l2 & l3 & El & -> & Pm & Lk).
  assert (ND : NoDup (l1 ++ a :: l3)) by (rewrite Pm, <- El; done).
  assert (NA : a ∉ l1 ++ l3). { apply NoDup_app in ND as (_ & N1 & N2). apply NoDup_cons in N2 as [N2 _]. rewrite elem_of_app. intros [X|X]; [|done].
    apply (N1 a X). constructor. }
  assert (IN : forall b, b ∈ l1 ++ l3 <-> b ∈ pool s /\ b <> a).
  { intros b. rewrite El. rewrite !elem_of_app, elem_of_cons, Pm. split.
    - intros [X|X]; (split; [auto|]); intros ->; apply NA; rewrite elem_of_app, Pm; auto.
    - naive_solver. }
  split; cbn [say set_pc set_pool pool strong fresh lock threads packets log]; unfold refcount in *; cbn [say set_pc set_pool strong]; try done.
  - intros b. pose proof (cnt_insert (holds b) _ i _ (Scan k) Hi). rewrite Hp in H. cbn [holds b2n] in H. rewrite i_count0. lia.
  - intros b. rewrite users_app, i_log0. cbn [users]. lia.
  - intros j r H. rewrite (lookup_upd _ _ _ _ _ Hi) in H. destruct (decide (j = i)) as [->|N]; [|by apply i_lock0].
    injection H as <-. cbn [locked]. split; [intros _; by apply (i_lock0 _ _ Hi)|done].
  - intros j. rewrite insert_length. apply i_owner0.
  - intros b B. split; [by apply i_fresh0|]. rewrite IN. intros [X _]. by apply (i_fresh0 b).
  - apply NoDup_app in ND as (N0 & N1 & N2). apply NoDup_cons in N2 as [_ N2]. apply NoDup_app. split; [done|]. split; [|done].
    intros b B1 B2. apply (N1 b B1). by constructor.
  - intros b B. destruct (i_live0 b B) as [X|[j X]].
    + left. apply IN. split; [done|]. intros ->. lia.
    + right. exists j. rewrite (lookup_upd _ _ _ _ _ Hi). destruct (decide (j = i)) as [->|N]; [|done]. destruct P; congruence.
  - intros j b H. rewrite (lookup_upd _ _ _ _ _ Hi) in H. destruct (decide (j = i)) as [->|N]; [done|].
    destruct (i_reg0 _ _ H) as (X & Y). split; [|done]. rewrite IN. by intros [? _].
  - intros j k' H. rewrite (lookup_upd _ _ _ _ _ Hi) in H. destruct (decide (j = i)) as [->|N]; [done|].
    pose proof (other_unlocked _ _ _ _ _ I' Hi Lp N H). done.
  - intros b. rewrite opened_app, i_opened0. split; [|by left]. intros [X|[j X]]; [done|]. by apply elem_of_list_singleton in X.
  - intros b. rewrite cnt_app'. cbn [cnt closes b2n]. rewrite i_closed0. lia.
  - intros b. rewrite elem_of_app, elem_of_list_singleton, IN. intros [X|[= ->]].
    + apply i_pruned0 in X. naive_solver.
    + split; [done|]. split; [naive_solver|]. destruct (decide (a < fresh s)) as [|G]; [done|].
      destruct (i_fresh0 a) as [_ X]; [lia|]. destruct X. rewrite El. apply elem_of_app. right. constructor.
  - intros j r H Lr. rewrite (lookup_upd _ _ _ _ _ Hi) in H. destruct (decide (j = i)) as [->|N].
    + injection H as <-. apply (scans_mono i p _ (pool s)); [by apply i_scan0|by rewrite elem_of_list_singleton|].
      intros b. rewrite Rp, El, drop_app_alt by done. cbn [rest]. rewrite drop_app_alt by done. rewrite elem_of_cons, Pm.
      intros [->|X]; [right|by left]. left. rewrite users_app, i_log0, Z. done.
    + pose proof (other_unlocked _ _ _ _ _ I' Hi Lp N H). congruence.
  - apply past_mono; [done|]. intros j b. by rewrite elem_of_list_singleton.
Qed.

Lemma count_upd (m : gmap nat nat) a c b : default 0 (<[a:=c]> m !! b) = if decide (b = a) then c else default 0 (m !! b).
Proof. destruct (decide (b = a)) as [->|N]; [by rewrite lookup_insert|by rewrite lookup_insert_ne by congruence]. Qed.
Lemma is_b2n a b : b2n (is_ a b) = if decide (b = a) then 1 else 0.
Proof. unfold is_. destruct (decide (b = a)); [by rewrite bool_decide_true|by rewrite bool_decide_false]. Qed.

(** Taking an instance. *)
Lemma inv_took s i k a : inv s -> threads s !! i = Some (Upgrade k) -> pool s !! k = Some a -> refcount s a <> 0 ->
  inv (say (set_pc (set_lock (set_count s a (S (refcount s a))) None) i (Has a)) [Took i a; Given i a]).
Proof.
  intros I Hi Hk Z. pose proof I as I'. destruct (i_up _ I _ _ Hi) as (a' & Hk' & Lt). rewrite Hk in Hk'. injection Hk' as <-.
  destruct I. assert (Ha : a ∈ pool s) by (by eapply elem_of_list_lookup_2).
  split; cbn [say set_pc set_lock set_count pool strong fresh lock threads packets log]; unfold refcount in *; cbn [say set_pc set_lock set_count strong]; try done.
  - intros b. rewrite count_upd. pose proof (cnt_insert (holds b) _ i _ (Has a) Hi). cbn [holds b2n] in H. rewrite is_b2n in H.
    pose proof (i_count0 b). destruct (decide (b = a)) as [->|N]; [rewrite decide_True in H by done|rewrite decide_False in H by congruence]; lia.
  - intros b. rewrite users_app, i_log0, count_upd. cbn [users]. destruct (decide (b = a)) as [->|N];
      [rewrite decide_True by done|rewrite decide_False by congruence]; lia.
  - intros j r H. rewrite (lookup_upd _ _ _ _ _ Hi) in H. destruct (decide (j = i)) as [->|N]; [by injection H as <-|].
    rewrite (other_unlocked _ _ _ _ _ I' Hi eq_refl N H). done.
  - intros b B. rewrite count_upd. destruct (i_fresh0 b B) as [X Y]. rewrite decide_False by congruence. done.
  - intros b. rewrite count_upd. intros H. assert (H' : b ∈ pool s \/ exists i, threads s !! i = Some (Registering b)).
    { destruct (decide (b = a)) as [->|N]; [by left|by apply i_live0]. }
    destruct H' as [X|[j X]]; [by left|right]. exists j. rewrite (lookup_upd _ _ _ _ _ Hi). destruct (decide (j = i)) as [->|N]; [congruence|done].
  - intros j b H. rewrite (lookup_upd _ _ _ _ _ Hi) in H. destruct (decide (j = i)) as [->|N]; [done|].
    destruct (i_reg0 _ _ H) as (X & Y). split; [done|]. rewrite count_upd, decide_False by congruence. done.
  - intros b. rewrite count_upd. pose proof (i_max0 b). destruct (decide (b = a)) as [->|N]; lia.
  - intros j k' H. rewrite (lookup_upd _ _ _ _ _ Hi) in H. destruct (decide (j = i)) as [->|N]; [done|].
    pose proof (other_unlocked _ _ _ _ _ I' Hi eq_refl N H). done.
  - intros b. rewrite opened_app, i_opened0. split; [|by left]. intros [X|[j X]]; [done|]. rewrite !elem_of_cons, elem_of_nil in X. naive_solver.
  - intros b. rewrite cnt_app'. cbn [cnt closes b2n]. rewrite i_closed0, count_upd. destruct (decide (b = a)) as [->|N].
    + rewrite decide_False by lia. rewrite decide_False by lia. done.
    + lia.
  - intros b. rewrite elem_of_app, !elem_of_cons, elem_of_nil. intros [X|X]; [|naive_solver]. destruct (i_pruned0 _ X) as (Y1 & Y2 & Y3).
    rewrite count_upd, decide_False by congruence. done.
  - intros j r H Lr. rewrite (lookup_upd _ _ _ _ _ Hi) in H. destruct (decide (j = i)) as [->|N]; [by injection H as <-|].
    pose proof (other_unlocked _ _ _ _ _ I' Hi eq_refl N H). congruence.
  - apply past_mono; [done|]. intros j b. rewrite !elem_of_cons, elem_of_nil. naive_solver.
Qed.

(** Opening an instance is refused. *)
Lemma inv_refused s i e : inv s -> threads s !! i = Some New -> inv (say (set_pc (set_lock s None) i Out) [Refused i e]).
Proof.
  intros I Hi. pose proof I as I'. destruct I.
  split; cbn [say set_pc set_lock pool strong fresh lock threads packets log]; unfold refcount in *; cbn [say set_pc set_lock strong]; try done.
  - intros b. pose proof (cnt_insert (holds b) _ i _ Out Hi). cbn [holds b2n] in H. rewrite i_count0. lia.
  - intros b. rewrite users_app, i_log0. cbn [users]. lia.
  - intros j r H. rewrite (lookup_upd _ _ _ _ _ Hi) in H. destruct (decide (j = i)) as [->|N]; [by injection H as <-|].
    rewrite (other_unlocked _ _ _ _ _ I' Hi eq_refl N H). done.
  - intros b H. destruct (i_live0 b H) as [X|[j X]]; [by left|right]. exists j. rewrite (lookup_upd _ _ _ _ _ Hi).
    destruct (decide (j = i)) as [->|N]; [congruence|done].
  - intros j b H. rewrite (lookup_upd _ _ _ _ _ Hi) in H. destruct (decide (j = i)) as [->|N]; [done|by apply (i_reg0 j)].
  - intros j k' H. rewrite (lookup_upd _ _ _ _ _ Hi) in H. destruct (decide (j = i)) as [->|N]; [done|by apply (i_up0 j)].
  - intros b. rewrite opened_app, i_opened0. split; [|by left]. intros [X|[j X]]; [done|]. by rewrite elem_of_list_singleton in X.
  - intros b. rewrite cnt_app'. cbn [cnt closes b2n]. rewrite i_closed0. lia.
  - intros b. rewrite elem_of_app, elem_of_list_singleton. intros [X|X]; [|done]. by apply i_pruned0.
  - intros j r H Lr. rewrite (lookup_upd _ _ _ _ _ Hi) in H. destruct (decide (j = i)) as [->|N]; [by injection H as <-|].
    pose proof (other_unlocked _ _ _ _ _ I' Hi eq_refl N H). congruence.
  - apply past_mono; [done|]. intros j b. by rewrite elem_of_list_singleton.
Qed.

(** Opening an instance. *)
Lemma inv_created s i : inv s -> threads s !! i = Some New ->
  inv (say (set_pc (bump (set_count s (fresh s) 1)) i (Registering (fresh s))) [Created i (fresh s)]).
Proof.
  intros I Hi. pose proof I as I'. set (a := fresh s). destruct I. destruct (i_fresh0 a) as [Za Na]; [done|].
  assert (NR : forall j b, threads s !! j = Some (Registering b) -> b <> a). { intros j b H ->. destruct (i_reg0 _ _ H) as (_ & _ & X). unfold a in X. lia. }
  split; cbn [say set_pc set_count bump pool strong fresh lock threads packets log]; unfold refcount in *; cbn [say set_pc set_count bump strong]; try done.
  - intros b. rewrite count_upd. pose proof (cnt_insert (holds b) _ i _ (Registering a) Hi). cbn [holds b2n] in H. rewrite is_b2n in H.
    pose proof (i_count0 b). destruct (decide (b = a)) as [->|N]; [rewrite decide_True in H by done|rewrite decide_False in H by congruence]; lia.
  - intros b. rewrite users_app, i_log0, count_upd. cbn [users]. destruct (decide (b = a)) as [->|N];
      [rewrite decide_True by done|rewrite decide_False by congruence]; lia.
  - intros j r H. rewrite (lookup_upd _ _ _ _ _ Hi) in H. destruct (decide (j = i)) as [->|N]; [|by apply i_lock0].
    injection H as <-. split; [intros _; by apply (i_lock0 _ _ Hi)|done].
  - intros j. rewrite insert_length. apply i_owner0.
  - intros b B. rewrite count_upd, decide_False by (unfold a; lia). apply i_fresh0. lia.
  - intros b. rewrite count_upd. destruct (decide (b = a)) as [->|N].
    + intros _. right. exists i. by rewrite (lookup_upd _ _ _ _ _ Hi), decide_True.
    + intros H. destruct (i_live0 b H) as [X|[j X]]; [by left|right]. exists j. rewrite (lookup_upd _ _ _ _ _ Hi).
      destruct (decide (j = i)) as [->|M]; [congruence|done].
  - intros j b H. rewrite (lookup_upd _ _ _ _ _ Hi) in H. destruct (decide (j = i)) as [->|N].
    + injection H as <-. rewrite count_upd, decide_True by done. unfold a. split_and!; [done|done|lia].
    + pose proof (NR _ _ H). rewrite count_upd, decide_False by done. destruct (i_reg0 _ _ H) as (X & Y & Z). split_and!; [done|done|lia].
  - intros b. rewrite count_upd. pose proof (i_max0 b). destruct (decide (b = a)) as [->|N]; lia.
  - intros j k' H. rewrite (lookup_upd _ _ _ _ _ Hi) in H. destruct (decide (j = i)) as [->|N]; [done|].
    destruct (i_up0 _ _ H) as (b & B1 & B2). exists b. split; [done|]. rewrite count_upd, decide_False; [done|]. intros ->. apply Na. by eapply elem_of_list_lookup_2.
  - intros b. rewrite opened_app, i_opened0. split.
    + intros [X|[j X]]; [lia|]. rewrite elem_of_list_singleton in X. injection X as _ ->. unfold a. lia.
    + intros X. destruct (decide (b = a)) as [->|N]; [right|left; unfold a in N; lia]. exists i. by apply elem_of_list_singleton.
  - intros b. rewrite cnt_app'. cbn [cnt closes b2n]. rewrite i_closed0, count_upd. destruct (decide (b = a)) as [->|N].
    + rewrite decide_False by (unfold a; lia). rewrite decide_False by lia. done.
    + destruct (decide (b < fresh s /\ default 0 (strong s !! b) = 0)); [rewrite decide_True by lia|rewrite decide_False by (unfold a in N; lia)]; done.
  - intros b. rewrite elem_of_app, elem_of_list_singleton. intros [X|X]; [|done]. apply i_pruned0 in X as (X & Y & Z).
    rewrite count_upd, decide_False by (unfold a; lia). split_and!; [done|done|lia].
  - intros j r H Lr. rewrite (lookup_upd _ _ _ _ _ Hi) in H. destruct (decide (j = i)) as [->|N].
    + injection H as <-. apply (scans_mono i New _ (pool s)); [by apply i_scan0|by rewrite elem_of_list_singleton|]. cbn [rest]. set_solver.
    + pose proof (other_unlocked _ _ _ _ _ I' Hi eq_refl N H). congruence.
  - intros j h1 h2 b h3 E N c C. rewrite app_comm_cons, app_assoc in E.
    apply app_eq_inv in E as [(k & E1 & E2)|(k & E1 & E2)].
    + destruct k as [|y k].
      * cbn in E2. injection E2 as <- _ _. destruct (i_scan0 _ _ Hi eq_refl) as (k1 & k2 & E & M & F). rewrite app_nil_r in E1.
        rewrite E in E1. apply began_unique in E1 as [<- <-]; [|done|done]. destruct (F c C) as [X|X]; [|done]. cbn [rest] in X. set_solver.
      * injection E2 as <- ->. apply (i_created0 j h1 h2 b k); try done. by rewrite E1, <- app_assoc.
    + destruct k as [|y k].
      * cbn in E2. injection E2 as <- _ _. destruct (i_scan0 _ _ Hi eq_refl) as (k1 & k2 & E & M & F). rewrite app_nil_r in E1.
        rewrite E in E1. apply began_unique in E1 as [<- <-]; [|done|done]. destruct (F c C) as [X|X]; [|done]. cbn [rest] in X. set_solver.
      * injection E2 as _ E2. by destruct k.
Qed.

(** Registering an instance is refused. *)
Lemma inv_unregistered s i a e : inv s -> threads s !! i = Some (Registering a) ->
  inv (say (set_pc (set_lock (drop_arc s a) None) i Out) [Refused i e]).
Proof.
  intros I Hi. pose proof I as I'. destruct (i_reg _ I _ _ Hi) as (Na & Ca & Fa). unfold drop_arc. rewrite Ca. cbn [pred]. rewrite decide_True by done.
  destruct I.
  split; cbn [say set_pc set_lock set_count pool strong fresh lock threads packets log]; unfold refcount in *; cbn [say set_pc set_lock set_count strong]; try done.
  - intros b. rewrite count_upd. pose proof (cnt_insert (holds b) _ i _ Out Hi). cbn [holds b2n] in H. rewrite is_b2n in H.
    pose proof (i_count0 b). destruct (decide (b = a)) as [->|N]; [rewrite decide_True in H by done|rewrite decide_False in H by congruence]; lia.
  - intros b. rewrite !users_app, i_log0, count_upd. cbn [users]. destruct (decide (b = a)) as [->|N];
      [rewrite decide_True by done|rewrite decide_False by congruence]; lia.
  - intros j r H. rewrite (lookup_upd _ _ _ _ _ Hi) in H. destruct (decide (j = i)) as [->|N]; [by injection H as <-|].
    rewrite (other_unlocked _ _ _ _ _ I' Hi eq_refl N H). done.
  - intros b B. rewrite count_upd. destruct (i_fresh0 b B) as [X Y]. rewrite decide_False by lia. done.
  - intros b. rewrite count_upd. destruct (decide (b = a)) as [->|N]; [lia|]. intros H. destruct (i_live0 b H) as [X|[j X]]; [by left|right].
    exists j. rewrite (lookup_upd _ _ _ _ _ Hi). destruct (decide (j = i)) as [->|M]; [congruence|done].
  - intros j b H. rewrite (lookup_upd _ _ _ _ _ Hi) in H. destruct (decide (j = i)) as [->|N]; [done|].
    pose proof (other_unlocked _ _ _ _ _ I' Hi eq_refl N H). done.
  - intros b. rewrite count_upd. pose proof (i_max0 b). destruct (decide (b = a)) as [->|N]; lia.
  - intros j k' H. rewrite (lookup_upd _ _ _ _ _ Hi) in H. destruct (decide (j = i)) as [->|N]; [done|].
    pose proof (other_unlocked _ _ _ _ _ I' Hi eq_refl N H). done.
  - intros b. rewrite !opened_app, i_opened0. split; [|by left; left]. intros [[X|[j X]]|[j X]]; [done| |]; rewrite ?elem_of_cons, ?elem_of_nil in X; naive_solver.
  - intros b. rewrite !cnt_app'. cbn [cnt closes b2n]. rewrite i_closed0, count_upd, is_b2n. destruct (decide (b = a)) as [->|N].
    + rewrite decide_False by lia. rewrite decide_True by done. rewrite decide_True by done. done.
    + rewrite (decide_False (P := a = b)) by congruence. lia.
  - intros b. rewrite <- app_assoc, elem_of_app. cbn [app]. rewrite !elem_of_cons, elem_of_nil. intros [X|X]; [|naive_solver]. apply i_pruned0 in X as (X & Y & Z).
    rewrite count_upd. destruct (decide (b = a)) as [->|N]; done.
  - intros j r H Lr. rewrite (lookup_upd _ _ _ _ _ Hi) in H. destruct (decide (j = i)) as [->|N]; [by injection H as <-|].
    pose proof (other_unlocked _ _ _ _ _ I' Hi eq_refl N H). congruence.
  - rewrite <- app_assoc. apply past_mono; [done|]. intros j b. cbn [app]. rewrite !elem_of_cons, elem_of_nil. naive_solver.
Qed.

(** Entering an instance into the pool. *)
Lemma inv_registered s i a : inv s -> threads s !! i = Some (Registering a) ->
  inv (say (set_pc (set_lock (set_pool s (pool s ++ [a])) None) i (Has a)) [Given i a]).
Proof.
  intros I Hi. pose proof I as I'. destruct (i_reg _ I _ _ Hi) as (Na & Ca & Fa). destruct I.
  split; cbn [say set_pc set_lock set_pool pool strong fresh lock threads packets log]; unfold refcount in *; cbn [say set_pc set_lock set_pool strong]; try done.
  - intros b. pose proof (cnt_insert (holds b) _ i _ (Has a) Hi). cbn [holds] in H. rewrite i_count0. lia.
  - intros b. rewrite users_app, i_log0. cbn [users]. lia.
  - intros j r H. rewrite (lookup_upd _ _ _ _ _ Hi) in H. destruct (decide (j = i)) as [->|N]; [by injection H as <-|].
    rewrite (other_unlocked _ _ _ _ _ I' Hi eq_refl N H). done.
  - intros b B. destruct (i_fresh0 b B) as [X Y]. split; [done|]. rewrite elem_of_app, elem_of_list_singleton. intros [?| ->]; [done|lia].
  - apply NoDup_app. split; [done|]. split; [|apply NoDup_singleton]. intros b B. rewrite elem_of_list_singleton. congruence.
  - intros b H. left. rewrite elem_of_app, elem_of_list_singleton. destruct (i_live0 b H) as [X|[j X]]; [by left|right].
    destruct (decide (j = i)) as [->|M]; [congruence|]. pose proof (other_unlocked _ _ _ _ _ I' Hi eq_refl M X). done.
  - intros j b H. rewrite (lookup_upd _ _ _ _ _ Hi) in H. destruct (decide (j = i)) as [->|N]; [done|].
    pose proof (other_unlocked _ _ _ _ _ I' Hi eq_refl N H). done.
  - intros j k' H. rewrite (lookup_upd _ _ _ _ _ Hi) in H. destruct (decide (j = i)) as [->|N]; [done|].
    pose proof (other_unlocked _ _ _ _ _ I' Hi eq_refl N H). done.
  - intros b. rewrite opened_app, i_opened0. split; [|by left]. intros [X|[j X]]; [done|]. by rewrite elem_of_list_singleton in X.
  - intros b. rewrite cnt_app'. cbn [cnt closes b2n]. rewrite i_closed0. lia.
  - intros b. rewrite elem_of_app, elem_of_list_singleton. intros [X|X]; [|done]. apply i_pruned0 in X as (X & Y & Z). split_and!; [done| |done].
    rewrite elem_of_app, elem_of_list_singleton. intros [?| ->]; [done|lia].
  - intros j r H Lr. rewrite (lookup_upd _ _ _ _ _ Hi) in H. destruct (decide (j = i)) as [->|N]; [by injection H as <-|].
    pose proof (other_unlocked _ _ _ _ _ I' Hi eq_refl N H). congruence.
  - apply past_mono; [done|]. intros j b. by rewrite elem_of_list_singleton.
Qed.

(** Putting an instance into a packet. *)
Lemma inv_stored s i a : inv s -> threads s !! i = Some (Has a) -> inv (set_pc (set_packets s (packets s ++ [a])) i Out).
Proof.
  intros I Hi. pose proof I as I'. destruct I.
  split; cbn [say set_pc set_packets pool strong fresh lock threads packets log]; unfold refcount in *; cbn [say set_pc set_packets strong]; try done.
  - intros b. pose proof (cnt_insert (holds b) _ i _ Out Hi). cbn [holds b2n] in H. rewrite cnt_app', i_count0. cbn [cnt]. lia.
  - intros j r H. rewrite (lookup_upd _ _ _ _ _ Hi) in H. destruct (decide (j = i)) as [->|N]; [|by apply i_lock0].
    injection H as <-. apply (i_lock0 _ _ Hi).
  - intros j. rewrite insert_length. apply i_owner0.
  - intros b H. destruct (i_live0 b H) as [X|[j X]]; [by left|right]. exists j. rewrite (lookup_upd _ _ _ _ _ Hi).
    destruct (decide (j = i)) as [->|N]; [congruence|done].
  - intros j b H. rewrite (lookup_upd _ _ _ _ _ Hi) in H. destruct (decide (j = i)) as [->|N]; [done|by apply (i_reg0 j)].
  - intros j k' H. rewrite (lookup_upd _ _ _ _ _ Hi) in H. destruct (decide (j = i)) as [->|N]; [done|by apply (i_up0 j)].
  - intros j r H Lr. rewrite (lookup_upd _ _ _ _ _ Hi) in H. destruct (decide (j = i)) as [->|N]; [by injection H as <-|by apply i_scan0].
Qed.

(** Freeing a packet. *)
Lemma inv_freed s k a : inv s -> packets s !! k = Some a -> inv (drop_arc (set_packets s (delete k (packets s))) a).
Proof.
  intros I Hk. pose proof I as I'. destruct I. pose proof (cnt_delete (is_ a) _ _ _ Hk) as Ck. rewrite is_b2n, decide_True in Ck by done.
  unfold drop_arc. unfold refcount in *. cbn [set_packets strong]. pose proof (i_count0 a) as Ca.
  set (c := pred (default 0 (strong s !! a))). set (d := if decide (c = 0) then [Dropped a; Closed a] else [Dropped a]).
  assert (Dm : forall o, o ∈ d -> o = Dropped a \/ o = Closed a). { intros o. unfold d. destruct (decide (c = 0)); rewrite !elem_of_cons, elem_of_nil; naive_solver. }
  assert (NR : forall j, threads s !! j <> Some (Registering a)).
  { intros j H. destruct (i_reg0 _ _ H) as (_ & X & _). pose proof (cnt_ge (holds a) _ _ _ H) as Y. cbn [holds] in Y. rewrite is_b2n, decide_True in Y by done. lia. }
  split; cbn [say set_pc set_packets set_count pool strong fresh lock threads packets log]; unfold refcount in *; cbn [say set_pc set_packets set_count strong]; try done.
  - intros b. rewrite count_upd. pose proof (cnt_delete (is_ b) _ _ _ Hk) as H. rewrite is_b2n in H. pose proof (i_count0 b).
    destruct (decide (b = a)) as [->|N]; [rewrite decide_True in H by done|rewrite decide_False in H by congruence]; unfold c; lia.
  - intros b. rewrite users_app, i_log0, count_upd. assert (U : users b d = if decide (b = a) then (-1)%Z else 0%Z).
    { unfold d. destruct (decide (c = 0)); cbn [users]; (destruct (decide (b = a)) as [->|N]; [rewrite decide_True by done|rewrite decide_False by congruence]); lia. }
    rewrite U. destruct (decide (b = a)) as [->|N]; unfold c; lia.
  - intros b B. rewrite count_upd. destruct (i_fresh0 b B) as [X Y]. destruct (decide (b = a)) as [->|N]; [unfold c; split; [lia|done]|done].
  - intros b. rewrite count_upd. intros H. apply i_live0. destruct (decide (b = a)) as [->|N]; [unfold c in H; lia|done].
  - intros j b H. destruct (decide (b = a)) as [->|N]; [by destruct (NR j)|]. rewrite count_upd, decide_False by done. by apply (i_reg0 j).
  - intros b. rewrite count_upd. pose proof (i_max0 b). destruct (decide (b = a)) as [->|N]; [unfold c|]; lia.
  - intros j k' H. destruct (i_up0 _ _ H) as (b & B1 & B2). exists b. split; [done|]. rewrite count_upd. destruct (decide (b = a)) as [->|N]; [unfold c|]; lia.
  - intros b. rewrite opened_app, i_opened0. split; [|by left]. intros [X|[j X]]; [done|]. apply Dm in X. naive_solver.
  - intros b. rewrite cnt_app', i_closed0, count_upd.
    assert (U : cnt (closes b) d = if decide (b = a /\ c = 0) then 1 else 0).
    { unfold d. destruct (decide (c = 0)); cbn [cnt closes b2n]; rewrite ?is_b2n; destruct (decide (b = a)) as [->|N].
      - rewrite decide_True by done. by rewrite decide_True.
      - rewrite decide_False by congruence. rewrite decide_False by (by intros [? _]). done.
      - rewrite decide_False by (by intros [_ ?]). done.
      - rewrite decide_False by (by intros [_ ?]). done. }
    rewrite U. destruct (decide (b = a)) as [->|N].
    + assert (a < fresh s). { destruct (decide (a < fresh s)); [done|]. destruct (i_fresh0 a) as [X _]; [lia|]. lia. }
      rewrite decide_False by lia. destruct (decide (c = 0)); [rewrite !decide_True by done|rewrite !decide_False by (by intros [_ ?])]; done.
    + rewrite (decide_False (P := b = a /\ c = 0)) by (by intros [? _]). lia.
  - intros b. rewrite elem_of_app. intros [X|X]; [|apply Dm in X; naive_solver]. apply i_pruned0 in X as (X & Y & Z). split_and!; [|done|done].
    rewrite count_upd. destruct (decide (b = a)) as [->|N]; [unfold c; lia|done].
  - intros j r H Lr. apply (scans_mono j r _ (pool s)); [by apply i_scan0| |by left]. intros X. apply Dm in X. naive_solver.
  - apply past_mono; [done|]. intros j b X. apply Dm in X. naive_solver.
Qed.

Lemma inv_step s l s' : inv s -> step s l = Some s' -> inv s'.
Proof.
  intros I H. destruct l as [i o|k]; cbn [step] in H.
  - destruct (threads s !! i) as [p|] eqn:Hi; [|done]. destruct p as [| |k|k| |a|a]; cbn [tstep] in H.
    + injection H as <-. apply (inv_pc s i Out); try done. intros b X. by apply elem_of_nil in X.
    + destruct (lock s) eqn:L; [done|]. injection H as <-. by apply inv_began.
    + injection H as <-. destruct (pool s !! k) as [a|] eqn:Hk.
      * destruct (decide (refcount s a = 0)) as [Z|Z]; [by apply (inv_prune s i (Scan k) k a); auto|].
        destruct (decide (AFD_MAX_SIZE <= refcount s a)) as [G|G]; apply (inv_pc s i (Scan k)); try done.
        -- intros b. cbn [rest]. rewrite (drop_S _ _ _ Hk), elem_of_cons. intros [->|X]; [right|by left]. right. unfold AFD_MAX_SIZE in G. lia.
        -- intros k' [= <-]. exists a. split; [done|]. unfold AFD_MAX_SIZE in G. lia.
        -- intros b X. by left.
      * apply (inv_pc s i (Scan k)); try done. intros b. cbn [rest]. apply lookup_ge_None in Hk. rewrite drop_ge by done. by left.
    + destruct (pool s !! k) as [a|] eqn:Hk; [|done]. injection H as <-.
      destruct (decide (refcount s a = 0)) as [Z|Z]; [by apply (inv_prune s i (Upgrade k) k a); auto|by apply (inv_took s i k a)].
    + injection H as <-. destruct o as [e|]; [by apply inv_refused|by apply inv_created].
    + injection H as <-. destruct o as [e|]; [by apply inv_unregistered|by apply inv_registered].
    + injection H as <-. by apply inv_stored.
  - destruct (packets s !! k) as [a|] eqn:Hk; [|done]. injection H as <-. by apply inv_freed.
Qed.
Lemma inv_run s ls s' : inv s -> run s ls = Some s' -> inv s'.
Proof.
  revert s. induction ls as [|l ls IH]; intros s I H; cbn [run] in H; [by injection H as <-|].
  destruct (step s l) as [s1|] eqn:E; [|done]. apply (IH s1); [by apply (inv_step s l)|done].
Qed.
Lemma inv_reach s : reachable s -> inv s.
Proof. intros (n & ls & H). apply (inv_run _ _ _ (inv_start n) H). Qed.

(** ** Termination *)
Definition measure (p : pc) (n : nat) : nat :=
  match p with Scan k => 2 * (n - k) + 3 | Upgrade k => 2 * (n - k) + 2 | New => 2 | Registering _ => 1 | _ => 0 end.
Definition mine (i : nat) (l : label) : nat := match l with LThread j _ => if decide (j = i) then 1 else 0 | LFree _ => 0 end.
Lemma prune_facts s k a : pool s !! k = Some a ->
  S (length (pool (prune s k))) = length (pool s) /\ threads (prune s k) = threads s /\ log (prune s k) = log s ++ [Pruned a] /\ k < length (pool s).
Proof.
  intros H. pose proof (lookup_lt_Some _ _ _ H) as Lt. unfold prune. rewrite H. cbn. split_and!; try done.
  apply swap_remove_spec in H as (l1 & l2 & l3 & -> & -> & P & <-). apply Permutation_length in P. rewrite !app_length. cbn [length]. lia.
Qed.
Lemma drop_arc_facts s a : threads (drop_arc s a) = threads s /\ pool (drop_arc s a) = pool s /\ exists d, log (drop_arc s a) = log s ++ d.
Proof. unfold drop_arc. cbn. eauto. Qed.

Lemma step_log s l s' : step s l = Some s' -> exists d, log s' = log s ++ d.
Proof.
  assert (N : exists d, log s = log s ++ d) by (exists []; by rewrite app_nil_r).
  destruct l as [i o|k]; cbn [step].
  - destruct (threads s !! i) as [p|]; [|done]. destruct p as [| |k|k| |a|a]; cbn [tstep].
    + intros [= <-]. done.
    + destruct (lock s); [done|]. intros [= <-]. cbn. eauto.
    + intros [= <-]. destruct (pool s !! k) as [a|] eqn:Hk; [|done]. repeat case_decide; cbn; [|done|done]. unfold prune. rewrite Hk. cbn. eauto.
    + destruct (pool s !! k) as [a|] eqn:Hk; [|done]. intros [= <-]. case_decide; cbn; [|eauto]. unfold prune. rewrite Hk. cbn. eauto.
    + intros [= <-]. destruct o; cbn; eauto.
    + intros [= <-]. destruct o; cbn; eauto. rewrite <- app_assoc. eauto.
    + intros [= <-]. done.
  - destruct (packets s !! k); [|done]. intros [= <-]. cbn. eauto.
Qed.
Lemma run_log s ls s' : run s ls = Some s' -> exists d, log s' = log s ++ d.
Proof.
  revert s. induction ls as [|l ls IH]; intros s H; cbn [run] in H; [injection H as <-; exists []; by rewrite app_nil_r|].
  destruct (step s l) as [s1|] eqn:E; [|done]. destruct (step_log _ _ _ E) as [d D]. destruct (IH _ H) as [d' D'].
  exists (d ++ d'). by rewrite D', D, app_assoc.
Qed.

Lemma measure_step s l s' i p : inv s -> threads s !! i = Some p -> locked p = true -> step s l = Some s' ->
  (exists q, threads s' !! i = Some q /\ locked q = true /\ measure q (length (pool s')) + mine i l <= measure p (length (pool s)))
  \/ exists d, log s' = log s ++ d /\ ended i d.
Proof.
  intros I Hi L H. pose proof (lookup_lt_Some _ _ _ Hi) as Li. destruct l as [j o|k]; cbn [step mine] in *.
  - destruct (decide (j = i)) as [->|N].
    + rewrite Hi in H. destruct p as [| |k|k| |a|a]; try done; cbn [tstep] in H.
      * injection H as <-. left. destruct (pool s !! k) as [a|] eqn:Hk.
        -- pose proof (lookup_lt_Some _ _ _ Hk). destruct (prune_facts _ _ _ Hk) as (P1 & P2 & _).
           repeat case_decide; cbn; rewrite ?P2, list_lookup_insert by done; eexists; (split; [done|]); (split; [done|]); cbn [measure]; lia.
        -- apply lookup_ge_None in Hk. cbn. rewrite list_lookup_insert by done. eexists; (split; [done|]); (split; [done|]); cbn [measure]; lia.
      * destruct (pool s !! k) as [a|] eqn:Hk; [|done]. injection H as <-. pose proof (lookup_lt_Some _ _ _ Hk). destruct (prune_facts _ _ _ Hk) as (P1 & P2 & _).
        case_decide.
        -- left. cbn. rewrite P2, list_lookup_insert by done. eexists; (split; [done|]); (split; [done|]); cbn [measure]; lia.
        -- right. cbn. eexists. split; [done|]. left. exists a. set_solver.
      * injection H as <-. destruct o as [e|].
        -- right. cbn. eexists. split; [done|]. right. exists e. set_solver.
        -- left. cbn. rewrite list_lookup_insert by done. eexists; (split; [done|]); (split; [done|]); cbn [measure]; lia.
      * injection H as <-. destruct o as [e|].
        -- right. cbn. rewrite <- app_assoc. eexists. split; [done|]. right. exists e. set_solver.
        -- right. cbn. eexists. split; [done|]. left. exists a. set_solver.
    + left. exists p. destruct (threads s !! j) as [q|] eqn:Hj; [|done]. pose proof (other_unlocked _ _ _ _ _ I Hi L N Hj) as Q.
      destruct q as [| |k|k| |a|a]; try done; cbn [tstep] in H.
      * injection H as <-. cbn. rewrite list_lookup_insert_ne by done. split_and!; [done|done|lia].
      * apply (i_lock _ I _ _ Hi) in L. by rewrite L in H.
      * injection H as <-. cbn. rewrite list_lookup_insert_ne by done. split_and!; [done|done|lia].
  - left. exists p. destruct (packets s !! k); [|done]. injection H as <-. cbn. split_and!; [done|done|lia].
Qed.
Lemma measure_run s ls s' i p : inv s -> threads s !! i = Some p -> locked p = true -> run s ls = Some s' ->
  (exists q, threads s' !! i = Some q /\ locked q = true /\ measure q (length (pool s')) + moves i ls <= measure p (length (pool s)))
  \/ exists d, log s' = log s ++ d /\ ended i d.
Proof.
  revert s p. induction ls as [|l ls IH]; intros s p I Hi L H; cbn [run] in H.
  - injection H as <-. left. exists p. cbn [moves]. split_and!; [done|done|lia].
  - destruct (step s l) as [s1|] eqn:E; [|done]. destruct (measure_step _ _ _ _ _ I Hi L E) as [(q & Hq & Lq & M)|(d & D & F)].
    + destruct (IH _ _ (inv_step _ _ _ I E) Hq Lq H) as [(r & Hr & Lr & R)|(d & D & F)].
      * left. exists r. split_and!; [done|done|]. destruct l; cbn [moves mine] in *; lia.
      * right. destruct (step_log _ _ _ E) as [d0 D0]. exists (d0 ++ d). split; [by rewrite D, D0, app_assoc|]. unfold ended in *. setoid_rewrite elem_of_app. naive_solver.
    + right. destruct (run_log _ _ _ H) as [d' D']. exists (d ++ d'). split; [by rewrite D', D, app_assoc|]. unfold ended in *. setoid_rewrite elem_of_app. naive_solver.
Qed.
Lemma lock_thread s i : inv s -> lock s = Some i -> exists p, threads s !! i = Some p /\ locked p = true.
Proof.
  intros I L. destruct (lookup_lt_is_Some_2 _ _ (i_owner _ I _ L)) as [p Hp]. exists p. split; [done|]. by apply (i_lock _ I _ _ Hp).
Qed.
Lemma ends s ls s' i : inv s -> lock s = Some i -> run s ls = Some s' -> 2 * length (pool s) + 3 <= moves i ls ->
  exists d, log s' = log s ++ d /\ ended i d.
Proof.
  intros I L H M. destruct (lock_thread _ _ I L) as (p & Hp & Lp).
  destruct (measure_run _ _ _ _ _ I Hp Lp H) as [(q & Hq & Lq & X)|X]; [|done].
  assert (measure p (length (pool s)) <= 2 * length (pool s) + 3) by (destruct p; cbn [measure]; lia).
  assert (0 < measure q (length (pool s'))) by (destruct q; try done; cbn [measure]; lia). lia.
Qed.
Lemma never_stuck s i o : inv s -> lock s = Some i -> exists s', step s (LThread i o) = Some s'.
Proof.
  intros I L. destruct (lock_thread _ _ I L) as (p & Hp & Lp). cbn [step]. rewrite Hp. destruct p as [| |k|k| |a|a]; try done; cbn [tstep]; eauto.
  destruct (i_up _ I _ _ Hp) as (a & -> & _). eauto.
Qed.
