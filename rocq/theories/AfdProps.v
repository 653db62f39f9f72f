(** C63: AFD instances are shared by at most 32 sockets and are not leaked. *)
From stdpp Require Import prelude list gmap.
From Verif Require Import Types Pool AfdModel AfdSpec AfdProofs.
Local Open Scope nat_scope.

(** At no time are there more than 32 references to an instance, so at most 32 sockets use it. *)
Theorem C63_at_most_32 s a : reachable s ->
  (Z.of_nat (length (filter (fun b => b = a) (packets s))) <= users a (log s) <= 32)%Z.
Proof.
  intros R. apply inv_reach in R. rewrite (i_log _ R). pose proof (i_max _ R a). pose proof (i_count _ R a).
  assert (E : forall l, length (filter (fun b => b = a) l) = cnt (is_ a) l).
  { induction l as [|b l IH]; [done|]. cbn [cnt]. rewrite is_b2n, filter_cons, <- IH. destruct (decide (b = a)); done. }
  rewrite E. lia.
Qed.

(** A call that has the lock of the pool is never blocked, and ends after at most 2n + 3 of its own moves, [n] being the
    size of the pool, whatever the others do meanwhile. *)
Theorem C63_never_blocked s i o : reachable s -> lock s = Some i -> exists s', step s (LThread i o) = Some s'.
Proof. intros R. apply never_stuck. by apply inv_reach. Qed.
Theorem C63_terminates s ls s' i : reachable s -> lock s = Some i -> run s ls = Some s' -> 2 * length (pool s) + 3 <= moves i ls ->
  exists d, log s' = log s ++ d /\ ended i d.
Proof. intros R. apply ends. by apply inv_reach. Qed.
(** The lock is given back. *)
Theorem C63_lock_released s i : reachable s -> lock s = Some i -> exists ls s', run s ls = Some s' /\ lock s' = None.
Proof.
  intros R L. apply inv_reach in R. destruct (lock_thread _ _ R L) as (p & Hp & Lp).
  remember (measure p (length (pool s))) as n eqn:En. revert s p R L Hp Lp En.
  induction n as [n IH] using lt_wf_ind. intros s p R L Hp Lp En.
  destruct (never_stuck s i None R L) as [s1 H1]. pose proof (inv_step _ _ _ R H1) as I1.
  destruct (lock s1) as [j|] eqn:L1; [|exists [LThread i None], s1; cbn [run]; by rewrite H1].
  destruct (measure_step _ _ _ _ _ R Hp Lp H1) as [(q & Hq & Lq & M)|(d & D & F)].
  - cbn [mine] in M. rewrite decide_True in M by done. assert (lock s1 = Some i) by (by apply (i_lock _ I1 _ _ Hq)).
    destruct (IH (measure q (length (pool s1))) ltac:(lia) s1 q I1 ltac:(done) Hq Lq eq_refl) as (ls & s' & X & Y).
    exists (LThread i None :: ls), s'. cbn [run]. by rewrite H1.
  - exfalso. cbn [step] in H1. rewrite Hp in H1. destruct p as [| |k|k| |a|a]; try done; cbn [tstep] in H1.
    + injection H1 as <-. destruct (pool s !! k) as [a|] eqn:Hk; [repeat case_decide|]; cbn in D, L1.
      * rewrite (proj1 (proj2 (proj2 (prune_facts _ _ _ Hk)))) in D. apply app_inv_head in D as <-. destruct F as [[b F]|[b F]]; by rewrite elem_of_list_singleton in F.
      * rewrite <- (app_nil_r (log s)) in D at 1. apply app_inv_head in D as <-. destruct F as [[b F]|[b F]]; by apply elem_of_nil in F.
      * rewrite <- (app_nil_r (log s)) in D at 1. apply app_inv_head in D as <-. destruct F as [[b F]|[b F]]; by apply elem_of_nil in F.
      * rewrite <- (app_nil_r (log s)) in D at 1. apply app_inv_head in D as <-. destruct F as [[b F]|[b F]]; by apply elem_of_nil in F.
    + destruct (pool s !! k) as [a|] eqn:Hk; [|done]. injection H1 as <-. case_decide; cbn in D, L1; [|done].
      rewrite (proj1 (proj2 (proj2 (prune_facts _ _ _ Hk)))) in D. apply app_inv_head in D as <-. destruct F as [[b F]|[b F]]; by rewrite elem_of_list_singleton in F.
    + injection H1 as <-. cbn in D. apply app_inv_head in D as <-. destruct F as [[b F]|[b F]]; by rewrite elem_of_list_singleton in F.
    + injection H1 as <-. by cbn in L1.
Qed.

(** Only dead instances are dropped from the pool, and they stay dead; every instance in use can be found there, once. *)
Theorem C63_prunes_only_dead s a : reachable s -> Pruned a ∈ log s -> users a (log s) = 0%Z /\ opened a (log s) /\ a ∉ pool s.
Proof.
  intros R H. apply inv_reach in R. destruct (i_pruned _ R _ H) as (X & Y & Z). rewrite (i_log _ R), X. split_and!; [done| |done]. by apply i_opened.
Qed.
Theorem C63_in_use_is_found s a : reachable s -> lock s = None -> (0 < users a (log s))%Z -> a ∈ pool s.
Proof.
  intros R L U. apply inv_reach in R. rewrite (i_log _ R) in U. destruct (i_live _ R a) as [X|[i X]]; [lia|done|].
  pose proof (i_lock _ R _ _ X) as [Y _]. specialize (Y eq_refl). congruence.
Qed.
Theorem C63_once s : reachable s -> NoDup (pool s).
Proof. intros R. apply inv_reach in R. apply R. Qed.

(** A new instance is opened only if each instance that there was when the call took the lock had 32 users, or none, at
    some moment of the call. *)
Theorem C63_creates_only_if_full s i h1 h2 a h3 b : reachable s ->
  log s = h1 ++ Began i :: h2 ++ Created i a :: h3 -> Began i ∉ h2 -> opened b h1 ->
  at_some_time b (fun z => z = 0 \/ 32 <= z)%Z h1 (Began i :: h2).
Proof. intros R E N B. apply inv_reach in R. by apply (i_created _ R i h1 h2 a h3). Qed.

(** An instance is closed once, when its last user is gone, and not before. *)
Theorem C63_closed_once s a : reachable s ->
  closings a (log s) <= 1 /\ (closings a (log s) = 1 <-> opened a (log s) /\ users a (log s) = 0%Z).
Proof.
  intros R. apply inv_reach in R. assert (E : forall h, closings a h = cnt (closes a) h).
  { induction h as [|o h IH]; [done|]. destruct o; cbn [closings cnt closes b2n]; rewrite ?is_b2n, ?IH; done. }
  rewrite E, (i_closed _ R), (i_log _ R), (i_opened _ R). case_decide as D; (split; [lia|]); split; intros X; lia.
Qed.

(** ** Cases *)
(** One thread adds 33 sockets: one instance is opened for the first, 31 more share it, the 33rd opens another;
    a later add shares that. *)
Definition me (n : nat) : list label := replicate n (LThread 0 None).
Definition first : list label := me 6.
Definition share : list label := me 5.
Definition many : list label := first ++ mjoin (replicate 31 share).
Definition second : list label := me 7.
(** 32 users of the first instance and one of the second. *)
Definition full : list label := many ++ second.
(** All users of the first instance are gone; the next scan removes its pointer, and shares the second. *)
Definition emptied : list label := full ++ replicate 32 (LFree 0) ++ me 6.

Definition seen {A} (f : state -> A) (n : nat) (ls : list label) : option A := f <$> run (start n) ls.
Lemma seen_reach {A} (f : state -> A) n ls x : seen f n ls = Some x -> exists s, reachable s /\ f s = x.
Proof. unfold seen. intros H. apply fmap_Some in H as (s & H & ->). exists s. split; [|done]. by exists n, ls. Qed.

Example C63_at_most_32_case : exists s, reachable s /\ users 0 (log s) = 32%Z /\ users 1 (log s) = 1%Z /\ pool s = [0; 1].
Proof.
  destruct (seen_reach (fun s => (users 0 (log s), users 1 (log s), pool s)) 2 full (32%Z, 1%Z, [0; 1])) as (s & R & X); [vm_compute; reflexivity|].
  injection X as X Y Z. eauto.
Qed.
Example C63_prunes_case : exists s, reachable s /\ Pruned 0 ∈ log s /\ pool s = [1] /\ users 1 (log s) = 2%Z /\ closings 0 (log s) = 1 /\ lock s = None.
Proof.
  destruct (seen_reach (fun s => (filter (fun o => is_Some (match o with Pruned a => Some a | _ => None end)) (log s), pool s, users 1 (log s), closings 0 (log s), lock s)) 2 emptied
    ([Pruned 0], [1], 2%Z, 1, None)) as (s & R & X); [vm_compute; reflexivity|].
  injection X as X1 X2 X3 X4 X5. exists s. split_and!; try done.
  assert (M : Pruned 0 ∈ [Pruned 0]) by constructor. rewrite <- X1 in M. by apply elem_of_list_filter in M as [_ M].
Qed.
(** The last user goes away between the reading of the count and the upgrade: the pointer is removed and a new
    instance opened. *)
Example C63_race_case : exists s h1 h2, reachable s /\ log s = h1 ++ Began 1 :: h2 ++ [Created 1 1; Given 1 1] /\ Began 1 ∉ h2 /\ opened 0 h1.
Proof.
  destruct (seen_reach log 2 (first ++ replicate 3 (LThread 1 None) ++ [LFree 0] ++ replicate 4 (LThread 1 None))
    [Began 0; Created 0 0; Given 0 0; Began 1; Dropped 0; Closed 0; Pruned 0; Created 1 1; Given 1 1]) as (s & R & X); [vm_compute; reflexivity|].
  exists s, [Began 0; Created 0 0; Given 0 0], [Dropped 0; Closed 0; Pruned 0]. split; [done|]. split; [done|].
  split; [rewrite !elem_of_cons, elem_of_nil; naive_solver|]. exists 0. rewrite !elem_of_cons. auto.
Qed.
(** A scan is under way in a pool of two, while others hold instances. *)
Example C63_terminates_case : exists s ls s', reachable s /\ lock s = Some 1 /\ length (pool s) = 2 /\ run s ls = Some s' /\ 2 * length (pool s) + 3 <= moves 1 ls.
Proof.
  set (l1 := full ++ [LThread 1 None; LThread 1 None]). set (l2 := LFree 0 :: replicate 7 (LThread 1 None)).
  assert (H : match run (start 2) l1 with Some s => match run s l2 with Some s' => (lock s, length (pool s)) | None => (None, 0) end | None => (None, 0) end = (Some 1, 2))
    by (vm_compute; reflexivity).
  destruct (run (start 2) l1) as [s|] eqn:E; [|discriminate H]. destruct (run s l2) as [s'|] eqn:E'; [|discriminate H]. injection H as H1 H2.
  exists s, l2, s'. split; [exists 2, l1; exact E|]. split; [exact H1|]. split; [exact H2|]. split; [exact E'|]. rewrite H2. vm_compute. lia.
Qed.

Print Assumptions C63_at_most_32.
Print Assumptions C63_never_blocked.
Print Assumptions C63_terminates.
Print Assumptions C63_lock_released.
Print Assumptions C63_prunes_only_dead.
Print Assumptions C63_in_use_is_found.
Print Assumptions C63_once.
Print Assumptions C63_creates_only_if_full.
Print Assumptions C63_closed_once.
