(** C110: completions are processed in the order in which they were put into the port. *)
From stdpp Require Import prelude list gmap.
From Verif Require Import Bits Types EventModel Pool IocpModel IocpSpec IocpProofs IocpProofs2 IocpProofs8 IocpProofs9 IocpProofs10 IocpOrderSpec IocpOrderProofs IocpRuns.
From Verif Require IocpProps.
Local Open Scope nat_scope.

(** At any time, while nothing was dropped: what was processed is the first part of what was queued. *)
Theorem C110_in_order c s : reachable c s -> nothing_lost (log s) -> exists rest, queued (log s) = processed (log s) ++ rest.
Proof. intros R L. destruct (fifo_reach _ _ R) as (a & [A _ C _]). rewrite (C L) in A. eauto. Qed.
(** Between two waits, none of which failed: the rest is in the port, in that order. *)
Theorem C110_rest c s : reachable c s -> no_wait_failed (log s) -> current (log s) = None ->
  queued (log s) = processed (log s) ++ queue (sys s).
Proof.
  intros R L C. destruct (fifo_reach _ _ R) as (a & [A _ _ D]).
  assert (W : waiter s = WOut) by (destruct (w_cur _ (winv_reach _ _ R)) as [?|(w & Hw & _)]; [done|congruence]).
  rewrite W in A, D. cbn in A. by rewrite (D L eq_refl) in A.
Qed.
(** Whatever fails: some may be missing (C60), the others keep their order. *)
Theorem C110_order_kept c s : reachable c s -> processed (log s) `sublist_of` queued (log s).
Proof. intros R. destruct (fifo_reach _ _ R) as (a & [A B _ _]). rewrite A. by apply sublist_inserts_r. Qed.

(** A completion that has [length x] others before it in the port is the next after these, however
    few of them a wait takes, and however many come in later. *)
Lemma later_log c s s' : reachable c s -> later c s s' -> exists d, log s' = log s ++ d.
Proof.
  intros R. induction 1 as [|s1 l s2 H IH L E]; [exists []; by rewrite app_nil_r|]. destruct IH as [d IH].
  assert (R1 : reachable c s1) by by eapply later_reach. pose proof (tinv_reach _ _ R1) as T.
  assert (X : exists d, log s2 = log s1 ++ d).
  { destruct (step_cases _ _ _ _ E) as [(i & q & a & _ & Hq & X)|[(a & _ & X)|[(cap & d1 & old & _ & ->)|X]]].
    - destruct (thread_log _ _ _ _ _ _ T Hq X) as (_ & d1 & D1 & _). eauto.
    - destruct (wait_keeps _ _ _ _ T X) as (d1 & _ & D1 & _). eauto.
    - by eexists.
    - destruct (env_calls _ _ _ _ E X) as (d1 & D1 & _). eauto. }
  destruct X as [d1 X]. exists (d ++ d1). by rewrite X, IH, app_assoc.
Qed.
Theorem C110_in_turn c s s' x p y : reachable c s -> later c s s' -> nothing_lost (log s') ->
  queued (log s) = processed (log s) ++ x ++ p :: y -> length (processed (log s)) + length x < length (processed (log s')) ->
  exists z, processed (log s') = processed (log s) ++ x ++ p :: z.
Proof.
  intros R La NL Q Le. destruct (later_log _ _ _ R La) as [d Ed].
  destruct (C110_in_order c s' (later_reach _ _ _ R La) NL) as [rest Q']. rewrite Ed, queued_app, Q, <-!app_assoc in Q'. cbn [app] in Q'. rewrite <-Ed in Q'.
  set (P := processed (log s)) in *. set (P' := processed (log s')) in *.
  exists (drop (S (length P + length x)) P').
  assert (E : take (S (length P + length x)) P' = P ++ x ++ [p]).
  { rewrite <-(take_app_le P' rest) by lia. rewrite <-Q'. replace (P ++ x ++ p :: y ++ queued d) with ((P ++ x ++ [p]) ++ y ++ queued d) by (by rewrite <-!app_assoc).
    rewrite take_app_alt; [done|]. rewrite !app_length. cbn. lia. }
  rewrite <-(take_drop (S (length P + length x)) P') at 1. rewrite E, <-!app_assoc. done.
Qed.

(** What wait() delivers is in that order. *)
Lemma current_sublist h w : current h = Some w -> map fst (pr_events w) `sublist_of` processed h.
Proof.
  revert w. induction h as [|o h IH] using rev_ind; intros w H; [done|]. unfold current in H. rewrite fold_left_app in H. fold (current h) in H. cbn [fold_left] in H.
  rewrite processed_app.
  assert (K : forall w', current h = Some w' -> pr_events w = pr_events w' -> map fst (pr_events w) `sublist_of` processed h ++ processed [o]).
  { intros w' C ->. apply sublist_inserts_r. by apply IH. }
  destruct o; cbn in H; try (by eapply K).
  - destruct p, r; cbn in H; try (by eapply K); destruct (current h) as [w'|] eqn:C; try done; cbn in H; injection H as <-; try (by eapply K);
      cbn [pr_events]; rewrite map_app; (apply sublist_app; [by apply IH|done]).
  - injection H as <-. cbn. apply sublist_nil_l.
  - destruct (current h) as [w'|] eqn:C; [|done]. injection H as <-. by eapply K.
Qed.
Theorem C110_container c s h1 evs h2 : reachable c s -> log s = h1 ++ WaitRet (Ok tt) evs :: h2 -> map fst evs `sublist_of` queued (log s).
Proof.
  intros R E. destruct (IocpProps.C19_not_early _ _ _ _ _ R E) as (w & C & -> & _). etransitivity; [by apply current_sublist|].
  etransitivity; [|by eapply C110_order_kept]. rewrite E, processed_app. by apply sublist_inserts_r.
Qed.

(** Packets that are posted one after the other, by whichever threads, come out in this order. *)
Lemma last_unquiet i a x b a' x' b' : a ++ x :: b = a' ++ x' :: b' -> ~ quiet i [x] -> ~ quiet i [x'] -> quiet i b -> quiet i b' -> a = a' /\ x = x' /\ b = b'.
Proof.
  intros E Nx Nx' Q. revert b' E. induction b as [|y b IH] using rev_ind; intros b' E Q'.
  - destruct b' as [|y' b' _] using rev_ind; [by apply app_inj_tail in E as [-> ->]|].
    rewrite app_comm_cons, app_assoc in E. apply app_inj_tail in E as [_ <-]. by apply Forall_app in Q' as [_ ?].
  - apply Forall_app in Q as [Q Qy]. destruct b' as [|y' b' _] using rev_ind.
    + rewrite app_comm_cons, app_assoc in E. by apply app_inj_tail in E as [_ ->].
    + apply Forall_app in Q' as [Q' _]. rewrite !app_comm_cons, !app_assoc in E. apply app_inj_tail in E as [E ->].
      destruct (IH Q b' E Q') as (-> & -> & ->). done.
Qed.
Lemma unquiet_called i c : ~ quiet i [Called i c].
Proof. by intros [H _]%Forall_cons. Qed.
Lemma queued_two x p y q z : queued (x ++ Posted p :: y ++ Posted q :: z) = queued x ++ p :: queued y ++ q :: queued z.
Proof.
  rewrite queued_app. f_equal. change (queued (Posted p :: y ++ Posted q :: z)) with (p :: queued (y ++ Posted q :: z)). f_equal. by rewrite queued_app.
Qed.
Theorem C110_posts_in_order c s h1 i n h2 j m h3 h4 : reachable c s ->
  log s = h1 ++ Returned i (CPost n) (Ok tt) :: h2 ++ Called j (CPost m) :: h3 ++ Returned j (CPost m) (Ok tt) :: h4 -> quiet j h3 ->
  exists x y z, queued (log s) = x ++ PCustom n :: y ++ PCustom m :: z.
Proof.
  intros R E Q. destruct (pinv_reach _ _ R) as [_ I].
  destruct (I _ _ _ _ _ E) as (a1 & b1 & d1 & E1 & _).
  destruct (I (h1 ++ Returned i (CPost n) (Ok tt) :: h2 ++ Called j (CPost m) :: h3) j m tt h4) as (a2 & b2 & d2 & E2 & Qb & Qd).
  { rewrite E, <-!app_assoc. cbn. by rewrite <-!app_assoc. }
  rewrite app_comm_cons, app_assoc in E2.
  destruct (last_unquiet j _ _ _ _ _ _ E2 (unquiet_called _ _) (unquiet_called _ _) Q) as (_ & _ & ->).
  { apply Forall_app. split; [done|]. by constructor. }
  exists (queued (a1 ++ Called i (CPost n) :: b1)), (queued (d1 ++ Returned i (CPost n) (Ok tt) :: h2 ++ Called j (CPost m) :: b2)), (queued (d2 ++ Returned j (CPost m) (Ok tt) :: h4)).
  rewrite <-queued_two. f_equal. rewrite E, E1. repeat (rewrite <-app_assoc; cbn [app]). done.
Qed.

(** Two packets are posted one after the other, then AFD finishes a request; a wait with room for
    one completion takes the first packet, the next one the second. *)
Definition in_line : list label :=
  [LMake (rd 1); LMake (rd 2); by_ 0 (CAdd 5 (rd 7) Level); t 0; t 0; t 0; t 0; t 0;
   by_ 0 (CPost 1); t 0; t 0; by_ 1 (CPost 0); t 1; t 1; LWait 1 None []; w; at_ 10; w; LDone 0 BDone 1 AFD_RECEIVE; at_ 11; got; w; w; w; w; w].
Definition next_in_line : list label := [LWait 1 None []; w; at_ 12; got; w; w; w; w; w].
Example C110_case : exists c s, valid c /\ reachable c s /\ nothing_lost (log s) /\ no_wait_failed (log s) /\ current (log s) = None
  /\ queued (log s) = [PCustom 1; PCustom 0; PSock 2] /\ processed (log s) = [PCustom 1] /\ (exists h1 evs h2, log s = h1 ++ WaitRet (Ok tt) evs :: h2)
  /\ exists h1 h2 h3 h4, log s = h1 ++ Returned 0 (CPost 1) (Ok tt) :: h2 ++ Called 1 (CPost 0) :: h3 ++ Returned 1 (CPost 0) (Ok tt) :: h4 /\ quiet 1 h3.
Proof.
  sees logged cfg 2 in_line s H R X. clear H. unfold logged in X. exists cfg, s. split; [unfold valid; cbn; lia|]. split; [exact R|]. clear R. rewrite X. clear X.
  split; [intros p; not_in_list|]. split; [intros e v; not_in_list|]. split; [reflexivity|]. split; [reflexivity|]. split; [reflexivity|].
  split; [by eexists [_; _; _; _; _; _; _; _; _; _; _; _; _; _], _, _|].
  eexists [_; _; _; _; _; _], [], [_], _. split; [reflexivity|]. by repeat constructor.
Qed.
(** The second packet has one completion before it, and is the second to be processed. *)
Example C110_in_turn_case : exists c s s' x y, valid c /\ reachable c s /\ later c s s' /\ nothing_lost (log s')
  /\ queued (log s) = processed (log s) ++ x ++ PCustom 0 :: y /\ length (processed (log s)) + length x < length (processed (log s')).
Proof.
  sees2 logged logged cfg 2 (take 14 in_line) (drop 14 in_line ++ next_in_line) s s' R La X Y. unfold logged in X, Y.
  exists cfg, s, s', [PCustom 1], []. split; [unfold valid; cbn; lia|]. split; [exact R|]. split; [exact La|]. clear R La. rewrite X, Y. clear X Y.
  split; [intros p; not_in_list|]. split; [reflexivity|]. cbn. lia.
Qed.

Print Assumptions C110_in_order.
Print Assumptions C110_rest.
Print Assumptions C110_order_kept.
Print Assumptions C110_in_turn.
Print Assumptions C110_container.
Print Assumptions C110_posts_in_order.
