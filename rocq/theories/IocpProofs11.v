(** Notifications, deletion and blocked waits. *)
From stdpp Require Import prelude list gmap.
From Verif Require Import Bits Types EventModel Pool IocpModel IocpSpec IocpProofs IocpProofs2 IocpProofs3 IocpProofs4 IocpProofs5 IocpProofs6 IocpProofs7 IocpProofs8 IocpProofs9 IocpProofs10.
Local Open Scope nat_scope.

(* ------------------------------------------------------------------ *)
(** ** Calls that were made and returned since *)

Section Since.
  Context (start fin : obs -> option nat) (reset : obs -> bool) (ready : pc -> Prop).
  Definition sinv (good : Prop) (ths : list pc) (h : list obs) : Prop :=
    (forall i, i ∈ (since start fin reset h).1 -> (exists q, ths !! i = Some q /\ ready q) \/ good)
    /\ ((since start fin reset h).2 = true -> good).
  Definition unseen (o : obs) : Prop := start o = None /\ fin o = None /\ reset o = false.
  Lemma since_snoc h o : since start fin reset (h ++ [o]) = since_step start fin reset (since start fin reset h) o.
  Proof. unfold since. by rewrite fold_left_app. Qed.
  Lemma since_unseen h d : Forall unseen d -> since start fin reset (h ++ d) = since start fin reset h.
  Proof.
    induction d as [|o d IH] using rev_ind; [by rewrite app_nil_r|]. intros [H1 H2]%Forall_app. rewrite app_assoc, since_snoc, IH by done.
    apply Forall_singleton in H2 as (A & B & C). unfold since_step. by rewrite A, B, C.
  Qed.
  Lemma sinv_unseen (good good' : Prop) ths ths' h d :
    sinv good ths h -> Forall unseen d -> (good -> good') ->
    (forall i q, ths !! i = Some q -> ready q -> (exists q', ths' !! i = Some q' /\ ready q') \/ good') -> sinv good' ths' (h ++ d).
  Proof.
    intros [S1 S2] U G R. unfold sinv. rewrite since_unseen by done. split; [|auto].
    intros i Hi. destruct (S1 i Hi) as [(q & Hq & Rq)|?]; [by apply (R i q)|auto].
  Qed.
  Lemma sinv_reset good ths h o : reset o = true -> sinv good ths (h ++ [o]).
  Proof. intros H. unfold sinv. rewrite since_snoc. unfold since_step. rewrite H. split; [by intros i ?%not_elem_of_nil|done]. Qed.
  Lemma sinv_start (good : Prop) ths h o i q : sinv good ths h -> start o = Some i -> reset o = false -> ready q -> i < length ths ->
    sinv good (<[i:=q]> ths) (h ++ [o]).
  Proof.
    intros [S1 S2] H1 H2 Rq Li. unfold sinv. rewrite since_snoc. unfold since_step. rewrite H2, H1. cbn [fst snd]. split; [|done].
    intros j Hj. destruct (decide (j = i)) as [->|].
    - left. exists q. split; [by apply list_lookup_insert|done].
    - apply elem_of_cons in Hj as [?|Hj]; [done|]. rewrite list_lookup_insert_ne by done. by apply S1.
  Qed.
  Lemma sinv_fin (good : Prop) ths h o i q q' : sinv good ths h -> start o = None -> fin o = Some i -> reset o = false ->
    ths !! i = Some q -> ~ ready q -> sinv good (<[i:=q']> ths) (h ++ [o]).
  Proof.
    intros [S1 S2] H0 H1 H2 Hq Nq. unfold sinv. rewrite since_snoc. unfold since_step. rewrite H2, H0, H1. cbn [fst snd].
    assert (X : i ∈ (since start fin reset h).1 -> good).
    { intros Hi. destruct (S1 i Hi) as [(q0 & Hq0 & Rq)|?]; [|done]. rewrite Hq in Hq0. by injection Hq0 as <-. }
    split.
    - intros j Hj. destruct (decide (j = i)) as [->|]; [right; by apply X|]. rewrite list_lookup_insert_ne by done. by apply S1.
    - intros [?|Hb%bool_decide_eq_true]%orb_true_iff; auto.
  Qed.
End Since.

(* ------------------------------------------------------------------ *)
(** ** Notifications *)

Definition at_swap (q : pc) : Prop := match q with NSwap CNotify => True | _ => False end.
Notation nsinv := (sinv notify_start notify_fin wait_end at_swap).
Definition ninv (s : state) : Prop := nsinv (notified s = true) (threads s) (log s).
Lemma quiet_notify d : Forall (fun o => call_obs o = false) d -> (forall r evs, WaitRet r evs ∉ d) -> Forall (unseen notify_start notify_fin wait_end) d.
Proof.
  intros F W. apply Forall_forall. intros o Ho. rewrite Forall_forall in F. specialize (F _ Ho). unfold unseen.
  destruct o; try done. exfalso. by eapply W.
Qed.
Lemma aside_waitret d r evs : Forall aside d -> WaitRet r evs ∉ d.
Proof. intros F H. rewrite Forall_forall in F. by apply F in H. Qed.

(** Effect of a waiter step on the flag. *)
Lemma wait_flag c s a s' : tinv s -> wait_step c s a = Some s' ->
  (notified s' = notified s /\ exists d, log s' = log s ++ d /\ Forall own d /\ forall r evs, WaitRet r evs ∉ d)
  \/ (exists r evs, log s' = log s ++ [WaitRet r evs] /\ (r = Ok tt /\ notified s' = false \/ exists e, r = Err e)).
Proof.
  intros T H. pose proof (t_wait _ T) as TW. unfold wait_step in H.
  assert (N : forall s2, log s2 = log s -> notified s2 = notified s ->
     (notified s2 = notified s /\ exists d, log s2 = log s ++ d /\ Forall own d /\ forall r evs, WaitRet r evs ∉ d) \/ (exists r evs, log s2 = log s ++ [WaitRet r evs] /\ (r = Ok tt /\ notified s2 = false \/ exists e, r = Err e))).
  { intros s2 E1 E2. left. split; [done|]. exists []. rewrite app_nil_r. split_and!; try done. intros. apply not_elem_of_nil. }
  assert (M : forall d r evs, Forall mishap d -> WaitRet r evs ∉ d).
  { intros d r evs F Hin. rewrite Forall_forall in F. by apply F in Hin. }
  assert (ML : forall b r evs, WaitRet r evs ∉ map Lost b).
  { intros b r evs Hy. by apply elem_of_list_fmap in Hy as (? & ? & _). }
  destruct (waiter s) as [|l|l|l q|l z|l z b|l z b|l z p b|l z b ret p u|l e g|l|d own b] eqn:E, a;
    try done; try (by destruct b); cbn in TW; try (injection H as <-; by apply N).
  - destruct (pending s) as [|q r] eqn:Ep; injection H as <-; [|by apply N]. left. split; [done|]. eexists. split_and!; [done|by repeat constructor|].
    by intros r evs ?%elem_of_list_singleton.
  - left. destruct (do_update s q o) as [r s1] eqn:Eu. assert (s1 = (do_update s q o).2) as -> by by rewrite Eu. clear Eu. injection H as <-.
    split; [done|]. exists (if ef_fault (update (pmem s) (sys s) q o) then [Fault q] else []). split_and!; try done.
    + destruct (ef_fault _); by repeat constructor.
    + intros r0 evs. destruct (ef_fault _); [by intros ?%elem_of_list_singleton|apply not_elem_of_nil].
  - case_decide; [done|]. injection H as <-. by apply N.
  - destruct b; [case_match|]; injection H as <-; by apply N.
  - left. destruct (feed_log _ _ _ _ _ _ _ T E H) as (X1 & X2 & X3 & _ & _ & r & d & L & D). split; [done|]. exists (Fed p r :: d). split; [done|].
    assert (NG : forall d1, Forall deletes d1 -> Forall own d1 /\ forall r evs, WaitRet r evs ∉ d1).
    { intros d1 F. split; [eapply Forall_impl; [exact F|]; by intros o0 [?|[q0 ->]]; [destruct o0|]|].
      intros r0 evs Hin. rewrite Forall_forall in F. by apply F in Hin as [?|[? ?]]. }
    destruct D as [(D1 & _)|(d1 & -> & D1 & _)]; destruct (NG _ D1) as [G1 G2].
    + split; [by constructor|]. intros r0 evs [?|Hin]%elem_of_cons; [done|]. by apply G2 in Hin.
    + split; [constructor; [done|apply Forall_app; split; [done|apply lost_own]]|].
      intros r0 evs [?|[Hin|Hin]%elem_of_app]%elem_of_cons; [done|by apply G2 in Hin|by apply ML in Hin].
  - left. destruct TW as (TW1 & TW2 & TW3). destruct (ustep _ _ _ _ _) as [s1 x] eqn:Eu.
    destruct (ustep_log _ _ _ _ _ _ _ TW1 TW2 Eu) as (Q & d & D1 & D2 & D3 & D4). destruct (ustep_frame _ _ _ _ _ _ _ Eu) as (_ & _ & _ & _ & _ & X6 & _).
    destruct x as [u'|[[]|e|]]; [| | |done]; injection H as <-; (split; [done|]).
    1,2: exists d; split_and!; [done|by apply aside_own|by intros; apply M].
    exists (d ++ map Lost b). split_and!.
    + cbn. by rewrite D1, app_assoc.
    + apply Forall_app. split; [by apply aside_own|apply lost_own].
    + intros r evs [Hin|Hin]%elem_of_app; [by apply M in Hin|by apply ML in Hin].
  - injection H as <-. right. eexists _, _. split; [done|]. right. by eexists.
  - injection H as <-. right. eexists _, _. split; [done|]. by left.
Qed.
Lemma thread_flag c s i q a s' : threads s !! i = Some q -> thread_step c s i q a = Some s' ->
  (match q with NSwap _ => notified s' = true | _ => notified s' = notified s end).
Proof.
  intros Hq H. destruct q, a; try done; unfold thread_step in H; try (injection H as <-; done).
  - destruct o; [by injection H as <-|]. destruct (new_packet _ _) as [[[m p] ob]|] eqn:E; [|done]. cbn [mbind option_bind] in H. by injection H as <-.
  - destruct (insert_packet _ _ _) as [s1|] eqn:E; injection H as <-; [|done].
    destruct c0, p; cbn in E; try done; (case_in E; [done|]); by injection E as <-.
  - destruct (lookup_packet _ _) as [p|] eqn:E; by injection H as <-.
  - destruct (do_set _ _ _) as [[s1 b]|] eqn:E; [|done]. cbn [mbind option_bind] in H. injection H as <-.
    assert (X : notified s1 = notified s).
    { destruct c0, p; cbn in E; try done; (case_in E; [|done]); cbn in E; by injection E as <- _. }
    by destruct b.
  - destruct (ustep _ _ _ _ _) as [s1 x] eqn:E. injection H as <-. by destruct (ustep_frame _ _ _ _ _ _ _ E) as (_ & _ & _ & _ & _ & X6 & _).
  - destruct (lookup_packet _ _) as [p|] eqn:E; injection H as <-; [|done]. by destruct c0.
  - destruct (notified s) eqn:E; by injection H as <-.
  - unfold do_post in H; destruct o; by injection H as <-.
Qed.
Lemma ninv_reach c s : reachable c s -> ninv s.
Proof.
  induction 1 as [n|s l s' Hr IH L H]; [split; [by intros i ?%not_elem_of_nil|done]|].
  pose proof (tinv_reach _ _ Hr) as T. unfold ninv in *.
  destruct (step_cases _ _ _ _ H) as [(i & q & a & _ & Hq & X)|[(a & _ & X)|[(cap & d & old & E & ->)|X]]].
  - destruct (thread_calls _ _ _ _ _ _ T Hq X) as (q' & Et & d & Ed & D). rewrite Et, Ed. pose proof (thread_flag _ _ _ _ _ _ Hq X) as F.
    assert (Li : i < length (threads s)) by by eapply lookup_lt_Some.
    destruct (thread_log _ _ _ _ _ _ T Hq X) as (_ & d' & Ed' & As & _). assert (d' = d) as -> by (rewrite Ed in Ed'; by apply app_inv_head in Ed').
    assert (R : forall q', q <> NSwap CNotify -> forall j q0, threads s !! j = Some q0 -> at_swap q0 ->
       (exists q1, <[i:=q']> (threads s) !! j = Some q1 /\ at_swap q1) \/ notified s' = true).
    { intros q1 Nq j q0 Hj R. left. exists q0. split; [|done]. rewrite list_lookup_insert_ne; [done|]. intros ->. rewrite Hq in Hj. injection Hj as <-.
      destruct q; try done. by destruct c0. }
    destruct D as [(cl & -> & -> & ->)|[(cl & r & -> & -> & ->)|[D1 D2]]].
    + rewrite F. assert (cl = CNotify \/ cl <> CNotify) as [->|Nc] by (destruct cl; auto; by right).
      * by eapply sinv_start.
      * eapply sinv_unseen; [done| |done|rewrite <- F; by apply R]. apply Forall_singleton. by destruct cl.
    + rewrite F. assert (Dc : (cl = CNotify /\ r = Ok tt) \/ unseen notify_start notify_fin wait_end (Returned i cl r)).
      { destruct cl, r as [[]|?|]; auto; by right. }
      destruct Dc as [[-> ->]|Dc].
      * eapply sinv_fin; [exact IH|reflexivity|reflexivity|reflexivity|exact Hq|]. by intros [].
      * eapply sinv_unseen; [done| |done|rewrite <- F; by apply R]. by apply Forall_singleton.
    + eapply sinv_unseen; [exact IH| | |].
      * apply quiet_notify; [done|]. intros. by apply aside_waitret.
      * destruct q; try (by rewrite F).
      * intros j q0 Hj R0. destruct (decide (j = i)) as [->|Nj].
        -- right. rewrite Hq in Hj. injection Hj as <-. destruct q; try done.
        -- left. exists q0. by rewrite list_lookup_insert_ne.
  - destruct (wait_keeps _ _ _ _ T X) as (d & Et & Ed & D2 & _).
    destruct (wait_flag _ _ _ _ T X) as [(F & d' & Ed' & O & W)|(r & evs & E' & _)].
    + rewrite Ed', Et, F. eapply sinv_unseen; [done| |done|eauto]. apply quiet_notify; [by apply own_calls|done].
    + rewrite E'. by apply sinv_reset.
  - cbn [log emit emits threads set_waiter notified]. eapply sinv_unseen; [done|by repeat constructor|done|eauto].
  - destruct (env_calls _ _ _ _ H X) as (d & Ed & D). destruct (env_log _ _ _ _ H X) as (_ & Et & En & _ & _ & d' & Ed' & As & _).
    assert (d' = d) as -> by (rewrite Ed in Ed'; by apply app_inv_head in Ed').
    rewrite Ed, Et, En. eapply sinv_unseen; [done| |done|eauto]. apply quiet_notify; [by apply own_calls|]. intros. by apply aside_waitret.
Qed.

(** A notification is on its way while the flag is set. *)
Definition wloc (w : wpc) : option loc :=
  match w with
  | WOut => None
  | WSwap l | WDrain l | WDrainDo l _ | WBlock l _ | WGot l _ _ | WFeed l _ _ | WOpen l _ _ _ | WUpd l _ _ _ _ _ | WFail l _ _ | WEnd l => Some l
  | WDead _ _ _ => None
  end.
Definition seen (w : wpc) : Prop :=
  match w with
  | WOut => False
  | WSwap l | WDrain l | WDrainDo l _ | WBlock l _ | WGot l _ _ | WFeed l _ _ | WOpen l _ _ _ | WUpd l _ _ _ _ _ | WEnd l => lc_notified l = true
  | WFail _ _ _ | WDead _ _ _ => True
  end.
(** The loop goes round only while it was not notified. *)
Definition unseen_loop (w : wpc) : Prop :=
  match w with WSwap l | WDrain l | WDrainDo l _ | WBlock l _ | WGot l _ _ => lc_notified l = false | _ => True end.
Definition coming_wake (s : state) : Prop :=
  (exists i, threads s !! i = Some (Post CNotify PWake)) \/ 0 < outstanding s PWake \/ seen (waiter s).
Definition wakeinv (s : state) : Prop :=
  unseen_loop (waiter s)
  /\ (notified s = true -> no_wait_failed (log s) -> Fault PWake ∉ log s -> coming_wake s).

Lemma unseen_wait c s a s' : wait_step c s a = Some s' -> unseen_loop (waiter s) -> unseen_loop (waiter s').
Proof.
  intros H U. unfold wait_step in H.
  destruct (waiter s) as [|l|l|l q|l z|l z b|l z b|l z p b|l z b ret p u|l e g|l|d own b] eqn:E, a;
    try done; try (by destruct b); try (injection H as <-; done).
  - destruct (pending s) as [|q r] eqn:Ep; by injection H as <-.
  - destruct (do_update s q o) as [r s1]. injection H as <-. by destruct r.
  - case_decide; [done|]. by injection H as <-.
  - destruct b; [|by injection H as <-]. destruct (lc_notified l) eqn:X; [by injection H as <-|]. case_match; by injection H as <-.
  - destruct p as [j|j|j|]; unfold feed_step in H.
    + destruct (socks (pmem s) !! j) as [k|] eqn:Ek; [|done]. cbn [mbind option_bind] in H.
      destruct (feed_sock k) as [k'|k'|k' r] eqn:F; [|by injection H as <-|by injection H as <-].
      destruct (sources s !! sk_socket k) as [n'|] eqn:Es; [|by injection H as <-]. case_decide; [by injection H as <-|].
      destruct (do_delete _ _ _) as [r s1]. injection H as <-. by destruct r as [[]|?|].
    + destruct (wtbs (pmem s) !! j) as [k|] eqn:Ek; [|done]. cbn [mbind option_bind] in H. destruct (feed_wtb k) as [k' r]. by injection H as <-.
    + destruct (customs (pmem s) !! j) as [k|] eqn:Ek; [|done]. cbn [mbind option_bind] in H. by injection H as <-.
    + by injection H as <-.
  - destruct (ustep _ _ _ _ _) as [s1 x] eqn:Eu. injection H as <-. by destruct x as [u'|[[]|e|]].
Qed.
Lemma seen_feed s l z p b o s' : feed_step s l z p b o = Some s' -> p = PWake \/ lc_notified l = true -> seen (waiter s').
Proof.
  intros H U. destruct p as [j|j|j|]; unfold feed_step in H.
  - destruct U as [|U]; [done|]. destruct (socks (pmem s) !! j) as [k|] eqn:Ek; [|done]. cbn [mbind option_bind] in H.
    destruct (feed_sock k) as [k'|k'|k' r] eqn:F; [|by injection H as <-|injection H as <-; cbn; by destruct r].
    destruct (sources s !! sk_socket k) as [n'|] eqn:Es; [|by injection H as <-]. case_decide; [by injection H as <-|].
    destruct (do_delete _ _ _) as [r s1]. injection H as <-. by destruct r as [[]|?|].
  - destruct U as [|U]; [done|]. destruct (wtbs (pmem s) !! j) as [k|] eqn:Ek; [|done]. cbn [mbind option_bind] in H. destruct (feed_wtb k) as [k' r]. injection H as <-.
    cbn. by destruct r.
  - destruct U as [|U]; [done|]. destruct (customs (pmem s) !! j) as [k|] eqn:Ek; [|done]. cbn [mbind option_bind] in H. by injection H as <-.
  - by injection H as <-.
Qed.
Lemma seen_wait c s a s' : tinv s -> wait_step c s a = Some s' -> notified s' = true -> no_wait_failed (log s') -> seen (waiter s) -> seen (waiter s').
Proof.
  intros T H Hn NF U. pose proof (t_wait _ T) as TW. unfold wait_step in H.
  destruct (waiter s) as [|l|l|l q|l z|l z b|l z b|l z p b|l z b ret p u|l e g|l|d own b] eqn:E, a;
    try done; try (by destruct b); try (injection H as <-; done).
  - destruct (pending s) as [|q r] eqn:Ep; by injection H as <-.
  - destruct (do_update s q o) as [r s1]. injection H as <-. by destruct r.
  - case_decide; [done|]. by injection H as <-.
  - destruct b; [|by injection H as <-]. cbn in U. rewrite U in H. by injection H as <-.
  - eapply seen_feed; [done|by right].
  - destruct (ustep _ _ _ _ _) as [s1 x] eqn:Eu. injection H as <-. destruct x as [u'|[[]|err|]]; try done. cbn. destruct p, ret; done.
  - injection H as <-. exfalso. eapply (NF e). cbn. apply elem_of_app. right. by apply elem_of_list_singleton.
Qed.
Lemma out_wait c s a s' : tinv s -> wait_step c s a = Some s' -> 0 < outstanding s PWake -> 0 < outstanding s' PWake \/ seen (waiter s').
Proof.
  intros T H. pose proof (t_wait _ T) as TW.
  destruct (waiter s) as [|l|l|l q|l z|l z b|l z b|l z p b|l z b ret p u|l e g|l|d own b] eqn:E, a;
    unfold wait_step in H; rewrite E in H; try done; try (by destruct b); cbn in TW;
    try (injection H as <-; unfold outstanding; rewrite E; cbn; by left).
  - destruct (pending s) as [|q r] eqn:Ep; injection H as <-; unfold outstanding; rewrite E; cbn; by left.
  - assert (X : queue (sys (do_update s q o).2) = queue (sys s)) by exact (update_queue _ _ _ _).
    destruct (do_update s q o) as [r s1]. injection H as <-. cbn in X. unfold outstanding. rewrite E. cbn. rewrite X. destruct r; cbn; by left.
  - case_decide; [done|]. injection H as <-. unfold outstanding. rewrite E. cbn.
    pose proof (occ_app PWake (take (lc_cap l) (queue (sys s))) (drop (lc_cap l) (queue (sys s)))) as X. rewrite take_drop in X.
    rewrite occ_nil. left. lia.
  - destruct b as [|p b].
    + case_match; injection H as <-; unfold outstanding; rewrite E; cbn; by left.
    + injection H as <-. unfold outstanding. rewrite E. cbn. rewrite (occ_cons PWake p b), occ_nil. left. lia.
  - destruct (decide (p = PWake)) as [->|Np]; [right; eapply seen_feed; [done|by left]|].
    destruct (feed_log _ _ _ _ _ _ _ T E H) as (X1 & X2 & _ & _ & _ & r & d & L & D).
    destruct D as [(D1 & D2 & D3 & D4)|(d1 & -> & D1 & [q D2] & D3 & D4 & D5 & e & D6)].
    + unfold outstanding. rewrite E, X2, D3, D4. cbn. rewrite occ_one, decide_False, occ_nil by done. left. lia.
    + right. by rewrite D6.
  - destruct TW as (TW1 & TW2 & TW3). destruct (ustep _ _ _ _ _) as [s1 x] eqn:Eu.
    destruct (ustep_log _ _ _ _ _ _ _ TW1 TW2 Eu) as (Q & d & D1 & D2 & D3 & D4).
    destruct x as [u'|[[]|e|]]; [| | |done]; injection H as <-; [| |by right]; unfold outstanding; rewrite E; cbn; rewrite Q; left; lia.
Qed.
Lemma wakeinv_reach c s : reachable c s -> wakeinv s.
Proof.
  induction 1 as [n|s l s' Hr [I1 I2] L H]; [done|]. pose proof (tinv_reach _ _ Hr) as T.
  destruct (step_cases _ _ _ _ H) as [(i & q & a & _ & Hq & X)|[(a & _ & X)|[(cap & d & old & E & ->)|X]]].
  - pose proof (thread_flag _ _ _ _ _ _ Hq X) as F.
    destruct (thread_log _ _ _ _ _ _ T Hq X) as (W & d & Ed & As & _ & D).
    destruct (thread_calls _ _ _ _ _ _ T Hq X) as (q' & Et & _).
    assert (Li : i < length (threads s)) by by eapply lookup_lt_Some.
    split; [by rewrite W|]. intros Hn NF FW.
    assert (NF0 : no_wait_failed (log s)) by (intros e evs Hin; apply (NF e evs); rewrite Ed; apply elem_of_app; by left).
    assert (FW0 : Fault PWake ∉ log s) by (intros Hin; apply FW; rewrite Ed; apply elem_of_app; by left).
    assert (K : (match q with Post _ PWake => False | _ => True end) -> notified s = true -> coming_wake s').
    { intros NP Hn0. destruct (I2 Hn0 NF0 FW0) as [[j Hj]|[O|S]].
      - left. exists j. rewrite Et. rewrite list_lookup_insert_ne; [done|]. intros ->. rewrite Hq in Hj. by injection Hj as ->.
      - right. left. unfold outstanding in *. rewrite W. destruct q; try (by destruct D as [-> _]).
        destruct D as [(e & _ & -> & _)|(_ & -> & _)]; [done|]. rewrite occ_app. lia.
      - right. right. by rewrite W. }
    destruct q; try (apply K; [done|congruence]).
    + destruct (notified s) eqn:En; [by apply K|]. left. exists i. cbn in X. destruct a; try done. rewrite En in X. injection X as <-.
      pose proof (t_pc _ T _ _ Hq) as P. cbn in P. subst. cbn. by apply list_lookup_insert.
    + destruct p as [| | |]; try (apply K; [done|congruence]).
      destruct D as [(e & -> & _ & _)|(_ & D & _)].
      * exfalso. apply FW. rewrite Ed. apply elem_of_app. right. by apply elem_of_list_singleton.
      * right. left. unfold outstanding. rewrite D, occ_app, occ_one, decide_True by done. lia.
  - split; [by eapply unseen_wait|]. intros Hn NF FW. destruct (wait_keeps _ _ _ _ T X) as (d & Et & Ed & _).
    assert (NF0 : no_wait_failed (log s)) by (intros e evs Hin; apply (NF e evs); rewrite Ed; apply elem_of_app; by left).
    assert (FW0 : Fault PWake ∉ log s) by (intros Hin; apply FW; rewrite Ed; apply elem_of_app; by left).
    assert (Hn0 : notified s = true).
    { destruct (wait_flag _ _ _ _ T X) as [(<- & _)|(r & evs & E' & [[-> F]|[e ->]])]; [done|congruence|].
      exfalso. apply (NF e evs). rewrite E'. apply elem_of_app. right. by apply elem_of_list_singleton. }
    destruct (I2 Hn0 NF0 FW0) as [[j Hj]|[O|S]].
    + left. exists j. by rewrite Et.
    + destruct (out_wait _ _ _ _ T X O); right; [by left|by right].
    + right. right. by eapply seen_wait.
  - split; [done|]. intros Hn NF FW.
    assert (C : coming_wake s).
    { apply I2; [done| |].
      - intros e evs Hin. apply (NF e evs). cbn. apply elem_of_app; by left.
      - intros Hin; apply FW. cbn. apply elem_of_app; by left. }
    destruct C as [[j Hj]|[O|S]]; [left; by exists j| |by rewrite E in S].
    right. left. unfold outstanding in *. rewrite E in O. exact O.
  - destruct (env_log _ _ _ _ H X) as (W & Et & En & _ & _ & d & Ed & _ & _ & b & Eb & _). split; [by rewrite W|]. intros Hn NF FW.
    assert (C : coming_wake s).
    { apply I2; [congruence| |].
      - intros e evs Hin. apply (NF e evs). rewrite Ed. apply elem_of_app; by left.
      - intros Hin; apply FW. rewrite Ed. apply elem_of_app; by left. }
    destruct C as [[j Hj]|[O|S]].
    + left. exists j. by rewrite Et.
    + right. left. unfold outstanding in *. rewrite W, Eb, occ_app. lia.
    + right. right. by rewrite W.
Qed.

(** A notification that is due ends the block. *)
Lemma due_posted c s l z : reachable c s -> notify_due (log s) -> no_wait_failed (log s) -> Fault PWake ∉ log s ->
  waiter s = WBlock l z -> PWake ∈ queue (sys s) \/ exists i, threads s !! i = Some (Post CNotify PWake).
Proof.
  intros R D NF FW E. destruct (wakeinv_reach _ _ R) as [W1 W2]. destruct (ninv_reach _ _ R) as [_ N].
  destruct (W2 (N D) NF FW) as [?|[O|S]]; [by right| |].
  - left. unfold outstanding in O. rewrite E in O. cbn in O. rewrite !occ_nil in O. apply occ_pos. lia.
  - rewrite E in W1, S. cbn in *. congruence.
Qed.

(* ------------------------------------------------------------------ *)
(** ** Deletion *)

Definition dead (w : wpc) : Prop := match w with WDead _ _ _ => True | _ => False end.
Definition enters_none (d : list obs) : Prop := forall n x, Entered (PSock n) x ∉ d.
Lemma aside_none d : Forall mishap d -> enters_none d.
Proof. intros F n x Hin. rewrite Forall_forall in F. by apply F in Hin. Qed.

Definition srcs (s : state) (i : nat) (q : pc) (s' : state) : Prop :=
  exists d, log s' = log s ++ d /\
  ((sources s' = sources s /\ enters_none d
      /\ (forall x n, q = DBegin (CDelete x) (PSock n) -> Removed (PSock n) ∈ d)
      /\ (forall x, q = DRemove (CDelete x) -> sources s !! x = None))
   \/ (exists x e md n, q = AInsert (CAdd x e md) (PSock n) /\ sources s !! x = None /\ sources s' = <[x:=n]> (sources s) /\ d = [Entered (PSock n) x])
   \/ (exists x n, q = DRemove (CDelete x) /\ sources s !! x = Some n /\ sources s' = delete x (sources s) /\ d = []
         /\ threads s' = <[i:=DBegin (CDelete x) (PSock n)]> (threads s))).
Lemma srcs_same s i q s' d : log s' = log s ++ d -> sources s' = sources s -> enters_none d ->
  match q with DBegin _ _ | DRemove _ => False | _ => True end -> srcs s i q s'.
Proof. intros E1 E2 E3 E4. exists d. split; [done|]. left. split_and!; try done; intros; by subst q. Qed.
Lemma srcs_nil s i q s' : log s' = log s -> sources s' = sources s ->
  match q with DBegin _ _ | DRemove _ => False | _ => True end -> srcs s i q s'.
Proof. intros E1 E2 E4. eapply (srcs_same _ _ _ _ []); try done; [by rewrite app_nil_r|]. intros n x. apply not_elem_of_nil. Qed.
Lemma srcs_one s i q s' o : log s' = log s ++ [o] -> sources s' = sources s -> (match o with Entered (PSock _) _ => False | _ => True end) ->
  match q with DBegin _ _ | DRemove _ => False | _ => True end -> srcs s i q s'.
Proof. intros E1 E2 E3 E4. eapply srcs_same; try done. intros n x ?%elem_of_list_singleton. by subst o. Qed.

Lemma thread_sources c s i q a s' :
  tinv s -> threads s !! i = Some q -> thread_step c s i q a = Some s' -> srcs s i q s'.
Proof.
  intros T Hq H. pose proof (t_pc _ T _ _ Hq) as P.
  destruct q, a; try done; unfold thread_step in H; cbn in P.
  - injection H as <-. by eapply srcs_one.
  - destruct o; [injection H as <-; by apply srcs_nil|]. destruct (new_packet _ _) as [[[m p] ob]|] eqn:E; [|done]. cbn [mbind option_bind] in H. injection H as <-.
    destruct c0; cbn in E; try done; injection E as <- <- <-; by eapply srcs_one.
  - destruct (insert_packet _ _ _) as [s1|] eqn:E; injection H as <-; [|by apply srcs_nil].
    destruct c0, p; cbn in E; try done; (case_in E; [done|]); injection E as <-.
    + eexists. split; [done|]. right. left. by eexists _, _, _, _.
    + by eapply srcs_one.
  - destruct (lookup_packet _ _) as [p|] eqn:E; injection H as <-; by apply srcs_nil.
  - destruct (do_set _ _ _) as [[s1 b]|] eqn:E; [|done]. cbn [mbind option_bind] in H. injection H as <-.
    assert (X : exists ob, log s1 = log s ++ [ob] /\ sources s1 = sources s /\ match ob with Entered (PSock _) _ => False | _ => True end).
    { destruct c0, p; cbn in E; try done; (case_in E; [|done]); cbn in E; injection E as <- _; by eexists. }
    destruct X as (ob & X1 & X2 & X3). destruct b; by eapply srcs_one.
  - destruct P as (P1 & P2 & P3). destruct (ustep _ _ _ _ _) as [s1 x] eqn:E. injection H as <-.
    destruct (ustep_frame _ _ _ _ _ _ _ E) as (X1 & X2 & X3 & _).
    destruct (ustep_log _ _ _ _ _ _ _ (names_source _ _ _ P2) P3 E) as (Q & d & D1 & D2 & D3 & _).
    eapply srcs_same; try done. by apply aside_none.
  - destruct (lookup_packet _ _) as [p|] eqn:E; injection H as <-.
    + destruct c0 as [| |x| | |h| |]; cbn in E; try done.
      * destruct (sources s !! x) as [n|] eqn:Es; [|done]. injection E as <-. exists []. rewrite app_nil_r. split; [done|]. right. right. by exists x, n.
      * exists []. rewrite app_nil_r. split; [done|]. left. split_and!; try done. intros n x. apply not_elem_of_nil.
    + exists []. rewrite app_nil_r. split; [done|]. left. split_and!; try done; [intros n x; apply not_elem_of_nil|]. intros x ?. simplify_eq. cbn in E. by case_in E.
  - destruct P as [P1 P2]. destruct (delete_log s p o (names_source _ _ _ P2)) as (Q & _ & d & D1 & D2 & D3 & _).
    assert (X : sources (do_delete s p o).2 = sources s) by done.
    destruct (do_delete s p o) as [r s1]. injection H as <-. cbn [snd] in *.
    eexists. split; [exact D1|]. left. split_and!; try done.
    + intros n x [Hin|Hin]%elem_of_app; [by eapply aside_none|by apply elem_of_list_singleton in Hin].
    + intros x n Hx. injection Hx as -> ->. apply elem_of_app. right. by apply elem_of_list_singleton.
  - destruct (notified s); injection H as <-; by apply srcs_nil.
  - unfold do_post in H; destruct o; injection H as <-; by eapply srcs_one.
  - injection H as <-. by eapply srcs_one.
Qed.
Lemma wait_sources c s a s' :
  tinv s -> wait_step c s a = Some s' ->
  sources s' = sources s \/
  (exists x n, sources s !! x = Some n /\ sources s' = delete x (sources s) /\ (dead (waiter s') \/ Removed (PSock n) ∈ log s')).
Proof.
  intros T H. pose proof (t_wait _ T) as TW. unfold wait_step in H.
  destruct (waiter s) as [|l|l|l q|l z|l z b|l z b|l z p b|l z b ret p u|l e g|l|d own b] eqn:E, a;
    try done; try (by destruct b); try (injection H as <-; by left).
  - destruct (pending s) as [|q r] eqn:Ep; injection H as <-; by left.
  - case_decide; [done|]. injection H as <-. by left.
  - destruct b; [case_match|]; injection H as <-; by left.
  - destruct p as [j|j|j|]; unfold feed_step in H.
    + destruct (socks (pmem s) !! j) as [k|] eqn:Ek; [|done]. cbn [mbind option_bind] in H.
      destruct (feed_sock k) as [k'|k'|k' r] eqn:F; [|injection H as <-; by left|injection H as <-; by left].
      destruct (sources s !! sk_socket k) as [n'|] eqn:Es; [|injection H as <-; by left]. right. exists (sk_socket k), n'. split; [done|].
      case_decide; [injection H as <-; split; [done|by left]|].
      set (s1 := emit (set_mem s (set_sock (pmem s) j k')) (Fed (PSock j) None)) in *.
      assert (T1 : source (pmem s1) (PSock n')).
      { destruct (t_src _ T _ _ Es) as (k2 & Hk2 & _). cbn. rewrite lookup_insert_ne by done. by exists k2. }
      set (s2 := set_maps s1 _ _) in *. destruct (delete_log s2 (PSock n') o T1) as (Q & NP & d & D1 & D2 & D3 & D4).
      assert (X : sources (do_delete s2 (PSock n') o).2 = delete (sk_socket k) (sources s)) by done.
      destruct (do_delete s2 _ o) as [r s3]. cbn [snd] in *. injection H as <-. destruct r as [[]|err|]; (split; [done|]); right.
      * cbn. rewrite D1. set_solver.
      * cbn. rewrite D1. set_solver.
      * cbn. rewrite D1. set_solver.
    + destruct (wtbs (pmem s) !! j) as [k|] eqn:Ek; [|done]. cbn [mbind option_bind] in H. destruct (feed_wtb k) as [k' r]. injection H as <-. by left.
    + destruct (customs (pmem s) !! j) as [k|] eqn:Ek; [|done]. cbn [mbind option_bind] in H. injection H as <-. by left.
    + injection H as <-. by left.
  - destruct (ustep _ _ _ _ _) as [s1 x] eqn:Eu. destruct (ustep_frame _ _ _ _ _ _ _ Eu) as (X1 & X2 & X3 & _). injection H as <-. left. by destruct x as [u'|[[]|e|]].
Qed.

(** Once a delete() returned the source is not in the table. *)
Definition at_remove (x : N) (q : pc) : Prop := match q with DRemove (CDelete y) => y = x | _ => False end.
Definition dinv (x : N) (s : state) : Prop :=
  sinv (delete_start x) (delete_fin x) (enters x) (at_remove x) (sources s !! x = None) (threads s) (log s).
Lemma quiet_delete x d : Forall (fun o => call_obs o = false) d -> enters_none d -> Forall (unseen (delete_start x) (delete_fin x) (enters x)) d.
Proof.
  intros F W. apply Forall_forall. intros o Ho. rewrite Forall_forall in F. specialize (F _ Ho). unfold unseen.
  destruct o; try done. destruct p; try done. exfalso. by eapply W.
Qed.
Lemma own_none d : Forall own d -> enters_none d.
Proof. intros F n x Hin. rewrite Forall_forall in F. by apply F in Hin as [_ ?]. Qed.
Lemma env_sources c s l s' :
  step c s l = Some s' -> (match l with LThread _ _ | LWait _ _ _ | LWaiter _ => False | _ => True end) -> sources s' = sources s.
Proof.
  intros H X. destruct l; try done; cbn -[do_post] in H.
  - by injection H as <-.
  - case_in H; [|done]. cbn in H. case_in H; [|done]. cbn in H. by injection H as <-.
  - case_in H; [|done]. cbn in H. by injection H as <-.
  - case_in H; [|done]. cbn -[do_post] in H. destruct c0 as [m|m].
    + case_in H; [|done]. cbn in H. by injection H as <-.
    + injection H as <-. unfold do_post; by destruct o.
Qed.
Lemma dinv_reach c s x : reachable c s -> dinv x s.
Proof.
  induction 1 as [n|s l s' Hr IH L H]; [split; [by intros i ?%not_elem_of_nil|done]|].
  pose proof (tinv_reach _ _ Hr) as T. unfold dinv in *.
  destruct (step_cases _ _ _ _ H) as [(i & q & a & _ & Hq & X)|[(a & _ & X)|[(cap & d & old & E & ->)|X]]].
  - destruct (thread_calls _ _ _ _ _ _ T Hq X) as (q' & Et & d & Ed & D).
    assert (Li : i < length (threads s)) by by eapply lookup_lt_Some.
    destruct (thread_sources _ _ _ _ _ _ T Hq X) as (d' & Ed' & S). assert (d' = d) as -> by (rewrite Ed in Ed'; by apply app_inv_head in Ed').
    assert (R : forall G, ~ at_remove x q -> forall j q0, threads s !! j = Some q0 -> at_remove x q0 ->
       (exists q1, threads s' !! j = Some q1 /\ at_remove x q1) \/ G).
    { intros G Nq j q0 Hj R. left. exists q0. split; [|done]. rewrite Et, list_lookup_insert_ne; [done|]. intros ->. rewrite Hq in Hj. by injection Hj as <-. }
    destruct S as [(S1 & S2 & S3 & S4)|[(y & e & md & n & -> & S2 & S3 & ->)|(y & n & -> & S2 & S3 & -> & S5)]].
    + rewrite S1. destruct D as [(cl & -> & -> & ->)|[(cl & r & -> & -> & ->)|[D1 D2]]].
      * rewrite Ed. assert ((cl = CDelete x) \/ unseen (delete_start x) (delete_fin x) (enters x) (Called i cl)) as [->|U].
        { destruct cl as [| |y| | |h| |]; try by right. destruct (decide (y = x)) as [->|]; [by left|]. right. unfold unseen. cbn. by rewrite decide_False. }
        -- rewrite Et. eapply sinv_start; try done. cbn. by rewrite decide_True.
        -- eapply sinv_unseen; [done|by apply Forall_singleton|done|]. apply R; intros [].
      * rewrite Ed. assert ((cl = CDelete x) \/ unseen (delete_start x) (delete_fin x) (enters x) (Returned i cl r)) as [->|U].
        { destruct cl as [| |y| | |h| |]; try by right. destruct (decide (y = x)) as [->|]; [by left|]. right. unfold unseen. cbn. by rewrite decide_False. }
        -- rewrite Et. eapply sinv_fin; [exact IH|reflexivity|cbn; by rewrite decide_True|reflexivity|exact Hq|intros []].
        -- eapply sinv_unseen; [done|by apply Forall_singleton|done|]. apply R; intros [].
      * rewrite Ed. eapply sinv_unseen; [exact IH|by apply quiet_delete|done|].
        intros j q0 Hj R0. destruct (decide (j = i)) as [->|Nj].
        -- right. rewrite Hq in Hj. injection Hj as <-. destruct q; try done. destruct c0; try done. cbn in R0. subst. by apply S4.
        -- left. exists q0. rewrite Et. by rewrite list_lookup_insert_ne.
    + rewrite Ed. destruct (decide (y = x)) as [->|N]; [apply sinv_reset; cbn; by rewrite bool_decide_true|].
      rewrite S3, lookup_insert_ne by done. eapply sinv_unseen; [exact IH| |done|apply R; intros []]. apply Forall_singleton. unfold unseen. cbn. by rewrite bool_decide_false.
    + rewrite Ed, S3. eapply sinv_unseen; [exact IH|by constructor| |].
      * intros G. destruct (decide (y = x)) as [->|]; [by rewrite lookup_delete|by rewrite lookup_delete_ne].
      * destruct (decide (y = x)) as [->|]; [right; by rewrite lookup_delete|]. apply R. by intros ?.
  - destruct (wait_keeps _ _ _ _ T X) as (d & Et & Ed & D2 & _). rewrite Et, Ed.
    eapply sinv_unseen; [done|apply quiet_delete; [by apply own_calls|by apply own_none]| |eauto].
    destruct (wait_sources _ _ _ _ T X) as [->|(y & n & _ & -> & _)]; [done|].
    intros G. destruct (decide (y = x)) as [->|]; [by rewrite lookup_delete|by rewrite lookup_delete_ne].
  - cbn [log emit emits threads set_waiter sources]. eapply sinv_unseen; [done|by repeat constructor|done|eauto].
  - destruct (env_calls _ _ _ _ H X) as (d & Ed & D). destruct (env_log _ _ _ _ H X) as (_ & Et & _).
    rewrite (env_sources _ _ _ _ H X).
    rewrite Ed, Et. eapply sinv_unseen; [done|apply quiet_delete; [by apply own_calls|by apply own_none]|done|eauto].
Qed.

(** What was entered into the table is in it, was removed, or is just being removed. *)
Definition einv (s : state) : Prop :=
  forall n x, Entered (PSock n) x ∈ log s ->
    sources s !! x = Some n \/ Removed (PSock n) ∈ log s \/ (exists i, threads s !! i = Some (DBegin (CDelete x) (PSock n))) \/ dead (waiter s).
Lemma einv_reach c s : reachable c s -> einv s.
Proof.
  induction 1 as [n|s l s' Hr IH L H]; [by intros n0 x ?%not_elem_of_nil|].
  pose proof (tinv_reach _ _ Hr) as T. intros n x Hin.
  destruct (step_cases _ _ _ _ H) as [(i & q & a & _ & Hq & X)|[(a & _ & X)|[(cap & d & old & E & ->)|X]]].
  - destruct (thread_calls _ _ _ _ _ _ T Hq X) as (q' & Et & d & Ed & D).
    assert (Li : i < length (threads s)) by by eapply lookup_lt_Some.
    destruct (thread_log _ _ _ _ _ _ T Hq X) as (W & _).
    destruct (thread_sources _ _ _ _ _ _ T Hq X) as (d' & Ed' & S). assert (d' = d) as -> by (rewrite Ed in Ed'; by apply app_inv_head in Ed').
    rewrite Ed in Hin |- *. rewrite W. apply elem_of_app in Hin as [Hin|Hin].
    + destruct (IH _ _ Hin) as [A|[A|[[j A]|A]]]; [|right; left; set_solver| |by right; right; right].
      * destruct S as [(S1 & S2 & S3 & S4)|[(y & e & md & m & -> & S2 & S3 & ->)|(y & m & -> & S2 & S3 & -> & S5)]].
        -- left. by rewrite S1.
        -- left. rewrite S3, lookup_insert_ne; [done|]. intros ->. congruence.
        -- destruct (decide (y = x)) as [->|]; [|left; by rewrite S3, lookup_delete_ne].
           right. right. left. exists i. rewrite S5. rewrite A in S2. injection S2 as ->. by apply list_lookup_insert.
      * destruct (decide (j = i)) as [->|]; [|right; right; left; exists j; by rewrite Et, list_lookup_insert_ne].
        rewrite Hq in A. injection A as ->. right. left. apply elem_of_app. right.
        destruct S as [(_ & _ & S3 & _)|[(y & e & md & m & S & _)|(y & m & S & _)]]; [by eapply S3|done|done].
    + destruct S as [(_ & S2 & _)|[(y & e & md & m & -> & S2 & S3 & ->)|(y & m & -> & S2 & S3 & -> & S5)]]; [by apply S2 in Hin| |by apply not_elem_of_nil in Hin].
      apply elem_of_list_singleton in Hin. injection Hin as -> ->. left. by rewrite S3, lookup_insert.
  - destruct (wait_keeps _ _ _ _ T X) as (d & Et & Ed & D2 & _). rewrite Et. rewrite Ed in Hin. apply elem_of_app in Hin as [Hin|Hin]; [|by apply own_none in Hin].
    destruct (IH _ _ Hin) as [A|[A|[[j A]|A]]].
    + destruct (wait_sources _ _ _ _ T X) as [->|(y & m & S1 & -> & S2)]; [by left|].
      destruct (decide (y = x)) as [->|]; [|left; by rewrite lookup_delete_ne].
      rewrite A in S1. injection S1 as ->. destruct S2; auto.
    + right. left. rewrite Ed. set_solver.
    + right. right. left. by exists j.
    + unfold wait_step in X. by destruct (waiter s).
  - cbn [log emit emits threads set_waiter sources waiter] in *. apply elem_of_app in Hin as [Hin|Hin]; [|by apply elem_of_list_singleton in Hin].
    destruct (IH _ _ Hin) as [A|[A|[A|A]]]; [by left|right; left; set_solver|by right; right; left|by rewrite E in A].
  - destruct (env_calls _ _ _ _ H X) as (d & Ed & D). destruct (env_log _ _ _ _ H X) as (W & Et & _).
    rewrite (env_sources _ _ _ _ H X), Et, W. rewrite Ed in Hin |- *. apply elem_of_app in Hin as [Hin|Hin]; [|by apply own_none in Hin].
    destruct (IH _ _ Hin) as [A|[A|[A|A]]]; auto. right. left. set_solver.
Qed.
(** No delete() in progress: all that was registered for [x] is removed. *)
Lemma deleted_removed c s x n : reachable c s -> deleted x (log s) -> (forall i, calls (log s) !! i <> Some (CDelete x)) -> ~ dead (waiter s) ->
  Entered (PSock n) x ∈ log s -> Removed (PSock n) ∈ log s.
Proof.
  intros R D C N Hin. destruct (einv_reach _ _ R _ _ Hin) as [A|[A|[[j A]|A]]]; [|done| |done].
  - destruct (dinv_reach _ _ x R) as [_ G]. specialize (G D). congruence.
  - exfalso. apply (C j). rewrite (cinv_reach _ _ R j), A. done.
Qed.

(* ------------------------------------------------------------------ *)
(** ** A blocked wait *)

Lemma clock_fst h : (fold_left clock_step h (∅, ∅)).1 = calls h.
Proof. induction h as [|o h IH] using rev_ind; [done|]. rewrite fold_left_app, calls_snoc, <- IH. done. Qed.
Lemma clock_snoc h o : calls_at_clock (h ++ [o]) = match o with Clock _ => calls h | _ => calls_at_clock h end.
Proof. unfold calls_at_clock. rewrite fold_left_app. cbn [fold_left clock_step snd]. by rewrite clock_fst. Qed.
Definition no_clock (o : obs) : Prop := match o with Clock _ => False | _ => True end.
Lemma clock_quiet h d : Forall no_clock d -> calls_at_clock (h ++ d) = calls_at_clock h.
Proof.
  induction d as [|o d IH] using rev_ind; [by rewrite app_nil_r|]. intros [H1 H2]%Forall_app. rewrite app_assoc, clock_snoc, IH by done.
  apply Forall_cons in H2 as [H2 _]. by destruct o.
Qed.
Definition polls (w : wpc) : Prop :=
  match w with WDrain _ | WDrainDo _ _ | WBlock _ _ | WGot _ _ _ => True | WFail _ _ g => g = true | _ => False end.
Definition direct (q : pc) : Prop := match q with Upd _ _ u => u = ULoad \/ u = UDo | _ => True end.
Definition binv (s : state) : Prop :=
  (polls (waiter s) -> polling s = true)
  /\ (forall l z, waiter s = WBlock l z -> calls_at_clock (log s) = ∅ -> pending s = [] /\ forall i q, threads s !! i = Some q -> direct q).
Lemma thread_direct c s i q a s' :
  threads s !! i = Some q -> thread_step c s i q a = Some s' ->
  polling s' = polling s /\ (direct q -> polling s = true -> pending s' = pending s /\ exists q', threads s' = <[i:=q']> (threads s) /\ direct q').
Proof.
  intros Hq H.
  assert (N : forall s2 q2, threads s2 = threads s -> polling s2 = polling s -> pending s2 = pending s -> direct q2 ->
    polling (set_pc s2 i q2) = polling s /\ (direct q -> polling s = true -> pending (set_pc s2 i q2) = pending s /\ exists q', threads (set_pc s2 i q2) = <[i:=q']> (threads s) /\ direct q')).
  { intros s2 q2 E1 E2 E3 E4. split; [done|]. intros _ _. split; [done|]. exists q2. split; [cbn; by rewrite E1|done]. }
  destruct q, a; try done; unfold thread_step in H.
  - injection H as <-. split; [done|]. intros _ _. split; [done|]. exists (entry c0). split; [done|]. destruct c0; try done; by destruct m.
  - destruct o; [injection H as <-; by apply N|]. destruct (new_packet _ _) as [[[m p] ob]|] eqn:E; [|done]. cbn [mbind option_bind] in H. injection H as <-. by apply N.
  - destruct (insert_packet _ _ _) as [s1|] eqn:E; injection H as <-; [|by apply N].
    destruct c0, p; cbn in E; try done; (case_in E; [done|]); injection E as <-; apply N; try done; by left.
  - destruct (lookup_packet _ _) as [p|] eqn:E; injection H as <-; by apply N.
  - destruct (do_set _ _ _) as [[s1 b]|] eqn:E; [|done]. cbn [mbind option_bind] in H. injection H as <-.
    assert (X : threads s1 = threads s /\ polling s1 = polling s /\ pending s1 = pending s).
    { destruct c0, p; cbn in E; try done; (case_in E; [|done]); cbn in E; by injection E as <- _. }
    destruct X as (X1 & X2 & X3). destruct b; apply N; try done. by left.
  - destruct (ustep _ _ _ _ _) as [s1 x] eqn:E. injection H as <-. destruct (ustep_frame _ _ _ _ _ _ _ E) as (X1 & _ & _ & _ & X5 & _).
    split; [done|]. intros [->| ->] P; unfold ustep in E.
    + rewrite P in E. injection E as <- <-. split; [done|]. eexists. split; [done|]. by right.
    + assert (Y : pending (do_update s p o).2 = pending s) by done. destruct (do_update s p o) as [r s2]. injection E as <- <-. split; [done|].
      eexists. split; [cbn; by rewrite X1|done].
  - destruct (lookup_packet _ _) as [p|] eqn:E; injection H as <-; apply N; try done; by destruct c0.
  - assert (Y : pending (do_delete s p o).2 = pending s /\ polling (do_delete s p o).2 = polling s /\ threads (do_delete s p o).2 = threads s) by done.
    destruct (do_delete s p o) as [r s1]. destruct Y as (Y1 & Y2 & Y3). injection H as <-. by apply N.
  - destruct (notified s); injection H as <-; by apply N.
  - unfold do_post in H; destruct o; injection H as <-; by apply N.
  - injection H as <-. split; [done|]. intros _ _. split; [done|]. by exists Out.
Qed.
Lemma wait_binv c s a s' : wait_step c s a = Some s' -> (polls (waiter s) -> polling s = true) ->
  (polls (waiter s') -> polling s' = true)
  /\ forall l z, waiter s' = WBlock l z -> pending s' = [] /\ threads s' = threads s /\ exists now, log s' = log s ++ [Clock now].
Proof.
  intros H P. unfold wait_step in H.
  destruct (waiter s) as [|l|l|l q|l z|l z b|l z b|l z p b|l z b ret p u|l e g|l|d own b] eqn:E, a;
    try done; try (by destruct b); try (injection H as <-; split; [first [done|intros _; by apply P]|by intros ? ? ?]).
  - destruct (pending s) as [|q r] eqn:Ep; injection H as <-; (split; [intros _; by apply P|]); [|by intros ? ? ?]. intros l0 z0 _. split_and!; try done. by eexists.
  - assert (Y : polling (do_update s q o).2 = polling s) by done. destruct (do_update s q o) as [r s1]. injection H as <-. cbn in Y. cbn. rewrite Y.
    split; [intros _; by apply P|]. intros l0 z0 ?. by destruct r.
  - case_decide; [done|]. injection H as <-. split; [intros _; by apply P|by intros ? ? ?].
  - destruct b; [case_match|]; injection H as <-; (split; [done|by intros ? ? ?]).
  - assert (Y : ~ polls (waiter s') /\ forall l z, waiter s' <> WBlock l z).
    { destruct p as [j|j|j|]; unfold feed_step in H.
      - destruct (socks (pmem s) !! j) as [k|] eqn:Ek; [|done]. cbn [mbind option_bind] in H.
        destruct (feed_sock k) as [k'|k'|k' r] eqn:F; [|injection H as <-; split; [by intros []|done]|injection H as <-; split; [by intros []|done]].
        destruct (sources s !! sk_socket k) as [n'|] eqn:Es; [|injection H as <-; split; [by intros []|done]].
        case_decide; [injection H as <-; split; [by intros []|done]|].
        destruct (do_delete _ _ _) as [r s3]. injection H as <-. destruct r as [[]|err|]; split; try done; by intros [].
      - destruct (wtbs (pmem s) !! j) as [k|] eqn:Ek; [|done]. cbn [mbind option_bind] in H. destruct (feed_wtb k) as [k' r]. injection H as <-. split; [by intros []|done].
      - destruct (customs (pmem s) !! j) as [k|] eqn:Ek; [|done]. cbn [mbind option_bind] in H. injection H as <-. split; [by intros []|done].
      - injection H as <-. split; [by intros []|done]. }
    destruct Y as [Y1 Y2]. split; [done|]. intros ? ? Y. by apply Y2 in Y.
  - destruct (ustep _ _ _ _ _) as [s1 x] eqn:Eu. injection H as <-. destruct x as [u'|[[]|err|]]; (split; [done|by intros ? ? ?]).
Qed.
Lemma binv_reach c s : reachable c s -> binv s.
Proof.
  induction 1 as [n|s l s' Hr [I1 I2] L H]; [done|]. pose proof (tinv_reach _ _ Hr) as T.
  destruct (step_cases _ _ _ _ H) as [(i & q & a & _ & Hq & X)|[(a & _ & X)|[(cap & d & old & E & ->)|X]]].
  - destruct (thread_direct _ _ _ _ _ _ Hq X) as (D1 & D2). destruct (thread_log _ _ _ _ _ _ T Hq X) as (W & d & Ed & As & _).
    unfold binv. rewrite W, Ed, D1. split; [done|]. intros l0 z E. rewrite clock_quiet by (eapply Forall_impl; [exact As|]; by intros []). intros C.
    destruct (I2 _ _ E C) as [P A]. destruct D2 as (-> & q' & Et & D3); [by apply (A i)|apply I1; by rewrite E|]. split; [done|].
    intros j q0 Hj. rewrite Et in Hj. apply list_lookup_insert_Some in Hj as [(_ & <- & _)|[_ Hj]]; [done|by apply (A j)].
  - destruct (wait_binv _ _ _ _ X I1) as [B1 B2]. split; [done|]. intros l0 z E C. destruct (B2 _ _ E) as (P & Et & now & Ed). split; [done|].
    rewrite Ed, clock_snoc in C. intros i q Hi. rewrite Et in Hi. pose proof (cinv_reach _ _ Hr i) as CI. rewrite C, lookup_empty, Hi in CI. by destruct q.
  - done.
  - destruct (env_calls _ _ _ _ H X) as (d & Ed & D). destruct (env_log _ _ _ _ H X) as (W & Et & _ & Ep & Epo & d' & Ed' & As & _).
    unfold binv. rewrite W, Et, Ep, Epo, Ed'. split; [done|]. rewrite clock_quiet; [done|]. eapply Forall_impl; [exact As|]. by intros [].
Qed.
