(** No call panics: the facts behind C97. *)
From stdpp Require Import prelude list gmap.
From Verif Require Import Bits Types EventModel Pool.
From Verif Require PollModel PollSpec PollProofs PollConcModel PollConcSpec PollConcProofs PollConcTable
  KqueueModel KqueueSpec IocpModel IocpSpec IocpProofs IocpProofs3 IocpProofs8 IocpProofs9 IocpProofs10 IocpProofs11.
Local Open Scope nat_scope.

(* ------------------------------------------------------------------ *)
(** ** poll *)
Section poll.
Import PollModel PollSpec PollProofs PollConcModel PollConcSpec PollConcProofs PollConcTable.

Definition calm (p : pc) : Prop :=
  match p with ODec r | OSignal r | OUnlock r | ORet r => r <> Panic | WPanic => False | _ => True end.
Lemma calm_turn c n s a fl ord i :
  reachable c n s -> threads s !! i = Some (WSwap3 a) -> hash_order (table s) ord ->
  (poll_turn (table s) (PollRet a.1 a.2) fl ord).1 <> TPanic.
Proof.
  intros Hr Hi Ho. destruct (tab_inv_ok _ _ _ Hr) as [T A]. destruct (A i _ a Hi eq_refl) as [P _].
  destruct (poll_turn _ _ _ _) as [t s'] eqn:E.
  by destruct (turn_wf _ _ _ _ _ _ _ (reachable_wf _ _ T) P Ho E).
Qed.
Lemma calm_call c n s cl : reachable c n s -> (do_call (own c) (table s) cl).1 <> Panic.
Proof.
  intros Hr. destruct (tab_inv_ok _ _ _ Hr) as [T _]. destruct (do_call _ _ _) as [r s'] eqn:E.
  by destruct (call_wf _ _ _ _ _ (reachable_wf _ _ T) E).
Qed.
Lemma poll_calm c n s : reachable c n s ->
  (forall i p, threads s !! i = Some p -> calm p) /\ (forall i, OpRet i Panic ∉ log s).
Proof.
  induction 1 as [|s [i a] s' Hr [I1 I2] Hl Hs].
  - split; [|intros i; apply not_elem_of_nil]. intros i p Hi. cbn in Hi. by apply lookup_replicate in Hi as [-> _].
  - assert (S : (forall p, threads s' !! i = Some p -> calm p) /\ forall j, OpRet j Panic ∉ log s').
    { pose proof (fun cl => calm_call _ _ _ cl Hr) as CC.
      pose proof (fun an fl ord => calm_turn _ _ _ an fl ord i Hr) as CT. clear Hr. unfold legal in Hl. cbn [snd] in Hl.
      step_cases Hs as Hp; cbn [snd] in Hl.
      all: try (split; [|by intros j; rewrite ?elem_of_app, ?elem_of_cons, ?elem_of_nil; specialize (I2 j); naive_solver]).
      all: try (erewrite lookup_self by first [exact Hp|
             rewrite list_lookup_insert_ne by (intros ->; congruence); exact Hp]).
      all: pose proof (I1 _ _ Hp) as Cp; cbn in Cp.
      all: try (intros p [= <-]; cbn; try done; fail).
      all: try (intros p [= <-]; cbn; match goal with H : do_call _ _ ?cl = _ |- _ => specialize (CC cl); rewrite H in CC; done end).
      all: try (intros p [= <-]; cbn; apply CC).
      all: try (intros p [= <-]; cbn; case_decide; done).
      all: try (intros p [= <-]; cbn; repeat case_match; done).
      all: try (intros p [= <-]; match goal with H : poll_turn _ _ _ _ = _ |- _ => specialize (CT _ (notified s) _ eq_refl Hl); rewrite H in CT; by destruct CT end). }
    destruct S as [S1 S2]. split; [|done]. intros j p Hj. destruct (decide (j = i)) as [->|Hne]; [by apply S1|].
    destruct (other_thread c s i a s' j p Hs Hne Hj) as [Hj'|[-> _]]; [|done]. by eapply I1.
Qed.
End poll.

(* ------------------------------------------------------------------ *)
(** ** kqueue *)
Section kqueue.
Import KqueueModel KqueueSpec.
(** A call for a signal that the library does not know. *)
Definition bad_signal (c : config) (cl : call) : Prop :=
  exists n, signal_ok c n = false /\
    ((exists k m, cl = CAddFilter (USignal n) k m \/ cl = CModifyFilter (USignal n) k m) \/ cl = CDeleteFilter (USignal n)).
Lemma changes_none c cl : call_changes c cl = None -> bad_signal c cl.
Proof.
  unfold bad_signal. destruct cl as [| | |u k m|u k m|u]; cbn; try done; destruct u as [n| |]; cbn; try done;
    destruct (signal_ok c n) eqn:E; try done; intros _; exists n; (split; [done|]); eauto 6.
Qed.
Definition calm_k (c : config) (p : pc) : Prop := match p with PRet cl Panic => bad_signal c cl | _ => True end.
Lemma receipts_calm l : check_receipts l <> Panic.
Proof. induction l as [|r l IH]; [done|]. cbn. by destruct (serious r). Qed.
Lemma kqueue_calm c excl s : reachable c excl s ->
  (forall i p, threads s !! i = Some p -> calm_k c p) /\ (forall i cl, Returned i cl Panic ∈ log s -> bad_signal c cl).
Proof.
  induction 1 as [|s l s' Hr [I1 I2] Hl Hs].
  - assert (X : threads (init c n) = replicate n Idle /\ log (init c n) = []) by (unfold init; by destruct (noti c)).
    destruct X as [X1 X2]. rewrite X1, X2. split; [|by intros i cl ?%not_elem_of_nil]. intros i p Hi. by apply lookup_replicate in Hi as [-> _].
  - assert (K : forall q (i : nat), calm_k c q -> forall j p, <[i:=q]> (threads s) !! j = Some p -> calm_k c p).
    { intros q i Q j p Hj. apply list_lookup_insert_Some in Hj as [(_ & <- & _)|[_ Hj]]; [done|by eapply I1]. }
    assert (N : forall o, (forall i cl, o <> Returned i cl Panic) -> forall i cl, Returned i cl Panic ∈ log s ++ [o] -> bad_signal c cl).
    { intros o O i cl [X|X%elem_of_list_singleton]%elem_of_app; [by eapply I2|by destruct (O i cl)]. }
    destruct l as [i a| | | | | |]; cbn in Hs.
    + destruct (threads s !! i) as [q|] eqn:Hq; [|done]. pose proof (I1 _ _ Hq) as Q.
      destruct q, a; try done; unfold thread_step in Hs.
      * injection Hs as <-. split; [|by apply N]. apply K. destruct cl; cbn; try done. case_match eqn:E; [done|]. by apply changes_none.
      * injection Hs as <-. split; [|done]. by apply K.
      * case_decide; injection Hs as <-; (split; [|done]); by apply K.
      * case_decide; injection Hs as <-; (split; [|done]); apply K; [|done]. case_match eqn:E; [done|]. by apply changes_none.
      * destruct (kevent _ _ _ _) as [an k]. injection Hs as <-. split; [|by apply N]. apply K. unfold after_submit.
        pose proof (receipts_calm (receipts an)). destruct (check_receipts _) as [[]|e|]; try done. by destruct (deletes cl).
      * destruct (kevent _ _ _ _) as [an k]. injection Hs as <-. split; [|by apply N]. by apply K.
      * injection Hs as <-. split; [|done]. apply K. by case_decide.
      * injection Hs as <-. split; [by apply K|]. intros j cl' [X|X%elem_of_list_singleton]%elem_of_app; [by eapply I2|].
        injection X as -> -> <-. done.
      * injection Hs as <-. split; [|done]. by apply K.
      * destruct (noti c); injection Hs as <-; (split; [|by apply N]); by apply K.
      * injection Hs as <-. split; [|done]. by apply K.
    + injection Hs as <-. split; [done|]. by apply N.
    + injection Hs as <-. split; [done|]. by apply N.
    + destruct (wait s); try done. injection Hs as <-. split; [done|]. by apply N.
    + destruct (wait s); try done. case_match; [|done]. injection Hs as <-. split; [done|]. by apply N.
    + destruct (wait s); try done. destruct e; injection Hs as <-; (split; [done|]); first [done|by apply N].
    + unfold wait_step in Hs. destruct (wait s); try done.
      * destruct (noti c); [done|]. injection Hs as <-. by split.
      * destruct (noti c); [done|]. case_decide; injection Hs as <-; (split; [done|]); first [done|by apply N].
      * destruct (noti c); [done|]. destruct (kevent _ _ _ _) as [an k]. destruct (check_receipts _); injection Hs as <-; (split; [done|]); by apply N.
      * injection Hs as <-. split; [done|]. by apply N.
      * injection Hs as <-. split; [done|]. by apply N.
Qed.
End kqueue.

(* ------------------------------------------------------------------ *)
(** ** IOCP *)
Section iocp.
Import IocpModel IocpSpec IocpProofs IocpProofs3 IocpProofs8 IocpProofs9 IocpProofs10 IocpProofs11.
Definition calm_i (q : pc) : Prop := match q with Ret _ r => r <> Panic | _ => True end.
Definition calm_o (o : obs) : Prop := match o with Returned _ _ r => r <> Panic | WaitRet r _ => r <> Panic | _ => True end.
(** The flag that the assertions of src/iocp/mod.rs:440, 445 look at. *)
Definition flag_ok (s : state) : Prop :=
  match waiter s with
  | WDrain _ | WDrainDo _ _ | WBlock _ _ | WGot _ _ _ => polling s = true
  | WFail _ _ g => polling s = g
  | _ => polling s = false
  end.
Lemma thread_calm c s i q a s' :
  tinv s -> threads s !! i = Some q -> calm_i q -> thread_step c s i q a = Some s' ->
  exists q' d, threads s' = <[i:=q']> (threads s) /\ calm_i q' /\ log s' = log s ++ d /\ Forall calm_o d.
Proof.
  intros T Hq Q H. pose proof (t_pc _ T _ _ Hq) as P.
  pose proof (names_source (pmem s)) as NS.
  assert (N : forall s2 q2, threads s2 = threads s -> calm_i q2 -> (exists d, log s2 = log s ++ d /\ Forall calm_o d) ->
    exists q' d, threads (set_pc s2 i q2) = <[i:=q']> (threads s) /\ calm_i q' /\ log (set_pc s2 i q2) = log s ++ d /\ Forall calm_o d).
  { intros s2 q2 E1 E2 (d & E3 & E4). exists q2, d. cbn. by rewrite E1. }
  assert (Z : exists d, log s = log s ++ d /\ Forall calm_o d) by (exists []; rewrite app_nil_r; auto).
  assert (Z1 : forall o, calm_o o -> exists d, log s ++ [o] = log s ++ d /\ Forall calm_o d) by (intros o O; exists [o]; auto).
  destruct q, a; try done; unfold thread_step in H; cbn in P.
  - injection H as <-. exists (entry c0), [Called i c0]. split; [done|]. split; [|auto]. destruct c0; try done; by destruct m.
  - destruct o; [injection H as <-; by apply N|]. destruct (new_packet _ _) as [[[m p] ob]|] eqn:E; [|done]. cbn [mbind option_bind] in H. injection H as <-.
    apply N; [done|done|]. apply Z1. destruct c0; cbn in E; try done; by injection E as <- <- <-.
  - destruct (insert_packet _ _ _) as [s1|] eqn:E; injection H as <-; [|by apply N].
    destruct c0, p; cbn in E; try done; (case_in E; [done|]); injection E as <-; apply N; try done; by apply Z1.
  - destruct (lookup_packet _ _) as [p|] eqn:E; injection H as <-; by apply N.
  - destruct (do_set _ _ _) as [[s1 b]|] eqn:E; [|done]. cbn [mbind option_bind] in H. injection H as <-.
    assert (X : threads s1 = threads s /\ exists d, log s1 = log s ++ d /\ Forall calm_o d).
    { destruct c0, p; cbn in E; try done; (case_in E; [|done]); cbn in E; injection E as <- _; (split; [done|]); by apply Z1. }
    destruct X as (X1 & X2). destruct b; by apply N.
  - destruct (ustep _ _ _ _ _) as [s1 x] eqn:E. injection H as <-. destruct (ustep_frame _ _ _ _ _ _ _ E) as (X1 & _).
    destruct P as (_ & P1 & P2). apply NS in P1. destruct (ustep_log _ _ _ _ _ _ _ P1 P2 E) as (_ & d & D & M & _ & R). apply N; [done| |].
    + destruct x as [u'|[[]|e|]]; done.
    + exists d. split; [done|]. eapply Forall_impl; [exact M|]. by intros [].
  - destruct (lookup_packet _ _) as [p|] eqn:E; injection H as <-; apply N; try done; by destruct c0.
  - destruct P as [_ P%NS]. destruct (delete_log s p o P) as (_ & NP & d & D & M & _).
    assert (Y : threads (do_delete s p o).2 = threads s) by done.
    destruct (do_delete s p o) as [r s1]. cbn [fst snd] in *. injection H as <-. apply N; [done|done|].
    exists (d ++ [Removed p]). split; [done|]. apply Forall_app. split; [|auto]. eapply Forall_impl; [exact M|]. by intros [].
  - destruct (notified s); injection H as <-; by apply N.
  - unfold do_post in H; destruct o; injection H as <-; apply N; try done; by apply Z1.
  - injection H as <-. exists Out, [Returned i c0 r]. split; [done|]. split; [done|]. split; [done|]. by repeat constructor.
Qed.
Lemma feed_flag s l z p b o s' :
  tinv s -> waiter s = WOpen l z p b -> feed_step s l z p b o = Some s' ->
  match waiter s' with WFeed _ _ _ | WUpd _ _ _ _ _ _ | WDead _ _ _ | WFail _ _ false => True | _ => False end.
Proof.
  intros T E H. destruct p as [j|j|j|]; unfold feed_step in H.
  - destruct (socks (pmem s) !! j) as [k|] eqn:Ek; [|done]. cbn [mbind option_bind] in H.
    destruct (feed_sock k) as [k'|k'|k' r] eqn:F; [|by injection H as <-|by injection H as <-].
    destruct (sources s !! sk_socket k) as [n'|] eqn:Es; [|by injection H as <-].
    case_decide; [by injection H as <-|]. destruct (do_delete _ _ _) as [r s3]. injection H as <-. by destruct r as [[]|err|].
  - destruct (wtbs (pmem s) !! j) as [k|] eqn:Ek; [|done]. cbn [mbind option_bind] in H. destruct (feed_wtb k) as [k' r]. by injection H as <-.
  - destruct (customs (pmem s) !! j) as [k|] eqn:Ek; [|done]. cbn [mbind option_bind] in H. by injection H as <-.
  - by injection H as <-.
Qed.
Lemma deletes_calm d : Forall deletes d -> Forall calm_o d.
Proof. intros H. eapply Forall_impl; [exact H|]. intros o [X|[q ->]]; [|done]. by destruct o. Qed.
Lemma lost_calm b : Forall calm_o (map Lost b).
Proof. apply Forall_forall. by intros o (q & -> & _)%elem_of_list_fmap. Qed.
Lemma wait_calm c s a s' :
  tinv s -> flag_ok s -> wait_step c s a = Some s' ->
  threads s' = threads s /\ flag_ok s' /\ exists d, log s' = log s ++ d /\ Forall calm_o d.
Proof.
  intros T F H. unfold wait_step in H. pose proof (t_wait _ T) as P. unfold flag_ok in F.
  assert (Z : exists d, log s = log s ++ d /\ Forall calm_o d) by (exists []; rewrite app_nil_r; auto).
  assert (Z1 : forall o, calm_o o -> exists d, log s ++ [o] = log s ++ d /\ Forall calm_o d) by (intros o O; exists [o]; auto).
  destruct (waiter s) as [|l|l|l q|l z|l z b|l z b|l z p b|l z b ret p u|l e g|l|d own b] eqn:E, a; try done.
  - injection H as <-. done.
  - destruct (pending s); injection H as <-; (split; [done|]); (split; [done|]); [by apply Z1|done].
  - cbn in P. pose proof (update_nopanic (pmem s) (sys s) q o P) as NP.
    assert (Y : polling (do_update s q o).2 = polling s /\ threads (do_update s q o).2 = threads s
      /\ (do_update s q o).1 = ef_res (update (pmem s) (sys s) q o)
      /\ log (do_update s q o).2 = log s ++ (if ef_fault (update (pmem s) (sys s) q o) then [Fault q] else [])) by done.
    destruct (do_update s q o) as [r s1]. cbn [fst snd] in Y. destruct Y as (Y1 & Y2 & Y3 & Y4). injection H as <-.
    rewrite <- Y3 in NP. split; [done|]. split.
    + unfold flag_ok. cbn. rewrite Y1. by destruct r as [[]|e|].
    + eexists. split; [exact Y4|]. destruct (ef_fault _); by repeat constructor.
  - by injection H as <-.
  - by injection H as <-.
  - case_decide; [done|]. by injection H as <-.
  - by injection H as <-.
  - destruct b; [case_match|]; by injection H as <-.
  - by destruct b.
  - by destruct b.
  - by destruct b.
  - by destruct b.
  - destruct (feed_log _ _ _ _ _ _ _ T E H) as (X1 & _ & _ & X4 & _ & r & d & D & FR).
    pose proof (feed_flag _ _ _ _ _ _ _ T E H) as FF. split; [done|]. split.
    + unfold flag_ok. rewrite X4. destruct (waiter s') as [| | | | | | | | |? ? []| |]; done.
    + exists (Fed p r :: d). split; [done|]. constructor; [done|].
      destruct FR as [(D1 & _)|(d1 & -> & D1 & _)]; [by apply deletes_calm|]. apply Forall_app. split; [by apply deletes_calm|apply lost_calm].
  - destruct (ustep _ _ _ _ _) as [s1 x] eqn:Eu. injection H as <-. destruct (ustep_frame _ _ _ _ _ _ _ Eu) as (X1 & _ & _ & _ & X5 & _).
    cbn in P. destruct P as (P1 & P2 & P3). destruct (ustep_log _ _ _ _ _ _ _ P1 P2 Eu) as (_ & d & D & M & _ & R).
    assert (MC : Forall calm_o d) by (eapply Forall_impl; [exact M|]; by intros []).
    destruct x as [u'|[[]|e|]]; [| | |done].
    + split; [done|]. split; [unfold flag_ok; cbn; by rewrite X5|]. by exists d.
    + split; [done|]. split; [unfold flag_ok; cbn; by rewrite X5|]. by exists d.
    + split; [done|]. split; [unfold flag_ok; cbn; by rewrite X5|]. exists (d ++ map Lost b). cbn. rewrite D, <- app_assoc. split; [done|].
      apply Forall_app. split; [done|apply lost_calm].
  - injection H as <-. split; [done|]. split; [|by apply Z1]. unfold flag_ok. cbn. by destruct g.
  - injection H as <-. split; [done|]. split; [done|]. by apply Z1.
Qed.
Lemma iocp_calm c s : reachable c s ->
  (forall i q, threads s !! i = Some q -> calm_i q) /\ Forall calm_o (log s) /\ flag_ok s.
Proof.
  induction 1 as [n|s l s' Hr (I1 & I2 & I3) L H].
  - split; [|split; [constructor|done]]. intros i q Hi. cbn in Hi. by apply lookup_replicate in Hi as [-> _].
  - pose proof (tinv_reach _ _ Hr) as T.
    destruct (step_cases _ _ _ _ H) as [(i & q & a & _ & Hq & X)|[(a & _ & X)|[(cap & d & old & E & ->)|X]]].
    + destruct (thread_calm _ _ _ _ _ _ T Hq (I1 _ _ Hq) X) as (q' & d & Et & Q' & Ed & D).
      destruct (thread_log _ _ _ _ _ _ T Hq X) as (W & _). destruct (thread_direct _ _ _ _ _ _ Hq X) as (Po & _).
      split; [|split].
      * intros j q0 Hj. rewrite Et in Hj. apply list_lookup_insert_Some in Hj as [(_ & <- & _)|[_ Hj]]; [done|by eapply I1].
      * rewrite Ed. by apply Forall_app.
      * unfold flag_ok. by rewrite W, Po.
    + destruct (wait_calm _ _ _ _ T I3 X) as (Et & F & d & Ed & D). rewrite Et. split; [done|]. split; [|done]. rewrite Ed. by apply Forall_app.
    + split; [done|]. split; [cbn; apply Forall_app; by repeat constructor|]. unfold flag_ok in *. by rewrite E in I3.
    + destruct (env_log _ _ _ _ H X) as (W & Et & _ & _ & Po & d & Ed & As & _). rewrite Et. split; [done|].
      split; [|unfold flag_ok; by rewrite W, Po]. rewrite Ed. apply Forall_app. split; [done|]. destruct l; try done; cbn -[do_post] in H.
      * injection H as <-. cbn in Ed. destruct d; [done|]. exfalso. apply (f_equal length) in Ed. rewrite app_length in Ed. cbn in Ed. lia.
      * case_in H; [|done]. cbn in H. case_in H; [|done]. cbn in H. injection H as <-. cbn in Ed. apply app_inv_head in Ed as <-. by repeat constructor.
      * case_in H; [|done]. cbn in H. injection H as <-. cbn in Ed. apply app_inv_head in Ed as <-. by repeat constructor.
      * case_in H; [|done]. cbn -[do_post] in H. destruct c0 as [m|m].
        -- case_in H; [|done]. cbn in H. injection H as <-. cbn in Ed. destruct d; [done|]. exfalso. apply (f_equal length) in Ed. rewrite app_length in Ed. cbn in Ed. lia.
        -- injection H as <-. destruct o; cbn in Ed; apply app_inv_head in Ed as <-; by repeat constructor.
Qed.
End iocp.
