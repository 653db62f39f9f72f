(** Calls in progress; notifications; deletion. *)
From stdpp Require Import prelude list gmap.
From Verif Require Import Bits Types EventModel Pool IocpModel IocpSpec IocpProofs IocpProofs2 IocpProofs3 IocpProofs4 IocpProofs5 IocpProofs6 IocpProofs7 IocpProofs8.
Local Open Scope nat_scope.

(** The call a thread is in. *)
Definition call_of (q : pc) : option call :=
  match q with
  | Out => None
  | AMake c | AInsert c _ | MLook c | MSet c _ | Upd c _ _ | DRemove c | DBegin c _ | NSwap c | Post c _ | Ret c _ => Some c
  end.
Definition call_obs (o : obs) : bool := match o with Called _ _ | Returned _ _ _ => true | _ => false end.
Lemma calls_snoc h o : calls (h ++ [o]) = calls_step (calls h) o.
Proof. unfold calls. by rewrite fold_left_app. Qed.
Lemma calls_quiet h d : Forall (fun o => call_obs o = false) d -> calls (h ++ d) = calls h.
Proof.
  unfold calls. rewrite fold_left_app. generalize (fold_left calls_step h ∅). induction d as [|o d IH]; intros m; [done|].
  intros [H1 H2]%Forall_cons. cbn [fold_left]. rewrite IH by done. by destruct o.
Qed.
Lemma call_entry c : call_of (entry c) = Some c.
Proof. destruct c; try done; by destruct m. Qed.

(** What a step shows of the calls. *)
Lemma thread_calls c s i q a s' :
  tinv s -> threads s !! i = Some q -> thread_step c s i q a = Some s' ->
  exists q', threads s' = <[i:=q']> (threads s) /\
  exists d, log s' = log s ++ d /\
   ((exists cl, q = Out /\ q' = entry cl /\ d = [Called i cl])
    \/ (exists cl r, q = Ret cl r /\ q' = Out /\ d = [Returned i cl r])
    \/ (call_of q' = call_of q /\ Forall (fun o => call_obs o = false) d)).
Proof.
  intros T Hq H. pose proof (t_pc _ T _ _ Hq) as P.
  assert (N : forall s2 q2, log s2 = log s -> threads s2 = threads s -> call_of q2 = call_of q ->
    exists q', threads (set_pc s2 i q2) = <[i:=q']> (threads s) /\ exists d, log (set_pc s2 i q2) = log s ++ d /\
     ((exists cl, q = Out /\ q' = entry cl /\ d = [Called i cl]) \/ (exists cl r, q = Ret cl r /\ q' = Out /\ d = [Returned i cl r])
      \/ (call_of q' = call_of q /\ Forall (fun o => call_obs o = false) d))).
  { intros s2 q2 E1 E2 E3. exists q2. split; [cbn; by rewrite E2|]. exists []. rewrite app_nil_r. split; [done|]. right. right. done. }
  assert (N1 : forall s2 q2 d, log s2 = log s ++ d -> threads s2 = threads s -> call_of q2 = call_of q -> Forall (fun o => call_obs o = false) d ->
    exists q', threads (set_pc s2 i q2) = <[i:=q']> (threads s) /\ exists d, log (set_pc s2 i q2) = log s ++ d /\
     ((exists cl, q = Out /\ q' = entry cl /\ d = [Called i cl]) \/ (exists cl r, q = Ret cl r /\ q' = Out /\ d = [Returned i cl r])
      \/ (call_of q' = call_of q /\ Forall (fun o => call_obs o = false) d))).
  { intros s2 q2 d E1 E2 E3 E4. exists q2. split; [cbn; by rewrite E2|]. exists d. split; [done|]. by right; right. }
  destruct q, a; try done; unfold thread_step in H; cbn in P.
  - injection H as <-. exists (entry c0). split; [done|]. exists [Called i c0]. split; [done|]. left. by exists c0.
  - destruct o; [injection H as <-; by apply N|]. destruct (new_packet _ _) as [[[m p] ob]|] eqn:E; [|done]. cbn [mbind option_bind] in H. injection H as <-.
    destruct c0; cbn in E; try done; injection E as <- <- <-; eapply N1; try done; by repeat constructor.
  - destruct (insert_packet _ _ _) as [s1|] eqn:E; injection H as <-; [|by apply N].
    destruct c0, p; cbn in E; try done; (case_in E; [done|]); injection E as <-; eapply N1; try done; by repeat constructor.
  - destruct (lookup_packet _ _) as [p|] eqn:E; injection H as <-; by apply N.
  - destruct (do_set _ _ _) as [[s1 b]|] eqn:E; [|done]. cbn [mbind option_bind] in H. injection H as <-.
    assert (X : exists ob, log s1 = log s ++ [ob] /\ threads s1 = threads s /\ call_obs ob = false).
    { destruct c0, p; cbn in E; try done; (case_in E; [|done]); cbn in E; injection E as <- _; by eexists. }
    destruct X as (ob & X1 & X2 & X3). destruct b; eapply N1; try done; by repeat constructor.
  - destruct P as (P1 & P2 & P3). destruct (ustep _ _ _ _ _) as [s1 x] eqn:E. injection H as <-.
    destruct (ustep_frame _ _ _ _ _ _ _ E) as (X1 & X2 & _).
    destruct (ustep_log _ _ _ _ _ _ _ (names_source _ _ _ P2) P3 E) as (Q & d & D1 & D2 & D3 & _). eapply N1; try done; [by destruct x|].
    eapply Forall_impl; [exact D2|]. by intros [].
  - destruct (lookup_packet _ _) as [p|] eqn:E; injection H as <-; apply N; try done; by destruct c0.
  - destruct P as [P1 P2]. destruct (delete_log s p o (names_source _ _ _ P2)) as (Q & _ & d & D1 & D2 & D3 & _).
    assert (X : threads (do_delete s p o).2 = threads s) by done.
    destruct (do_delete s p o) as [r s1]. cbn [snd] in *. injection H as <-. eapply N1; try done.
    apply Forall_app. split; [|by repeat constructor]. eapply Forall_impl; [exact D2|]. by intros [].
  - destruct (notified s); injection H as <-; by apply N.
  - unfold do_post in H; destruct o; injection H as <-; eapply N1; try done; by repeat constructor.
  - injection H as <-. exists Out. split; [done|]. exists [Returned i c0 r]. split; [done|]. right. left. by exists c0, r.
Qed.
(** The waiting thread and the system make no calls. *)
Definition own (o : obs) : Prop := call_obs o = false /\ match o with Entered _ _ | Armed _ _ _ | Posted PWake | Posted (PCustom _) => False | _ => True end.
Lemma aside_own d : Forall mishap d -> Forall own d.
Proof. intros H. eapply Forall_impl; [exact H|]. by intros [] ?. Qed.
Lemma lost_own b : Forall own (map Lost b).
Proof. induction b; by constructor. Qed.
(** Nothing but a deletion. *)
Definition deletes (o : obs) : Prop := mishap o \/ exists q, o = Removed q.
Definition fed_rest (s' : state) (l : loc) (b : list pid) (d : list obs) : Prop :=
  (Forall deletes d /\ (forall p, Lost p ∉ d) /\ opened (waiter s') = [] /\ batch (waiter s') = b)
  \/ (exists d1, d = d1 ++ map Lost b /\ Forall deletes d1 /\ (exists q, Fault q ∈ d1) /\ (forall p, Lost p ∉ d1)
      /\ opened (waiter s') = [] /\ batch (waiter s') = [] /\ exists e, waiter s' = WFail l e false).
Lemma feed_log s l z p b o s' :
  tinv s -> waiter s = WOpen l z p b -> feed_step s l z p b o = Some s' ->
  threads s' = threads s /\ queue (sys s') = queue (sys s) /\ notified s' = notified s /\ polling s' = polling s /\ pending s' = pending s /\
  exists r d, log s' = log s ++ Fed p r :: d /\ fed_rest s' l b d.
Proof.
  intros T E H. 
  assert (N : forall s2 r, log s2 = log s ++ [Fed p r] -> threads s2 = threads s -> queue (sys s2) = queue (sys s) -> notified s2 = notified s ->
    polling s2 = polling s -> pending s2 = pending s -> opened (waiter s2) = [] -> batch (waiter s2) = b ->
    threads s2 = threads s /\ queue (sys s2) = queue (sys s) /\ notified s2 = notified s /\ polling s2 = polling s /\ pending s2 = pending s /\
    exists r d, log s2 = log s ++ Fed p r :: d /\ fed_rest s2 l b d).
  { intros s2 r E1 E2 E3 E4 E5 E6 E7 E8. split_and!; try done. exists r, []. split; [done|]. left. split_and!; try done.
    intros x. apply not_elem_of_nil. }
  destruct p as [j|j|j|]; unfold feed_step in H.
  - destruct (socks (pmem s) !! j) as [k|] eqn:Ek; [|done]. cbn [mbind option_bind] in H.
    destruct (feed_sock k) as [k'|k'|k' r] eqn:F.
    + destruct (sources s !! sk_socket k) as [n'|] eqn:Es; [|injection H as <-; by eapply N].
      case_decide; [injection H as <-; by eapply N|].
      set (s1 := emit (set_mem s (set_sock (pmem s) j k')) (Fed (PSock j) None)) in *.
      assert (T1 : source (pmem s1) (PSock n')).
      { destruct (t_src _ T _ _ Es) as (k2 & Hk2 & _). cbn. rewrite lookup_insert_ne by done. by exists k2. }
      set (s2 := set_maps s1 _ _) in *. destruct (delete_log s2 (PSock n') o T1) as (Q & NP & d & D1 & D2 & D3 & D4).
      assert (X : threads (do_delete s2 (PSock n') o).2 = threads s /\ notified (do_delete s2 (PSock n') o).2 = notified s
        /\ polling (do_delete s2 (PSock n') o).2 = polling s /\ pending (do_delete s2 (PSock n') o).2 = pending s) by done.
      assert (ST : Forall deletes (d ++ [Removed (PSock n')])).
      { apply Forall_app. split; [|constructor; [|done]; right; by eexists]. eapply Forall_impl; [exact D2|]. intros o0 ?; by left. }
      assert (NW : forall p, Lost p ∉ d ++ [Removed (PSock n')]).
      { intros p [Hy|Hy%elem_of_list_singleton]%elem_of_app; [|done]. by apply D3 in Hy. }
      assert (LL : forall x, log s2 ++ x = log s ++ Fed (PSock j) None :: x) by (intros x; cbn; by rewrite <- app_assoc).
      destruct (do_delete s2 (PSock n') o) as [r s3]. cbn [fst snd] in *. destruct X as (X1 & X2 & X3 & X4).
      destruct r as [[]|e|]; [| |done]; injection H as <-; (split_and!; try done); exists None.
      * exists (d ++ [Removed (PSock n')]). split; [cbn; by rewrite D1, LL|]. by left.
      * exists ((d ++ [Removed (PSock n')]) ++ map Lost b). split.
        -- transitivity (log s3 ++ map Lost b); [done|]. rewrite D1, LL. by rewrite <- app_assoc.
        -- right. eexists. split_and!; try done; [|by exists e]. exists (PSock n'). apply elem_of_app. left. by apply D4.
    + injection H as <-. by eapply N.
    + injection H as <-. by eapply N.
  - destruct (wtbs (pmem s) !! j) as [k|] eqn:Ek; [|done]. cbn in H. injection H as <-. by eapply N.
  - destruct (customs (pmem s) !! j) as [e|] eqn:Ek; [|done]. cbn in H. injection H as <-. by eapply N.
  - injection H as <-. by eapply N.
Qed.

(* ------------------------------------------------------------------ *)
(** ** Posted packets *)

Definition plain (p : pid) : Prop := match p with PWake | PCustom _ => True | _ => False end.
Definition gone (p : pid) (o : obs) : bool := taken p o || losses p o.
Lemma tally_app f h d : tally f (h ++ d) = tally f h + tally f d.
Proof. apply cnt_app. Qed.
Lemma tally_none f d : (forall o, o ∈ d -> f o = false) -> tally f d = 0.
Proof.
  unfold tally. induction d as [|o d IH]; intros H; [done|]. cbn. rewrite (H o) by constructor. rewrite IH; [done|].
  intros o' Ho. apply H. by constructor.
Qed.
Lemma tally_lost p b : tally (gone p) (map Lost b) = occ p b.
Proof. unfold tally, occ. induction b as [|q b IH]; [done|]. cbn. by rewrite IH. Qed.
Lemma mishap_gone p d : plain p -> Forall mishap d -> tally (gone p) d = 0.
Proof.
  intros Hp F. apply tally_none. intros o Ho. rewrite Forall_forall in F. specialize (F _ Ho). unfold gone.
  destruct o; try done; cbn; rewrite bool_decide_false; try done; intros <-; by destruct p.
Qed.
Lemma own_posts p d : plain p -> Forall own d -> tally (posts p) d = 0.
Proof.
  intros Hp F. apply tally_none. intros o Ho. rewrite Forall_forall in F. destruct (F _ Ho) as [_ X].
  destruct o; try done. cbn. rewrite bool_decide_false; [done|]. intros <-. by destruct p.
Qed.
Lemma no_lost_gone p d : (forall q, Lost q ∉ d) -> (forall r q, Fed r q ∉ d) -> tally (gone p) d = 0.
Proof. intros H1 H2. apply tally_none. intros o Ho. destruct o; try done; exfalso; [by eapply H1|by eapply H2]. Qed.

Definition keeps (s s' : state) (d : list obs) : Prop :=
  threads s' = threads s /\ log s' = log s ++ d /\ Forall own d /\ blamed d
  /\ (forall p, plain p -> outstanding s p = outstanding s' p + tally (gone p) d).
Lemma keeps_nil s s' :
  threads s' = threads s -> log s' = log s -> (forall p, outstanding s' p = outstanding s p) -> keeps s s' [].
Proof.
  intros E1 E2 E3. split_and!; try done; [by rewrite app_nil_r|by intros [r ?%not_elem_of_nil]|]. intros p _. rewrite E3. cbn. lia.
Qed.
Lemma wait_keeps c s a s' : tinv s -> wait_step c s a = Some s' -> exists d, keeps s s' d.
Proof.
  intros T H. pose proof (t_wait _ T) as TW.
  destruct (waiter s) as [|l|l|l q|l z|l z b|l z b|l z p b|l z b ret p u|l e g|l|d own b] eqn:E, a;
    unfold wait_step in H; rewrite E in H; try done; try (by destruct b); cbn in TW.
  - injection H as <-. exists []. apply keeps_nil; try done. intros p. unfold outstanding. by rewrite E.
  - destruct (pending s) as [|q r] eqn:Ep; injection H as <-.
    + exists [Clock now]. split_and!; try done; [by repeat constructor|by intros [r ?%elem_of_list_singleton]|]. intros p _. unfold outstanding. rewrite E. cbn. lia.
    + exists []. apply keeps_nil; try done. intros p. unfold outstanding. by rewrite E.
  - exists (if ef_fault (update (pmem s) (sys s) q o) then [Fault q] else []).
    assert (X : threads (do_update s q o).2 = threads s /\ log (do_update s q o).2 = log s ++ (if ef_fault (update (pmem s) (sys s) q o) then [Fault q] else [])
       /\ queue (sys (do_update s q o).2) = queue (sys s)).
    { split_and!; try done. exact (update_queue _ _ _ _). }
    destruct (do_update s q o) as [r s1]. cbn [snd] in X. destruct X as (X1 & X2 & X3). injection H as <-. split_and!; try done.
    + destruct (ef_fault _); by repeat constructor.
    + intros [y Hy]. destruct (ef_fault _); [by apply elem_of_list_singleton in Hy|by apply not_elem_of_nil in Hy].
    + intros p Hp. unfold outstanding. cbn. rewrite X3, E. destruct (ef_fault _); destruct r; cbn; lia.
  - injection H as <-. exists []. apply keeps_nil; try done. intros p. unfold outstanding. by rewrite E.
  - injection H as <-. exists []. apply keeps_nil; try done. intros p. unfold outstanding. by rewrite E.
  - case_decide; [done|]. injection H as <-. exists []. apply keeps_nil; try done. intros p. unfold outstanding. rewrite E. cbn.
    pose proof (occ_app p (take (lc_cap l) (queue (sys s))) (drop (lc_cap l) (queue (sys s)))) as X. rewrite take_drop in X.
    rewrite occ_nil. lia.
  - injection H as <-. exists []. apply keeps_nil; try done. intros p. unfold outstanding. by rewrite E.
  - destruct b as [|p b].
    + case_match; injection H as <-; exists []; (apply keeps_nil; try done); intros p; unfold outstanding; by rewrite E.
    + injection H as <-. exists []. apply keeps_nil; try done. intros r. unfold outstanding. rewrite E. cbn.
      rewrite (occ_cons r p b), occ_nil. lia.
  - destruct (feed_log _ _ _ _ _ _ _ T E H) as (X1 & X2 & _ & _ & _ & r & d & L & D). exists (Fed p r :: d).
    assert (CG : forall y, tally (gone y) (Fed p r :: d) = occ y [p] + tally (gone y) d).
    { intros y. rewrite occ_one. unfold tally, gone. cbn. rewrite orb_false_r. by case_decide; [rewrite bool_decide_true|rewrite bool_decide_false]. }
    assert (NG : forall d1, Forall deletes d1 -> Forall own d1 /\ forall y, plain y -> tally (gone y) d1 = 0).
    { intros d1 F. split; [eapply Forall_impl; [exact F|]; by intros o0 [?|[q0 ->]]; [destruct o0|]|].
      intros y Hy. apply tally_none. intros o0 Ho. rewrite Forall_forall in F. destruct (F _ Ho) as [M|[q0 ->]]; [|done].
      unfold gone. destruct o0; try done; cbn; rewrite bool_decide_false; try done; intros <-; by destruct y. }
    destruct D as [(D1 & D2 & D3 & D4)|(d1 & -> & D1 & [q D2] & D3 & D4 & D5 & e & D6)]; destruct (NG _ D1) as [G1 G2].
    + split_and!; try done; [by constructor| |].
      * intros [y [?|Hy]%elem_of_cons]; [done|]. by apply D2 in Hy.
      * intros y Hy. rewrite CG, G2 by done. unfold outstanding. rewrite X2, E, D3, D4. cbn [batch opened]. rewrite occ_nil. lia.
    + split_and!; try done; [constructor; [done|apply Forall_app; split; [done|apply lost_own]]| |].
      * intros _. exists q. set_solver.
      * intros y Hy. rewrite CG, tally_app, G2, tally_lost by done. unfold outstanding. rewrite X2, E, D4, D5. cbn [batch opened]. rewrite !occ_nil. lia.
  - destruct TW as (TW1 & TW2 & TW3). destruct (ustep _ _ _ _ _) as [s1 x] eqn:Eu.
    destruct (ustep_log _ _ _ _ _ _ _ TW1 TW2 Eu) as (Q & d & D1 & D2 & D3 & D4). destruct (ustep_frame _ _ _ _ _ _ _ Eu) as (X1 & X2 & _).
    destruct x as [u'|[[]|e|]]; [| | |done]; injection H as <-.
    + exists d. split_and!; try done; [by apply aside_own|]. intros y Hy. rewrite mishap_gone by done. unfold outstanding. rewrite E. cbn. rewrite Q. lia.
    + exists d. split_and!; try done; [by apply aside_own|]. intros y Hy. rewrite mishap_gone by done. unfold outstanding. rewrite E. cbn. rewrite Q. lia.
    + exists (d ++ map Lost b). split_and!; try done.
      * cbn. by rewrite D1, app_assoc.
      * apply Forall_app. split; [by apply aside_own|apply lost_own].
      * intros _. destruct D4 as [y Hy]. exists y. apply elem_of_app. by left.
      * intros y Hy. rewrite tally_app, mishap_gone, tally_lost by done. unfold outstanding. rewrite E. cbn. rewrite Q, !occ_nil. lia.
  - injection H as <-. eexists. split_and!; try done; [by repeat constructor|by intros [r ?%elem_of_list_singleton]|]. intros p _. unfold outstanding. rewrite E. cbn. lia.
  - injection H as <-. eexists. split_and!; try done; [by repeat constructor|by intros [r ?%elem_of_list_singleton]|]. intros p _. unfold outstanding. rewrite E. cbn. lia.
Qed.
