(** The calls of wait(): what they return, notifications, posted packets, failures. *)
From stdpp Require Import prelude list gmap.
From Verif Require Import Bits Types EventModel Pool IocpModel IocpSpec IocpProofs IocpProofs2 IocpProofs3 IocpProofs4 IocpProofs5.
Local Open Scope nat_scope.

(* ------------------------------------------------------------------ *)
(** ** What a step adds to the log *)

(** Failures come with a refusal by the system. *)
Lemma update_err m k p o : source m p -> ef_res (update m k p o) <> Ok tt -> ef_fault (update m k p o) = true.
Proof.
  unfold update, afd_poll, afd_cancel. destruct p as [n|n|n|]; try done; intros [x Hx]; rewrite Hx; repeat case_match; done.
Qed.
Lemma delete_err m k p o : source m p -> ef_res (begin_delete m k p o) <> Ok tt -> ef_fault (begin_delete m k p o) = true.
Proof.
  unfold begin_delete, afd_cancel. destruct p as [n|n|n|]; try done; intros [x Hx]; rewrite Hx; repeat case_match; done.
Qed.
Lemma update_nopanic m k p o : source m p -> ef_res (update m k p o) <> Panic.
Proof.
  unfold update, afd_poll, afd_cancel. destruct p as [n|n|n|]; try done; intros [x Hx]; rewrite Hx; repeat case_match; done.
Qed.
Lemma delete_nopanic m k p o : source m p -> ef_res (begin_delete m k p o) <> Panic.
Proof.
  unfold begin_delete, afd_cancel. destruct p as [n|n|n|]; try done; intros [x Hx]; rewrite Hx; repeat case_match; done.
Qed.

(** A refusal of an update, after which a source may be lost. *)
Definition mishap (o : obs) : Prop := match o with Fault (PSock _ | PWait _) | Lost (PSock _ | PWait _) => True | _ => False end.
Definition blamed (d : list obs) : Prop := (exists p, Lost p ∈ d) -> exists p, Fault p ∈ d.
Lemma source_mishap m p : source m p -> mishap (Fault p) /\ mishap (Lost p).
Proof. by destruct p. Qed.
Lemma ustep_log c s p u o s' x :
  source (pmem s) p -> upc_ok (pmem s) u -> ustep c s p u o = (s', x) ->
  queue (sys s') = queue (sys s) /\
  exists d, log s' = log s ++ d /\ Forall mishap d /\ blamed d
    /\ match x with inr (Ok _) | inl _ => True | inr (Err _) => exists q, Fault q ∈ d | inr Panic => False end.
Proof.
  intros Sp Su H. unfold ustep in H.
  assert (UQ : forall q, queue (ef_sys (update (pmem s) (sys s) q o)) = queue (sys s)).
  { intros q. unfold update, afd_poll, afd_cancel. repeat case_match; done. }
  assert (K : forall q, source (pmem s) q -> exists d, log (do_update s q o).2 = log s ++ d /\ Forall mishap d /\ (forall r, Lost r ∉ d)
     /\ (do_update s q o).1 <> Panic /\ ((do_update s q o).1 <> Ok tt -> Fault q ∈ d)).
  { intros q Sq. exists (if ef_fault (update (pmem s) (sys s) q o) then [Fault q] else []).
    split; [done|]. destruct (source_mishap _ _ Sq) as [M _].
    split; [destruct (ef_fault _); auto|]. split; [intros r; destruct (ef_fault _); [|apply not_elem_of_nil]; by intros ?%elem_of_list_singleton|].
    split; [by apply update_nopanic|]. intros E%(update_err _ _ _ _ Sq). rewrite E. constructor. }
  destruct u as [| | |[|j]|j q].
  1,4: simplify_eq; split; [done|]; exists []; rewrite app_nil_r; split_and!; [done|constructor|by intros [r ?%not_elem_of_nil]|done].
  - destruct (K _ Sp) as (d & D1 & D2 & D3 & D4 & D5). specialize (UQ p).
    assert (Q : queue (sys (do_update s p o).2) = queue (sys s)) by exact UQ.
    destruct (do_update s p o) as [r s1]. cbn [fst snd] in *. simplify_eq. split; [done|]. exists d. split_and!; try done.
    + by intros [y Hy%D3].
    + destruct r as [[]|e|]; [done| |done]. exists p. by apply D5.
  - case_decide; simplify_eq; (split; [done|]); exists []; rewrite app_nil_r; split_and!; try done; try constructor; by intros [r ?%not_elem_of_nil].
  - destruct (pending s) as [|q l] eqn:Ep; simplify_eq; (split; [done|]); exists []; rewrite app_nil_r; split_and!; try done; try constructor; by intros [r ?%not_elem_of_nil].
  - cbn in Su. destruct (K _ Su) as (d & D1 & D2 & D3 & D4 & D5). specialize (UQ q).
    assert (Q : queue (sys (do_update s q o).2) = queue (sys s)) by exact UQ.
    destruct (do_update s q o) as [r s1]. cbn [fst snd] in *. destruct r as [[]|e|]; [| |done]; simplify_eq; (split; [done|]).
    + exists d. split_and!; try done. by intros [y Hy%D3].
    + exists (d ++ [Lost p]). cbn. rewrite D1, app_assoc. assert (F : Fault q ∈ d ++ [Lost p]) by (apply elem_of_app; left; by apply D5).
      split_and!; [done| |by exists q|by exists q]. apply Forall_app. split; [done|]. constructor; [|done]. by destruct (source_mishap _ _ Sp).
Qed.
Lemma delete_log s p o :
  source (pmem s) p ->
  queue (sys (do_delete s p o).2) = queue (sys s) /\ (do_delete s p o).1 <> Panic /\
  exists d, log (do_delete s p o).2 = log s ++ d ++ [Removed p] /\ Forall mishap d /\ (forall r, Lost r ∉ d)
     /\ ((do_delete s p o).1 <> Ok tt -> Fault p ∈ d).
Proof.
  intros Sp. split; [cbn; unfold begin_delete, afd_cancel; repeat case_match; done|]. split; [by apply delete_nopanic|].
  exists (if ef_fault (begin_delete (pmem s) (sys s) p o) then [Fault p] else []).
  split; [cbn; by rewrite app_assoc|]. destruct (source_mishap _ _ Sp) as [M _].
  split; [destruct (ef_fault _); auto|]. split; [intros r; destruct (ef_fault _); [|apply not_elem_of_nil]; by intros ?%elem_of_list_singleton|].
  intros E%(delete_err _ _ _ _ Sp). rewrite E. constructor.
Qed.

(** A step of a thread: nothing that wait() observes. *)
Definition aside (o : obs) : Prop :=
  match o with
  | Called _ _ | Returned _ _ _ | Armed _ _ _ | Entered _ _ | Removed _ | Fault _ | Posted _ | Lost (PSock _ | PWait _)
  | Done _ _ _ | Signalled _ => True
  | _ => False
  end.
Lemma mishap_aside d : Forall mishap d -> Forall aside d.
Proof. intros H. eapply Forall_impl; [exact H|]. intros [] X; cbn in *; try done; by destruct p. Qed.
Lemma thread_log c s i q a s' :
  tinv s -> threads s !! i = Some q -> thread_step c s i q a = Some s' ->
  waiter s' = waiter s /\
  exists d, log s' = log s ++ d /\ Forall aside d /\ blamed d
   /\ (match q with Post _ p => (exists e, d = [Fault p] /\ queue (sys s') = queue (sys s) /\ a = Go (Some e))
                     \/ (d = [Posted p] /\ queue (sys s') = queue (sys s) ++ [p] /\ a = Go None)
       | _ => queue (sys s') = queue (sys s) /\ forall p, Posted p ∉ d end).
Proof.
  intros T Hq H. pose proof (t_pc _ T _ _ Hq) as P.
  assert (N : forall s2 i2 q2, log s2 = log s -> waiter s2 = waiter s -> queue (sys s2) = queue (sys s) ->
    waiter (set_pc s2 i2 q2) = waiter s /\ exists d, log (set_pc s2 i2 q2) = log s ++ d /\ Forall aside d /\ blamed d /\
      queue (sys (set_pc s2 i2 q2)) = queue (sys s) /\ forall p, Posted p ∉ d).
  { intros s2 i2 q2 E1 E2 E3. split; [done|]. exists []. rewrite app_nil_r. split_and!; try done; try constructor.
    - by intros [r ?%not_elem_of_nil].
    - intros p. apply not_elem_of_nil. }
  assert (N1 : forall s2 ob, log s2 = log s ++ [ob] -> waiter s2 = waiter s -> queue (sys s2) = queue (sys s) -> aside ob ->
     (forall p, ob <> Lost p) -> (forall p, ob <> Posted p) ->
    waiter s2 = waiter s /\ exists d, log s2 = log s ++ d /\ Forall aside d /\ blamed d /\
      queue (sys s2) = queue (sys s) /\ forall p, Posted p ∉ d).
  { intros s2 ob E1 E2 E3 E4 E5 E6. split; [done|]. exists [ob]. split_and!; try done; auto.
    - intros [r Hr%elem_of_list_singleton]. by destruct (E5 r).
    - intros p Hp%elem_of_list_singleton. by destruct (E6 p). }
  destruct q, a; try done; unfold thread_step in H; cbn in P.
  - simplify_eq. by eapply N1.
  - destruct o; simplify_eq; [by apply N|]. destruct (new_packet _ _) as [[[m p] ob]|] eqn:E; [|done]. cbn [mbind option_bind] in H. injection H as <-.
    destruct c0; cbn in E; try done; injection E as <- <- <-; by eapply N1.
  - destruct (insert_packet _ _ _) as [s1|] eqn:E; simplify_eq; [|by apply N].
    destruct c0, p; cbn in E; try done; (case_in E; [done|]); simplify_eq; by eapply N1.
  - destruct (lookup_packet _ _) as [p|] eqn:E; simplify_eq; by apply N.
  - destruct (do_set _ _ _) as [[s1 b]|] eqn:E; [|done]. cbn [mbind option_bind] in H. injection H as <-.
    assert (X : exists ob, log s1 = log s ++ [ob] /\ waiter s1 = waiter s /\ sys s1 = sys s /\ aside ob
       /\ (forall p, ob <> Lost p) /\ (forall p, ob <> Posted p)).
    { destruct c0, p; cbn in E; try done; (case_in E; [|done]); cbn in E; injection E as <- _; by eexists. }
    destruct X as (ob & X1 & X2 & X3 & X4 & X5 & X6). destruct b; eapply N1; try done; cbn; by rewrite X3.
  - destruct P as (P1 & P2 & P3). destruct (ustep _ _ _ _ _) as [s1 x] eqn:E. simplify_eq.
    destruct (ustep_frame _ _ _ _ _ _ _ E) as (X1 & X2 & _).
    destruct (ustep_log _ _ _ _ _ _ _ (names_source _ _ _ P2) P3 E) as (Q & d & D1 & D2 & D3 & _). split; [done|]. exists d.
    split_and!; try done; [by apply mishap_aside|]. intros p' Hp. rewrite Forall_forall in D2. by apply D2 in Hp.
  - destruct (lookup_packet _ _) as [p|] eqn:E; simplify_eq; apply N; try done; by destruct c0.
  - destruct P as [P1 P2]. destruct (delete_log s p o (names_source _ _ _ P2)) as (Q & _ & d & D1 & D2 & D3 & _).
    assert (X : waiter (do_delete s p o).2 = waiter s) by done.
    destruct (do_delete s p o) as [r s1]. cbn [snd] in *. simplify_eq. split; [done|]. exists (d ++ [Removed p]). split_and!; try done.
    + apply Forall_app. split; [by apply mishap_aside|by constructor].
    + intros [y [Hy|Hy%elem_of_list_singleton]%elem_of_app]; [by apply D3 in Hy|done].
    + intros y [Hy|Hy%elem_of_list_singleton]%elem_of_app; [|done]. rewrite Forall_forall in D2. by apply D2 in Hy.
  - destruct (notified s); simplify_eq; by apply N.
  - unfold do_post in H; destruct o; simplify_eq; (split; [done|]).
    + exists [Fault p]. split_and!; try done; [by constructor|by intros [y Hy%elem_of_list_singleton]|]. left. by eexists.
    + exists [Posted p]. split_and!; try done; [by constructor|by intros [y Hy%elem_of_list_singleton]|]. by right.
  - simplify_eq. by eapply N1.
Qed.
(** A step of the system. *)
Lemma env_log c s l s' :
  step c s l = Some s' -> (match l with LThread _ _ | LWait _ _ _ | LWaiter _ => False | _ => True end) ->
  waiter s' = waiter s /\ threads s' = threads s /\ notified s' = notified s /\ pending s' = pending s /\ polling s' = polling s /\
  exists d, log s' = log s ++ d /\ Forall aside d /\ (forall p, Lost p ∉ d)
    /\ (exists b, queue (sys s') = queue (sys s) ++ b
         /\ (forall p, p = PWake \/ (exists n, p = PCustom n) -> p ∉ b /\ Posted p ∉ d)).
Proof.
  intros H L. destruct l; try done; cbn -[do_post] in H.
  - simplify_eq. split_and!; try done. exists []. rewrite app_nil_r. split_and!; try done; [intros p; apply not_elem_of_nil|].
    exists []. rewrite app_nil_r. split; [done|]. intros p _. split; apply not_elem_of_nil.
  - case_in H; [|done]. cbn in H. case_in H; [|done]. cbn in H. simplify_eq. split_and!; try done. eexists. split_and!; [done|by constructor|set_solver|].
    eexists. split; [done|]. intros p [->|[j ->]]; set_solver.
  - case_in H; [|done]. cbn in H. simplify_eq. split_and!; try done. eexists. split_and!; [done|by constructor|set_solver|].
    exists []. rewrite app_nil_r. split; [done|]. intros p Hp. set_solver.
  - case_in H; [|done]. cbn -[do_post] in H. destruct c0 as [m|m].
    + case_in H; [|done]. cbn in H. simplify_eq. split_and!; try done. exists []. rewrite app_nil_r. split_and!; try done; [intros p; apply not_elem_of_nil|].
      exists []. rewrite app_nil_r. split; [done|]. intros p _. split; apply not_elem_of_nil.
    + simplify_eq. destruct o; cbn; (split_and!; try done); eexists; (split_and!; [done|by constructor|set_solver|]).
      * exists []. rewrite app_nil_r. split; [done|]. intros p [->|[y ->]]; set_solver.
      * eexists. split; [done|]. intros p [->|[y ->]]; set_solver.
Qed.

(* ------------------------------------------------------------------ *)
(** ** What wait() returns *)

Definition still (o : obs) : Prop := forall x, progress_step x o = x.
Lemma current_still h d : Forall still d -> current (h ++ d) = current h.
Proof.
  unfold current. rewrite fold_left_app. generalize (fold_left progress_step h None).
  induction d as [|o d IH]; intros x; [done|]. intros [H1 H2]%Forall_cons. cbn [fold_left]. rewrite H1. by apply IH.
Qed.
Lemma aside_still d : Forall aside d -> Forall still d.
Proof. intros H. eapply Forall_impl; [exact H|]. intros [] X; done. Qed.
Lemma lost_still b : Forall still (map Lost b).
Proof. induction b; constructor; done. Qed.
Lemma current_snoc h o : current (h ++ [o]) = progress_step (current h) o.
Proof. unfold current. by rewrite fold_left_app. Qed.

Definition waits_ok (h : list obs) : Prop :=
  forall h1 evs h2, h = h1 ++ WaitRet (Ok tt) evs :: h2 ->
    exists w, current h1 = Some w /\ evs = pr_events w /\ (evs = [] -> pr_notified w = true \/ late w).
Lemma waits_ok_app h d : (forall evs, WaitRet (Ok tt) evs ∉ d) -> waits_ok h -> waits_ok (h ++ d).
Proof.
  intros H W h1 evs h2 E. destruct (app_eq_inv _ _ _ _ E) as [(k & -> & Ek)|(k & -> & Ek)].
  - destruct k as [|x k]; cbn in Ek; [|simplify_eq; by eapply W].
    destruct (H evs). rewrite <- Ek. constructor.
  - destruct (H evs). rewrite Ek. set_solver.
Qed.
Lemma waits_ok_snoc h evs w :
  waits_ok h -> current h = Some w -> evs = pr_events w -> (evs = [] -> pr_notified w = true \/ late w) -> waits_ok (h ++ [WaitRet (Ok tt) evs]).
Proof.
  intros J C1 C2 C3 h1 e1 h2 E. destruct h2 as [|x h2 _] using rev_ind.
  - apply app_inj_tail in E as [-> E]. simplify_eq. eauto.
  - rewrite app_comm_cons, app_assoc in E. apply app_inj_tail in E as [-> _]. by eapply J.
Qed.
Definition agrees (l : loc) (w : progress) : Prop :=
  pr_deadline w = lc_deadline l /\ pr_notified w = lc_notified l /\ pr_events w = lc_events l.
Definition wprog (q : wpc) (w : progress) : Prop :=
  match q with
  | WOut | WDead _ _ _ | WFail _ _ _ => True
  | WSwap l | WDrain l | WDrainDo l _ => agrees l w
  | WBlock l z | WGot l z _ | WFeed l z _ | WOpen l z _ _ => agrees l w /\ (z = true -> late w)
  | WUpd l z _ ret p _ => agrees (put l p ret) w /\ (z = true -> late w)
  | WEnd l => agrees l w /\ (lc_events l = [] -> pr_notified w = true \/ late w)
  end.
Record winv (s : state) : Prop := {
  w_ok : waits_ok (log s);
  w_cur : waiter s = WOut \/ exists w, current (log s) = Some w /\ wprog (waiter s) w
}.
Lemma winv_aside s s' d :
  winv s -> waiter s' = waiter s -> log s' = log s ++ d -> Forall aside d -> winv s'.
Proof.
  intros [W1 W2] EW EL D. split.
  - rewrite EL. apply waits_ok_app; [|done]. intros evs Hin. rewrite Forall_forall in D. by apply D in Hin.
  - rewrite EW, EL, current_still by by apply aside_still. done.
Qed.
(** A step of the waiter that shows nothing of its progress. *)
Lemma winv_move s s' d :
  winv s -> waiter s <> WOut -> log s' = log s ++ d -> Forall still d -> (forall evs, WaitRet (Ok tt) evs ∉ d) ->
  (forall w, wprog (waiter s) w -> wprog (waiter s') w) -> winv s'.
Proof.
  intros [W1 W2] N EL D R X. split.
  - rewrite EL. by apply waits_ok_app.
  - right. destruct W2 as [?|(w & C & P)]; [done|]. exists w. rewrite EL, current_still by done. auto.
Qed.
Lemma winv_fed s s' p r :
  winv s -> waiter s <> WOut -> log s' = log s ++ [Fed p r] ->
  (forall w w', wprog (waiter s) w -> progress_step (Some w) (Fed p r) = Some w' -> wprog (waiter s') w') -> winv s'.
Proof.
  intros [W1 W2] N EL X. split.
  - rewrite EL. apply waits_ok_app; [|done]. by intros evs ?%elem_of_list_singleton.
  - right. destruct W2 as [?|(w & C & P)]; [done|]. rewrite EL, current_snoc, C.
    assert (exists w', progress_step (Some w) (Fed p r) = Some w') as [w' Hw'].
    { destruct p, r; cbn; eauto. }
    exists w'. split; [done|]. eauto.
Qed.
Lemma late_same w w' : pr_deadline w' = pr_deadline w -> pr_clock w' = pr_clock w -> late w -> late w'.
Proof. intros E1 E2 (d & now & ?). exists d, now. by rewrite E1, E2. Qed.

Lemma winv_step c s l s' : tinv s -> winv s -> step c s l = Some s' -> winv s'.
Proof.
  intros T W H. assert (DL : (match l with LThread _ _ | LWait _ _ _ | LWaiter _ => False | _ => True end) \/ match l with LThread _ _ | LWait _ _ _ | LWaiter _ => True | _ => False end)
    by (destruct l; auto). destruct DL as [L|L].
  { destruct (env_log _ _ _ _ H L) as (EW & _ & _ & _ & _ & d & D1 & D2 & _). by eapply winv_aside. }
  assert (NL : Forall still []) by constructor. assert (NR : forall evs, WaitRet (Ok tt) evs ∉ []) by (intros; apply not_elem_of_nil).
  destruct l; try done; cbn in H; clear L.
  - destruct (threads s !! i) eqn:E; [|done]. cbn in H. destruct (thread_log _ _ _ _ _ _ T E H) as (EW & d & D1 & D2 & _). by eapply winv_aside.
  - destruct (waiter s) eqn:E; simplify_eq. split.
    + apply waits_ok_app; [by intros evs ?%elem_of_list_singleton|]. apply W.
    + right. eexists. cbn [log emit emits waiter set_waiter]. rewrite current_snoc. split; [done|]. done.
  - pose proof (t_wait _ T) as TW. unfold wait_step in H.
    destruct (waiter s) as [|l|l|l q|l z|l z b|l z b|l z p b|l z b ret p u|l e g|l|d own b] eqn:E, a;
      try done; try (by destruct b); cbn in TW.
    + simplify_eq. apply (winv_move s _ [] W); try done; rewrite ?E, ?app_nil_r; done.
    + destruct (pending s) as [|q r] eqn:Ep; simplify_eq.
      * split; [apply waits_ok_app; [by intros evs ?%elem_of_list_singleton|apply W]|]. right.
        destruct (w_cur _ W) as [?|(w & C & P)]; [congruence|]. rewrite E in P. cbn in P. cbn [log emit emits waiter set_waiter].
        rewrite current_snoc, C. eexists. split; [done|]. cbn. split; [exact P|]. destruct P as (P1 & P2 & P3). unfold elapsed.
        destruct (lc_deadline l) as [t|] eqn:Ed; [|done]. intros Ht%N.leb_le. exists t, now. cbn. by rewrite P1.
      * apply (winv_move s _ [] W); try done; rewrite ?E, ?app_nil_r; done.
    + assert (X : log (do_update s q o).2 = log s ++ (if ef_fault (update (pmem s) (sys s) q o) then [Fault q] else [])) by done.
      assert (Y : Forall still (if ef_fault (update (pmem s) (sys s) q o) then [Fault q] else [])) by (destruct (ef_fault _); by repeat constructor).
      assert (Z : forall evs, WaitRet (Ok tt) evs ∉ (if ef_fault (update (pmem s) (sys s) q o) then [Fault q] else [])).
      { intros evs. destruct (ef_fault _); [by intros ?%elem_of_list_singleton|apply not_elem_of_nil]. }
      destruct (do_update s q o) as [r s1]. cbn [snd] in X. simplify_eq. eapply (winv_move s _ _ W); try done; rewrite E; [done|]. by destruct r.
    + simplify_eq. apply (winv_move s _ [] W); try done; rewrite ?E, ?app_nil_r; done.
    + simplify_eq. apply (winv_move s _ [] W); try done; rewrite ?E, ?app_nil_r; done.
    + case_decide; simplify_eq. apply (winv_move s _ [] W); try done; rewrite ?E, ?app_nil_r; done.
    + simplify_eq. apply (winv_move s _ [] W); try done; rewrite ?E, ?app_nil_r; done.
    + destruct b as [|p b].
      * destruct (lc_notified l || negb (bool_decide (lc_events l = [])) || z) eqn:Ez; simplify_eq;
          (apply (winv_move s _ [] W); try done; rewrite ?E, ?app_nil_r; try done); intros w [(A1 & A2 & A3) B]; cbn; [|done].
        split; [done|]. intros Ee. rewrite A2. rewrite Ee in Ez. rewrite bool_decide_true in Ez by done.
        destruct (lc_notified l); [by left|]. cbn in Ez. right. by apply B.
      * simplify_eq. apply (winv_move s _ [] W); try done; rewrite ?E, ?app_nil_r; done.
    + (* feeding *)
      destruct p as [j|j|j|]; unfold feed_step in H.
      * destruct (socks (pmem s) !! j) as [k|] eqn:Ek; [|done]. cbn [mbind option_bind] in H.
        assert (FN : forall s' q', waiter s' = q' -> log s' = log s ++ [Fed (PSock j) None] ->
                   (forall w, wprog (WOpen l z (PSock j) b) w -> wprog q' w) -> winv s').
        { intros s2 q' E1 E2 E3. eapply (winv_fed s); [done|by rewrite E|done|]. rewrite E, E1. intros w w' P [= <-]. by apply E3. }
        destruct (feed_sock k) as [k'|k'|k' r] eqn:F.
        -- destruct (sources s !! sk_socket k) as [n'|] eqn:Es; [|simplify_eq; by eapply FN].
           case_decide; [simplify_eq; by eapply FN|].
           set (s1 := emit (set_mem s (set_sock (pmem s) j k')) (Fed (PSock j) None)) in *.
           assert (T1 : source (pmem s1) (PSock n')).
           { destruct (t_src _ T _ _ Es) as (k2 & Hk2 & _). cbn. rewrite lookup_insert_ne by done. by exists k2. }
           set (s2 := set_maps s1 _ _) in *. destruct (delete_log s2 (PSock n') o T1) as (_ & NP & d & D1 & D2 & D3 & D4).
           assert (WF : winv (set_waiter s1 (WFeed l z b))) by by eapply FN.
           assert (Q : forall s5 d', log s5 = log s1 ++ d' -> Forall still d' -> (forall evs, WaitRet (Ok tt) evs ∉ d') ->
              (forall w, wprog (WFeed l z b) w -> wprog (waiter s5) w) -> winv s5).
           { intros s5 d' Q1 Q2 Q3 Q4. by apply (winv_move (set_waiter s1 (WFeed l z b)) _ d'). }
           assert (ST : Forall still (d ++ [Removed (PSock n')])).
           { apply Forall_app. split; [by apply aside_still, mishap_aside|by repeat constructor]. }
           assert (NW : forall evs, WaitRet (Ok tt) evs ∉ d ++ [Removed (PSock n')]).
           { intros evs [Hy|Hy%elem_of_list_singleton]%elem_of_app; [|done]. rewrite Forall_forall in D2. by apply D2 in Hy. }
           destruct (do_delete s2 (PSock n') o) as [r s3]. cbn [fst snd] in *. destruct r as [[]|e|]; [| |done]; simplify_eq.
           ++ by eapply Q.
           ++ apply (Q _ ((d ++ [Removed (PSock n')]) ++ map Lost b)); try done.
              ** transitivity (log s3 ++ map Lost b); [done|]. rewrite D1. symmetry. apply (app_assoc (log s1)).
              ** apply Forall_app. split; [done|apply lost_still].
              ** intros evs [Hy|Hy]%elem_of_app; [by apply NW in Hy|]. by apply elem_of_list_fmap in Hy as (? & ? & _).
        -- simplify_eq. by eapply FN.
        -- simplify_eq. eapply (winv_fed s); [done|by rewrite E|done|]. rewrite E. intros w w' [(P1 & P2 & P3) Z] X. cbn.
           destruct r; cbn in X; simplify_eq; cbn; (split; [split_and!; cbn; try done; by rewrite P3|]); done.
      * destruct (wtbs (pmem s) !! j) as [k|] eqn:Ek; [|done]. cbn in H. simplify_eq. eapply (winv_fed s); [done|by rewrite E|done|].
        rewrite E. intros w w' [(P1 & P2 & P3) Z] X. cbn in X |- *. simplify_eq. cbn; (split; [split_and!; cbn; try done; by rewrite P3|]); done.
      * destruct (customs (pmem s) !! j) as [e|] eqn:Ek; [|done]. cbn in H. simplify_eq. eapply (winv_fed s); [done|by rewrite E|done|].
        rewrite E. intros w w' [(P1 & P2 & P3) Z] X. cbn in X |- *. simplify_eq. cbn; (split; [split_and!; cbn; try done; by rewrite P3|]); done.
      * simplify_eq. eapply (winv_fed s); [done|by rewrite E|done|].
        rewrite E. intros w w' [(P1 & P2 & P3) Z] X. cbn in X |- *. simplify_eq. cbn; done.
    + destruct TW as (TW1 & TW2 & TW3). destruct (ustep _ _ _ _ _) as [s1 x] eqn:Eu.
      destruct (ustep_log _ _ _ _ _ _ _ TW1 TW2 Eu) as (Q & d & D1 & D2 & D3 & D4).
      assert (NW : forall evs, WaitRet (Ok tt) evs ∉ d).
      { intros evs Hy. rewrite Forall_forall in D2. by apply D2 in Hy. }
      assert (ST : Forall still d) by by apply aside_still, mishap_aside.
      destruct x as [u'|[[]|e|]]; [| | |done]; simplify_eq.
      * eapply (winv_move s _ d W); rewrite ?E; done.
      * eapply (winv_move s _ d W); rewrite ?E; done.
      * eapply (winv_move s _ (d ++ map Lost b) W); rewrite ?E; try done.
        -- cbn. by rewrite D1, app_assoc.
        -- apply Forall_app. split; [done|apply lost_still].
        -- intros evs [Hy|Hy]%elem_of_app; [by apply NW in Hy|]. by apply elem_of_list_fmap in Hy as (? & ? & _).
    + simplify_eq. split; [|by left]. apply waits_ok_app; [by intros evs ?%elem_of_list_singleton|apply W].
    + simplify_eq. split; [|by left]. cbn. destruct (w_cur _ W) as [?|(w & C & P)]; [congruence|]. rewrite E in P.
      destruct P as [(P1 & P2 & P3) P4]. eapply waits_ok_snoc; [apply W|done|done|done].
Qed.
Lemma winv_reach c s : reachable c s -> winv s.
Proof.
  induction 1 as [n|s l s' Hr IH L H]; [|eapply winv_step; eauto using tinv_reach]. split; [|by left].
  intros h1 evs h2. by destruct h1.
Qed.
