(** Proofs for C110. *)
From stdpp Require Import prelude list gmap.
From Verif Require Import Bits Types EventModel Pool IocpModel IocpSpec IocpProofs IocpProofs2 IocpProofs3 IocpProofs7 IocpProofs8 IocpProofs9 IocpProofs10 IocpOrderSpec.
Local Open Scope nat_scope.

Lemma queued_app h d : queued (h ++ d) = queued h ++ queued d.
Proof. apply omap_app. Qed.
Lemma processed_app h d : processed (h ++ d) = processed h ++ processed d.
Proof. apply omap_app. Qed.

(** Records of no completion. *)
Definition still (o : obs) : Prop := match o with Done _ _ _ | Posted _ | Fed _ _ => False | _ => True end.
Lemma still_queued d : Forall still d -> queued d = [].
Proof. unfold queued. induction 1 as [|o d H]; [done|]. cbn. by destruct o. Qed.
Lemma still_processed d : Forall still d -> processed d = [].
Proof. unfold processed. induction 1 as [|o d H]; [done|]. cbn. by destruct o. Qed.
Lemma mishap_still d : Forall mishap d -> Forall still d.
Proof. intros H. eapply Forall_impl; [exact H|]. by intros []. Qed.
Lemma deletes_still d : Forall deletes d -> Forall still d.
Proof. intros H. eapply Forall_impl; [exact H|]. intros o [X|[q ->]]; [by destruct o|done]. Qed.
Lemma lost_still b : Forall still (map Lost b).
Proof. induction b; by constructor. Qed.

Definition failing (w : wpc) : bool := match w with WFail _ _ _ => true | _ => false end.
(** [a]: the completions that wait() has taken and is done with. *)
Record fifo (s : state) (a : list pid) : Prop := {
  f_queued : queued (log s) = a ++ opened (waiter s) ++ batch (waiter s) ++ queue (sys s);
  f_order : processed (log s) `sublist_of` a;
  f_lost : nothing_lost (log s) -> a = processed (log s);
  f_fail : no_wait_failed (log s) -> failing (waiter s) = false -> a = processed (log s)
}.

Lemma thread_still c s i q a s' : tinv s -> threads s !! i = Some q -> thread_step c s i q a = Some s' ->
  exists d, log s' = log s ++ d /\ (Forall still d \/ exists cl p, q = Post cl p).
Proof.
  intros T Hq H. pose proof (t_pc _ T _ _ Hq) as P.
  assert (N : forall s1 q1, s' = set_pc s1 i q1 -> log s1 = log s -> exists d, log s' = log s ++ d /\ (Forall still d \/ exists cl p, q = Post cl p)).
  { intros s1 q1 -> E. exists []. cbn. rewrite E, app_nil_r. auto. }
  destruct q, a; try done; unfold thread_step in H.
  - injection H as <-. eexists. split; [done|]. left. by repeat constructor.
  - destruct o; [injection H as <-; by eapply N|].
    destruct c0; cbn in H; try done; injection H as <-; (eexists; split; [done|]; left; by repeat constructor).
  - destruct (insert_packet s c0 p) as [s1|] eqn:E; injection H as <-; [|by eapply N].
    destruct c0, p; cbn in E; try done; (case_in E; [done|]); injection E as <-; (eexists; split; [done|]; left; by repeat constructor).
  - destruct (lookup_packet s c0); injection H as <-; by eapply N.
  - destruct (do_set s c0 p) as [[s1 b]|] eqn:E; [|done]. cbn [mbind option_bind] in H.
    assert (X : exists d, log s1 = log s ++ d /\ Forall still d).
    { destruct c0, p; cbn in E; try done; (case_in E; [|done]); cbn in E; injection E as <- _; (eexists; split; [done|]; by repeat constructor). }
    destruct X as (d & Ed & Fd). exists d. split; [|by left]. destruct b; by injection H as <-.
  - destruct (ustep c s p u o) as [s1 x] eqn:E. injection H as <-. destruct P as (P1 & P2 & P3).
    destruct (ustep_log _ _ _ _ _ _ _ (names_source _ _ _ P2) P3 E) as (_ & d & Ed & Fd & _). exists d. split; [done|]. left. by apply mishap_still.
  - destruct (lookup_packet s c0); injection H as <-; [|by eapply N]. eapply (N (remove_packet s c0)); [done|]. by destruct c0.
  - destruct P as [P1 P2]. destruct (delete_log s p o (names_source _ _ _ P2)) as (_ & _ & d & Ed & Fd & _). destruct (do_delete s p o) as [r s1]. injection H as <-. cbn [snd] in Ed.
    eexists. split; [exact Ed|]. left. apply Forall_app. split; [by apply mishap_still|by repeat constructor].
  - case_match; injection H as <-; by eapply N.
  - destruct (do_post _ p o) as [r s1] eqn:E. injection H as <-. unfold do_post in E. destruct o; injection E as <- <-; (eexists; split; [done|]; right; eauto).
  - injection H as <-. eexists. split; [done|]. left. by repeat constructor.
Qed.

Lemma nothing_lost_app h d : nothing_lost (h ++ d) -> nothing_lost h /\ nothing_lost d.
Proof. intros H. split; intros p Hp; apply (H p), elem_of_app; auto. Qed.
Lemma no_failed_app h d : no_wait_failed (h ++ d) -> no_wait_failed h.
Proof. intros H e v Hp. apply (H e v), elem_of_app; auto. Qed.

(** More is queued. *)
Lemma fifo_queue s s' a d b : fifo s a -> waiter s' = waiter s -> log s' = log s ++ d -> queue (sys s') = queue (sys s) ++ b -> queued d = b -> processed d = [] -> fifo s' a.
Proof.
  intros [A B C D] EW EL EQ Q P. split.
  - rewrite EL, queued_app, A, EW, EQ, Q, <-!app_assoc. done.
  - by rewrite EL, processed_app, P, app_nil_r.
  - rewrite EL, processed_app, P, app_nil_r. intros [H _]%nothing_lost_app. auto.
  - rewrite EL, processed_app, P, app_nil_r, EW. intros H%no_failed_app. auto.
Qed.
(** Nothing moves. *)
Lemma fifo_same s s' a d : fifo s a -> opened (waiter s') ++ batch (waiter s') ++ queue (sys s') = opened (waiter s) ++ batch (waiter s) ++ queue (sys s) ->
  (failing (waiter s') = false -> no_wait_failed (log s') -> failing (waiter s) = false) -> log s' = log s ++ d -> Forall still d -> fifo s' a.
Proof.
  intros [A B C D] EW EF EL Fd. split.
  - rewrite EL, queued_app, (still_queued d), app_nil_r by done. by rewrite EW.
  - by rewrite EL, processed_app, (still_processed d), app_nil_r.
  - rewrite EL, processed_app, (still_processed d), app_nil_r by done. intros [H _]%nothing_lost_app. auto.
  - intros H F. specialize (EF F H). rewrite EL in *. rewrite processed_app, (still_processed d), app_nil_r by done. apply no_failed_app in H. auto.
Qed.
(** The rest of the batch is given up. *)
Lemma fifo_abandon s s' a b d : fifo s a -> opened (waiter s) = [] -> batch (waiter s) = b -> opened (waiter s') = [] -> batch (waiter s') = [] -> queue (sys s') = queue (sys s) ->
  failing (waiter s') = true -> log s' = log s ++ d ++ map Lost b -> Forall still d -> fifo s' (a ++ b).
Proof.
  intros [A B C D] EO EB EO' EB' EQ F EL Fd. pose proof (lost_still b) as Fb.
  assert (Q : queued (log s') = queued (log s)) by (rewrite EL, !queued_app, (still_queued d), (still_queued (map Lost b)) by done; by rewrite !app_nil_r).
  assert (P : processed (log s') = processed (log s)) by (rewrite EL, !processed_app, (still_processed d), (still_processed (map Lost b)) by done; by rewrite !app_nil_r).
  split.
  - by rewrite Q, A, EO, EB, EO', EB', EQ, <-!app_assoc.
  - rewrite P. by apply sublist_inserts_r.
  - rewrite P, EL. intros [H [_ L]%nothing_lost_app]%nothing_lost_app. destruct b as [|p b]; [rewrite app_nil_r; auto|].
    exfalso. apply (L p). constructor.
  - by rewrite F.
Qed.

Lemma fifo_wait c s a s' x : tinv s -> fifo s x -> wait_step c s a = Some s' -> exists y, fifo s' y.
Proof.
  intros T I H. pose proof (t_wait _ T) as TW. unfold wait_step in H.
  assert (N : forall s1 w1, s' = set_waiter s1 w1 -> log s1 = log s -> opened w1 ++ batch w1 ++ queue (sys s1) = opened (waiter s) ++ batch (waiter s) ++ queue (sys s) ->
     failing (waiter s) = false -> exists y, fifo s' y).
  { intros s1 w1 -> EL E F. exists x. eapply (fifo_same s _ x []); [done|exact E|done|by rewrite app_nil_r|constructor]. }
  destruct (waiter s) as [|l0|l0|l0 q|l0 z|l0 z b|l0 z b|l0 z p b|l0 z b ret p u|l0 e g|l0|d0 own b] eqn:E, a;
    try done; try (by destruct b); cbn in TW.
  - injection H as <-. by eapply N.
  - destruct (pending s); injection H as <-; [|by eapply N].
    exists x. eapply (fifo_same s _ x [Clock now]); [done|by rewrite E|by rewrite E|done|by repeat constructor].
  - destruct (do_update s q o) as [r s1] eqn:U. injection H as <-.
    assert (EQ : queue (sys s1) = queue (sys s)) by (pose proof (update_queue (pmem s) (sys s) q o) as X; unfold do_update in U; by injection U as _ <-).
    assert (EL : exists d, log s1 = log s ++ d /\ Forall still d).
    { unfold do_update in U. injection U as _ <-. cbn. eexists. split; [done|]. destruct (ef_fault _); by repeat constructor. }
    destruct EL as (d & EL & Fd). exists x. eapply (fifo_same s _ x d); [done| |by rewrite E|done|done]. cbn [waiter sys set_waiter]. rewrite E, EQ. by destruct r.
  - injection H as <-. by eapply N.
  - injection H as <-. by eapply N.
  - case_decide as D; [done|]. injection H as <-. eapply N; [done|done| |done]. cbn. by rewrite take_drop.
  - injection H as <-. by eapply N.
  - destruct b as [|p b]; [case_match|]; injection H as <-; by eapply N.
  - destruct (feed_log _ _ _ _ _ _ _ T E H) as (_ & EQ & _ & _ & _ & r & d & EL & [(Fd & Ld & EO & EB)|(d1 & -> & Fd & _ & Ld & EO & EB & e & EW)]).
    + destruct I as [A B C D]. rewrite E in A, D. cbn [opened batch] in A. assert (Fs := deletes_still _ Fd).
      assert (Q : queued (log s') = queued (log s)) by (rewrite EL, queued_app; change (queued (Fed p r :: d)) with (queued d); by rewrite (still_queued d), app_nil_r).
      assert (P : processed (log s') = processed (log s) ++ [p]) by (rewrite EL, processed_app; change (processed (Fed p r :: d)) with (p :: processed d); by rewrite (still_processed d)).
      exists (x ++ [p]). split.
      * by rewrite Q, A, EO, EB, EQ, <-!app_assoc.
      * rewrite P. by apply sublist_app.
      * rewrite P, EL. intros [X _]%nothing_lost_app. by rewrite C.
      * rewrite P, EL. intros X%no_failed_app _. by rewrite D.
    + set (s1 := emit (set_waiter s (WFeed l0 z b)) (Fed p r)).
      assert (I1 : fifo s1 (x ++ [p])).
      { destruct I as [A B C D]. rewrite E in A, D. cbn [opened batch] in A.
        assert (Q : queued (log s1) = queued (log s)) by (cbn; rewrite queued_app; cbn; by rewrite app_nil_r).
        assert (P : processed (log s1) = processed (log s) ++ [p]) by (cbn; by rewrite processed_app).
        split.
        - rewrite Q, A. cbn. by rewrite <-!app_assoc.
        - rewrite P. by apply sublist_app.
        - rewrite P. cbn. intros [X _]%nothing_lost_app. by rewrite C.
        - rewrite P. cbn. intros X%no_failed_app _. by rewrite D. }
      exists ((x ++ [p]) ++ b). eapply (fifo_abandon s1 _ _ b d1); [done|done|done|done|done|done|by rewrite EW| |by apply deletes_still].
      rewrite EL. cbn. by rewrite <-app_assoc.
  - destruct (ustep c s p u o) as [s1 y] eqn:U. destruct TW as (T1 & T2 & T3).
    destruct (ustep_log _ _ _ _ _ _ _ T1 T2 U) as (EQ & d & EL & Fd & _ & R). destruct (ustep_frame _ _ _ _ _ _ _ U) as (_ & EW & _).
    assert (I1 : fifo s1 x) by (eapply (fifo_same s _ x d); [done|by rewrite EW, EQ|by rewrite EW|done|by apply mishap_still]).
    assert (M : forall w1, opened w1 = [] -> batch w1 = b -> failing w1 = false -> exists y, fifo (set_waiter s1 w1) y).
    { intros w1 O B F. exists x. eapply (fifo_same s1 _ x []); [done| | |cbn; by rewrite app_nil_r|constructor].
      - cbn [waiter set_waiter sys]. by rewrite EW, E, O, B.
      - cbn [waiter set_waiter]. by rewrite EW, E. }
    destruct y as [u'|[v|e|]]; [| | |done]; injection H as <-; [by apply M|by apply M|].
    exists (x ++ b). eapply (fifo_abandon s1 _ x b []); [done|by rewrite EW, E|by rewrite EW, E|done|done|done|done|done|constructor].
  - injection H as <-. exists x. eapply (fifo_same s _ x [_]); [done|by rewrite E| |done|by repeat constructor].
    intros _ X. exfalso. apply (X e (lc_events l0)). cbn. apply elem_of_app. right. constructor.
  - injection H as <-. exists x. eapply (fifo_same s _ x [_]); [done|by rewrite E|by rewrite E|done|by repeat constructor].
Qed.

Lemma env_fifo c s l s' : step c s l = Some s' -> (match l with LThread _ _ | LWait _ _ _ | LWaiter _ => False | _ => True end) ->
  waiter s' = waiter s /\ exists d, log s' = log s ++ d /\ queue (sys s') = queue (sys s) ++ queued d /\ processed d = [].
Proof.
  intros H L. destruct l; try done; cbn -[do_post] in H.
  - injection H as <-. split; [done|]. exists []. by rewrite !app_nil_r.
  - case_in H; [|done]. cbn in H. case_in H; [|done]. cbn in H. injection H as <-. split; [done|]. by eexists.
  - case_in H; [|done]. cbn in H. injection H as <-. split; [done|]. eexists. split; [done|]. cbn. by rewrite app_nil_r.
  - case_in H; [|done]. cbn -[do_post] in H. destruct c0 as [m|m].
    + case_in H; [|done]. cbn in H. injection H as <-. split; [done|]. exists []. by rewrite !app_nil_r.
    + injection H as <-. destruct o; (split; [done|]); eexists; (split; [done|]); cbn; by rewrite ?app_nil_r.
Qed.

Lemma fifo_reach c s : reachable c s -> exists a, fifo s a.
Proof.
  induction 1 as [n|s l s' Hr [x I] L H].
  { exists []. split; try done. }
  pose proof (tinv_reach _ _ Hr) as T.
  destruct (step_cases _ _ _ _ H) as [(i & q & a & _ & Hq & X)|[(a & _ & X)|[(cap & d & old & E & ->)|X]]].
  - destruct (thread_log _ _ _ _ _ _ T Hq X) as (EW & d & D1 & _ & _ & D4). destruct (thread_still _ _ _ _ _ _ T Hq X) as (d' & D1' & S).
    rewrite D1 in D1'. apply app_inv_head in D1' as <-. exists x.
    assert (K : Forall still d -> queue (sys s') = queue (sys s) -> fifo s' x).
    { intros F Q. eapply (fifo_queue s s' x d []); [done|done|done|by rewrite app_nil_r|by apply still_queued|by apply still_processed]. }
    destruct q; try (destruct S as [S|(cl & p' & [=])]; destruct D4 as [D4 _]; by apply K).
    destruct D4 as [(e & -> & D4 & _)|(-> & D4 & _)]; [apply K; [by repeat constructor|done]|]. by eapply (fifo_queue s s' x [Posted p] [p]).
  - by eapply fifo_wait.
  - exists x. eapply (fifo_same s _ x [_]); [done|by rewrite E|by rewrite E|done|by repeat constructor].
  - destruct (env_fifo _ _ _ _ H X) as (EW & d & D1 & D2 & D3). exists x. by eapply (fifo_queue s s' x d).
Qed.

(** ** The calls of post *)

Lemma quiet_app i h d : quiet i h -> quiet i d -> quiet i (h ++ d).
Proof. intros H1 H2. apply Forall_app. by split. Qed.
Lemma quiet_calls i d : Forall (fun o => call_obs o = false) d -> quiet i d.
Proof. intros H. eapply Forall_impl; [exact H|]. by intros []. Qed.

(** How far a call of post has come. *)
Definition begun (i n : nat) (h : list obs) : Prop := exists a b, h = a ++ Called i (CPost n) :: b /\ quiet i b.
Definition made (i n : nat) (h : list obs) : Prop := exists a b d, h = a ++ Called i (CPost n) :: b ++ Posted (PCustom n) :: d /\ quiet i b /\ quiet i d.
Definition pinv_pc (i : nat) (q : pc) (h : list obs) : Prop :=
  match q with
  | Post (CPost n) p => begun i n h
  | Ret (CPost n) (Ok _) => made i n h
  | _ => True
  end.
Lemma begun_app i n h d : begun i n h -> quiet i d -> begun i n (h ++ d).
Proof. intros (a & b & -> & Q) D. exists a, (b ++ d). split; [by rewrite <-app_assoc|]. by apply quiet_app. Qed.
Lemma made_app i n h d : made i n h -> quiet i d -> made i n (h ++ d).
Proof. intros (a & b & e & -> & Q1 & Q2) D. exists a, b, (e ++ d). split; [|split; [done|by apply quiet_app]]. rewrite <-app_assoc. cbn. by rewrite <-app_assoc. Qed.
Lemma pinv_app i q h d : pinv_pc i q h -> quiet i d -> pinv_pc i q (h ++ d).
Proof. destruct q; cbn; try done; [destruct c; try done; apply begun_app|destruct c; try done; destruct r; try done; apply made_app]. Qed.
Lemma quiet_post_step c s i q a s' : tinv s -> threads s !! i = Some q -> thread_step c s i q a = Some s' -> pinv_pc i q (log s) ->
  forall q', threads s' !! i = Some q' -> pinv_pc i q' (log s').
Proof.
  intros T Hq H I q' Hq'. pose proof (t_pc _ T _ _ Hq) as P. pose proof (lookup_lt_Some _ _ _ Hq) as Li.
  destruct (thread_calls _ _ _ _ _ _ T Hq H) as (q1 & ET & d & EL & D).
  rewrite ET, list_lookup_insert in Hq' by done. injection Hq' as ->.
  destruct D as [(cl & -> & -> & ->)|[(cl & r & -> & -> & ->)|[EC Q]]].
  - rewrite EL. destruct cl; cbn; try (by destruct (supported _)); try done. exists (log s), []. split; [done|constructor].
  - done.
  - destruct q' as [| | | | | | | | |cl p|cl r]; try done; cbn [pinv_pc]; (destruct cl as [| | | | | |n|]; try done); cbn [call_of] in EC.
    + (* nothing goes to Post but NSwap *)
      destruct q, a; try done; cbn in EC; injection EC as <-; cbn in P; try done; try (by destruct P).
      * by destruct P as [[] _].
      * unfold thread_step in H. destruct (do_post _ p0 o) as [r s1] eqn:E. injection H as <-. cbn in ET.
        assert (X : threads s1 = threads s) by (unfold do_post in E; destruct o; by injection E as <- <-). rewrite X in ET.
        apply (f_equal (fun l => l !! i)) in ET. by rewrite !list_lookup_insert in ET.
      * unfold thread_step in H. injection H as <-. cbn in ET. apply (f_equal (fun l => l !! i)) in ET. by rewrite !list_lookup_insert in ET.
    + destruct r as [v| |]; [|done..]. destruct q, a; try done; cbn in EC; injection EC as <-; cbn in P; try done; try (by destruct P).
      * by destruct P as [[] _].
      * unfold thread_step in H. destruct (do_post _ p o) as [r s1] eqn:E. injection H as <-.
        assert (X : threads s1 = threads s) by (unfold do_post in E; destruct o; by injection E as <- <-). cbn in ET. rewrite X in ET.
        apply (f_equal (fun l => l !! i)) in ET. rewrite !list_lookup_insert in ET by done. injection ET as ->.
        unfold do_post in E. destruct o; [done|]. injection E as <- <-. cbn.
        destruct p; try done. destruct P as [[= <-] _]. destruct I as (a & b & -> & Qb). exists a, b, []. split; [by rewrite <-app_assoc|]. split; [done|constructor].
      * unfold thread_step in H. injection H as <-. cbn in ET. apply (f_equal (fun l => l !! i)) in ET. by rewrite !list_lookup_insert in ET.
Qed.
Definition pinv (s : state) : Prop :=
  (forall i q, threads s !! i = Some q -> pinv_pc i q (log s))
  /\ forall h1 i n v h2, log s = h1 ++ Returned i (CPost n) (Ok v) :: h2 -> made i n h1.
Lemma snoc_split {A} (h d h1 h2 : list A) x : h ++ d = h1 ++ x :: h2 -> x ∉ d -> exists h3, h = h1 ++ x :: h3.
Proof.
  intros E N. destruct (decide (length h <= length h1)) as [L|L].
  - exfalso. apply N. assert (X : (h ++ d) !! length h1 = Some x) by (rewrite E; by apply list_lookup_middle).
    rewrite lookup_app_r in X by done. by eapply elem_of_list_lookup_2.
  - exists (take (length h - S (length h1)) h2). apply (f_equal (take (length h))) in E. rewrite take_app in E.
    etransitivity; [exact E|]. rewrite take_app_ge by lia. f_equal. destruct (length h - length h1) as [|k] eqn:Z; [lia|]. cbn.
    by replace (length h - S (length h1)) with k by lia.
Qed.
Lemma pinv_reach c s : reachable c s -> pinv s.
Proof.
  induction 1 as [n|s l s' Hr [I1 I2] L H].
  { split; [|by intros []]. intros i q Hq. cbn in Hq. apply lookup_replicate in Hq as [-> _]. done. }
  pose proof (tinv_reach _ _ Hr) as T.
  assert (K : forall d, threads s' = threads s -> log s' = log s ++ d -> Forall (fun o => call_obs o = false) d -> pinv s').
  { intros d ET EL Q. split.
    - intros i q Hq. rewrite EL. rewrite ET in Hq. apply pinv_app; [auto|by apply quiet_calls].
    - intros h1 i n v h2 E. rewrite EL in E. apply snoc_split in E as [h3 E]; [by eapply I2|]. intros X. rewrite Forall_forall in Q. by apply Q in X. }
  destruct (step_cases _ _ _ _ H) as [(i & q & a & _ & Hq & X)|[(a & _ & X)|[(cap & d & old & E & ->)|X]]].
  - pose proof (quiet_post_step _ _ _ _ _ _ T Hq X (I1 _ _ Hq)) as S. pose proof (lookup_lt_Some _ _ _ Hq) as Li.
    destruct (thread_calls _ _ _ _ _ _ T Hq X) as (q1 & ET & d & EL & D). split.
    + intros j qj Hj. destruct (decide (j = i)) as [->|Nj]; [auto|]. rewrite ET, list_lookup_insert_ne in Hj by done. rewrite EL.
      apply pinv_app; [auto|]. destruct D as [(cl & _ & _ & ->)|[(cl & r & _ & _ & ->)|[_ Q]]]; [by repeat constructor|by repeat constructor|by apply quiet_calls].
    + intros h1 j n v h2 E. destruct D as [(cl & _ & _ & ->)|[(cl & r & -> & _ & ->)|[_ Q]]]; rewrite EL in E.
      * apply snoc_split in E as [h3 E]; [by eapply I2|]. by intros ?%elem_of_list_singleton.
      * destruct h2 as [|y h2 _] using rev_ind.
        -- apply app_inj_tail in E as [<- Y]. injection Y as -> -> ->. by apply (I1 _ _ Hq).
        -- rewrite app_comm_cons, app_assoc in E. apply app_inj_tail in E as [E _]. by eapply I2.
      * apply snoc_split in E as [h3 E]; [by eapply I2|]. intros Z. rewrite Forall_forall in Q. by apply Q in Z.
  - destruct (wait_keeps _ _ _ _ T X) as (d & ET & D1 & D2 & _). apply (K d); [done|done|by apply own_calls].
  - apply (K [WaitBegun d old]); [done|done|by repeat constructor].
  - destruct (env_log _ _ _ _ H X) as (_ & ET & _). destruct (env_calls _ _ _ _ H X) as (d & D1 & D2). apply (K d); [done|done|by apply own_calls].
Qed.
