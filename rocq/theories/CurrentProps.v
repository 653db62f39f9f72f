(** C103: events are about registrations in force, with their key, on every platform. *)
From stdpp Require Import prelude list gmap.
From Verif Require Import Types EventModel EventSpec CurrentSpec.
From Verif Require PollModel PollSpec PollProofs PollConcModel PollConcSpec PollConcProofs PollConcTable PollConcProofs2 PollProps PollConcProps
  EpollModel EpollSpec EpollProofs EpollProps KqueueModel KqueueSpec KqueueProofs KqueueProofs2 KqueueProofs3 KqueueProofs5 KqueueProofs6 KqueueProps PortModel PortSpec PortProps
  IocpModel IocpSpec IocpRuns IocpProps OnceEachProps.
Local Open Scope nat_scope.

(* ------------------------------------------------------------------ *)
(** ** What follows from the specification *)
Section general.
Context {S O : Type} `{EqDecision S}.

Lemma force_app (x : S) h t : in_force x (h ++ t) = fold_left (keyed x) t (in_force x h).
Proof. apply fold_left_app. Qed.
Lemma force_snoc (x : S) h t : in_force x (h ++ [t]) = keyed x (in_force x h) t.
Proof. by rewrite force_app. Qed.
(** Nothing in [t] is about [x]. *)
Lemma force_keep (x : S) t r : (forall k, Reg x k ∉ t) -> Unreg x ∉ t -> fold_left (keyed x) t r = r.
Proof.
  revert r. induction t as [|a t IH]; intros r H1 H2; [done|]. cbn [fold_left]. rewrite IH; [|set_solver..].
  destruct a as [|y k|y|]; cbn [keyed]; try done; case_decide; try done; subst; set_solver.
Qed.
Lemma force_gone (x : S) t : (forall k, Reg x k ∉ t) -> fold_left (keyed x) t None = None.
Proof.
  induction t as [|a t IH]; intros H1; [done|]. cbn [fold_left].
  assert (keyed x None a = None) as ->; [|apply IH; set_solver].
  destruct a as [|y k|y|]; cbn [keyed]; try done; case_decide; try done; subst. exfalso. apply (H1 k). left.
Qed.

(** After a delete, a wait() that begins later gets nothing about the source, unless it is registered again. *)
Theorem C103_silent_after_delete (x : S) h h0 h1 i h2 evs h3 k : events_current x h ->
  h = h0 ++ Unreg x :: h1 ++ Begin i :: h2 ++ Got i evs :: h3 -> Begin i ∉ h2 ->
  (forall k', Reg x k' ∉ h1 ++ h2) -> (x, k) ∉ evs.
Proof.
  intros F E N R K. destruct (F (h0 ++ Unreg x :: h1) i h2 evs h3 k) as (a & b & -> & A);
    [rewrite E; by rewrite <- app_assoc|done..|].
  rewrite <- app_assoc in A. change (Unreg x :: h1) with ([Unreg x] ++ h1) in A. rewrite <- app_assoc, app_assoc in A.
  rewrite force_app, force_snoc in A. cbn [keyed] in A. rewrite decide_True in A by done.
  rewrite force_gone in A; [done|]. intros k'. specialize (R k'). set_solver.
Qed.
(** After an add or modify, a wait() that begins later gets events with the key of that call only, unless another call
    about the source is made. *)
Theorem C103_key_after_modify (x : S) h h0 k0 h1 i h2 evs h3 k : events_current x h ->
  h = h0 ++ Reg x k0 :: h1 ++ Begin i :: h2 ++ Got i evs :: h3 -> Begin i ∉ h2 ->
  (forall k', Reg x k' ∉ h1 ++ h2) -> Unreg x ∉ h1 ++ h2 -> (x, k) ∈ evs -> k = k0.
Proof.
  intros F E N R U K. destruct (F (h0 ++ Reg x k0 :: h1) i h2 evs h3 k) as (a & b & -> & A);
    [rewrite E; by rewrite <- app_assoc|done..|].
  rewrite <- app_assoc in A. change (Reg x k0 :: h1) with ([Reg x k0] ++ h1) in A. rewrite <- app_assoc, app_assoc in A.
  rewrite force_app, force_snoc in A. cbn [keyed] in A. rewrite decide_True in A by done.
  rewrite force_keep in A; [by injection A|intros k'; specialize (R k'); set_solver|set_solver].
Qed.

Lemma at_once (f : O -> list (token S)) (x : S) l :
  (forall h1 o h2 u v i evs k, l = h1 ++ o :: h2 -> f o = u ++ Got i evs :: v -> (x, k) ∈ evs ->
     in_force x (flat_map f h1 ++ u) = Some k) ->
  events_current x (flat_map f l).
Proof.
  intros H t1 i t2 evs t3 k E N K.
  change (Begin i :: t2 ++ Got i evs :: t3) with ((Begin i :: t2) ++ Got i evs :: t3) in E. rewrite app_assoc in E.
  destruct (OnceEachProps.flat_map_split _ _ _ _ _ E) as (g1 & o & g2 & u & v & -> & Ho & Et & _).
  exists t2, []. rewrite app_nil_r. split; [done|]. rewrite Et. by eapply H.
Qed.
End general.
Print Assumptions C103_silent_after_delete.
Print Assumptions C103_key_after_modify.

Lemma got_alone {S} (t : token S) u i evs v : [t] = u ++ Got i evs :: v -> u = [] /\ t = Got i evs.
Proof. destruct u as [|a u]; [by intros [= -> _]|]. by destruct u. Qed.
Lemma in_keys {S A} (f : A -> N) (x : S) k (b : list (S * A)) : (x, k) ∈ prod_map id f <$> b -> exists e, (x, e) ∈ b /\ f e = k.
Proof. intros ([y e] & [= -> ->] & H)%elem_of_list_fmap. by exists e. Qed.

(* ------------------------------------------------------------------ *)
(** ** epoll *)
Lemma epoll_force x h e m : EpollSpec.registered x h = Some (e, m) -> in_force x (flat_map epoll_tokens h) = Some (ev_key e).
Proof.
  assert ((fun r : event N * poll_mode => ev_key r.1) <$> EpollSpec.registered x h = in_force x (flat_map epoll_tokens h)) as K.
  2:{ intros H. by rewrite <- K, H. }
  induction h as [|o h IH] using rev_ind; [done|]. rewrite EpollProofs.registered_snoc, flat_map_app, force_app, <- IH. cbn [flat_map].
  rewrite app_nil_r.
  destruct o as [g e' m' [[]| |]|g e' m' [[]| |]|g [[]| |]|g| | | | | | | |]; cbn; try done; by case_decide.
Qed.
Theorem C103_epoll c s x : EpollSpec.wf_config c -> EpollSpec.reachable c s -> EpollSpec.user_fd c x ->
  events_current x (flat_map epoll_tokens (EpollModel.log s)).
Proof.
  intros Hc Hr Hx. apply at_once. intros h1 o h2 u v i evs k E Ho K.
  assert (u = [] /\ exists b, o = EpollModel.Reported b /\ evs = prod_map id (@ev_key N) <$> b) as (-> & b & -> & ->).
  { destruct o as [g e' m' [[]| |]|g e' m' [[]| |]|g [[]| |]|g| | | | | | | |]; cbn [epoll_tokens] in Ho;
      try (by destruct u); apply got_alone in Ho as [-> Ho]; try discriminate Ho. injection Ho as _ <-. eauto. }
  apply in_keys in K as (e' & K & <-). rewrite app_nil_r.
  destruct (EpollProps.C42_reports_are_current _ _ _ _ _ _ _ Hc Hr E K Hx) as (e & m & R & -> & _). by eapply epoll_force.
Qed.
Print Assumptions C103_epoll.

(* ------------------------------------------------------------------ *)
(** ** Event ports *)
Lemma port_force x h e : PortSpec.registered x h = Some e -> in_force x (flat_map port_tokens h) = Some (ev_key e).
Proof.
  revert e. induction h as [|o h IH] using rev_ind; [done|]. intros e. unfold PortSpec.registered. rewrite fold_left_app. cbn [fold_left].
  fold (PortSpec.registered x h). rewrite flat_map_app, force_app. cbn [flat_map]. rewrite app_nil_r.
  destruct o as [g e' m' [[]| |]|g e' m' [[]| |]|g [[]| |]| | | |]; unfold PortSpec.after; cbn; try (by apply IH);
    repeat case_decide; try done; try (by apply IH); intros [= ->]; done.
Qed.
Theorem C103_ports s x : PortSpec.reachable s -> events_current x (flat_map port_tokens (PortModel.log s)).
Proof.
  intros Hr. apply at_once. intros h1 o h2 u v i evs k E Ho K.
  destruct o as [g e' m' [[]| |]|g e' m' [[]| |]|g [[]| |]| | | |o r b]; cbn [port_tokens] in Ho;
    try (by destruct u); try (apply got_alone in Ho as [-> Ho]; discriminate Ho).
  destruct u as [|a u]; [discriminate Ho|]. injection Ho as <- Ho. apply got_alone in Ho as [-> Ho]. injection Ho as _ <-.
  apply elem_of_list_omap in K as ([[fd|] ev] & K & Ek); [|discriminate Ek]. cbn in Ek. injection Ek as -> <-.
  destruct (PortProps.C50_reports_current _ _ _ _ _ _ _ _ Hr E K) as (e & R & -> & _).
  rewrite force_snoc. cbn [keyed]. by apply port_force.
Qed.
Print Assumptions C103_ports.

(* ------------------------------------------------------------------ *)
(** ** Completion ports: sockets *)
Lemma iocp_force n h i err m : IocpModel.Removed (IocpModel.PSock n) ∉ h ->
  IocpSpec.interest_of (IocpModel.PSock n) h = Some (i, err, m) -> in_force n (flat_map iocp_tokens h) = Some (ev_key i).
Proof.
  revert i err m. induction h as [|o h IH] using rev_ind; intros i err m; [done|]. intros Hn.
  unfold IocpSpec.interest_of. rewrite fold_left_app. cbn [fold_left]. fold (IocpSpec.interest_of (IocpModel.PSock n) h).
  rewrite flat_map_app, force_app. cbn [flat_map]. rewrite app_nil_r.
  assert (IocpModel.Removed (IocpModel.PSock n) ∉ h) as Hh by set_solver.
  assert (o <> IocpModel.Removed (IocpModel.PSock n)) as Ho by set_solver. clear Hn.
  specialize (fun i err m => IH i err m Hh).
  destruct o as [| |p e m0| |p| | | | | |p [e|]| | |]; cbn [IocpSpec.interest_step iocp_tokens]; try (by apply IH).
  - case_decide as D.
    + subst p. intros [= <- _ _]. cbn. by rewrite decide_True.
    + destruct p; cbn [fold_left keyed]; try (by apply IH). rewrite decide_False by congruence. by apply IH.
  - destruct p; cbn [fold_left keyed]; try (by apply IH). rewrite decide_False by congruence. by apply IH.
  - case_decide as D.
    + subst p. cbn [fold_left keyed]. destruct (IocpSpec.interest_of (IocpModel.PSock n) h) as [[[e1 r1] m1]|] eqn:I; [|done].
      destruct m1; intros [= <- <- <-]; cbn [ev_key]; by eapply IH.
    + destruct p; cbn [fold_left keyed]; by apply IH.
  - destruct p; by apply IH.
Qed.
(** A delete counts when it removes the packet; that a delete may return before another one that is running has done that
    is C56_refuted. *)
Theorem C103_iocp_sockets_partial c s n : IocpSpec.reachable c s -> events_current n (flat_map iocp_tokens (IocpModel.log s)).
Proof.
  intros Hr. apply at_once. intros h1 o h2 u v i evs k E Ho K.
  destruct o as [| |[] e m| |[]| | | | | |[] [e|]| | |]; cbn [iocp_tokens] in Ho;
    try (by destruct u); apply got_alone in Ho as [-> Ho]; try discriminate Ho. injection Ho as _ <-.
  apply elem_of_list_singleton in K. injection K as <- ->. rewrite app_nil_r.
  destruct (IocpProps.C55_only_asked _ _ _ _ _ _ Hr E) as (a & err & m & I & -> & _).
  eapply iocp_force; [|exact I]. intros (g1 & g2 & ->)%elem_of_list_split.
  eapply (IocpProps.C56_none_after_removal c s n g1 (g2 ++ IocpModel.Fed (IocpModel.PSock n) (Some e) :: h2) e Hr).
  - rewrite E. by rewrite <- app_assoc.
  - set_solver.
Qed.
Print Assumptions C103_iocp_sockets_partial.

(* ------------------------------------------------------------------ *)
(** ** kqueue *)
Section kqueue.
Import KqueueModel KqueueSpec KqueueProofs KqueueProofs2 KqueueProofs3 KqueueProofs5.

Lemma answered_by c s l s' o : step c s l = Some s' -> log s' = log s ++ [o] ->
  match o with
  | Answered _ cl a | Aborted _ cl a _ => exists i n faults k, threads s !! i = Some (PSubmit cl) /\
      (l = LThread i (Kernel_ok faults) \/ exists e, l = LThread i (Kernel_err n faults e)) /\
      kevent (keeps c) (kern s) (take n (default [] (call_changes c cl))) faults = (a, k)
  | _ => True
  end.
Proof.
  intros Hs E2.
  assert (Hno : log s' = log s -> False).
  { intros E. rewrite E in E2. apply (f_equal length) in E2. rewrite app_length in E2. simpl in E2. lia. }
  assert (Hone : forall x, log s' = log s ++ [x] -> x = o).
  { intros x E. rewrite E in E2. by apply app_inj_tail in E2 as [_ E2]. }
  destruct l as [j a|f st w|fd|sl max|fs|e|fts]; cbn [step] in Hs.
  - destruct (threads s !! j) as [p|] eqn:Ep; [|done].
    destruct p as [|cl0|cl0|cl0|cl0|cl0 r0| |], a as [cl'| | |fts|n fts e]; cbn [thread_step] in Hs; try done.
    all: try (destruct (kevent _ _ _ _) eqn:Ek). all: try (destruct (decide _)).
    all: try (match goal with H : context [noti ?x] |- _ => destruct (noti x) end).
    all: simplify_eq; try (by destruct (Hno eq_refl)); rewrite <- (Hone _ eq_refl); try done.
    + exists j, (length (default [] (call_changes c cl0))), fts. eexists. rewrite firstn_all. eauto.
    + exists j, n, fts. eexists. eauto.
  - simplify_eq. by rewrite <- (Hone _ eq_refl).
  - simplify_eq. by rewrite <- (Hone _ eq_refl).
  - destruct (wait s); simplify_eq. by rewrite <- (Hone _ eq_refl).
  - destruct (wait s); try done. destruct (_ && _); simplify_eq. by rewrite <- (Hone _ eq_refl).
  - destruct (wait s), e; simplify_eq; try (by destruct (Hno eq_refl)); by rewrite <- (Hone _ eq_refl).
  - unfold wait_step in Hs. destruct (wait s); try done; try (destruct (noti c)); try done.
    all: try (destruct (decide _)). all: try (destruct (kevent _ _ _ _); destruct (check_receipts _)).
    all: simplify_eq; try (by destruct (Hno eq_refl)); by rewrite <- (Hone _ eq_refl).
Qed.

(** The kernel says so only if it is true. *)
Lemma gone_unarmed c excl s h o h' f : reachable c excl s -> log s = h ++ o :: h' -> ~ own_filter c f ->
  gone_already f o = true -> armed (keeps c) f h = None.
Proof.
  intros Hr E Hf Hg. destruct (log_step _ _ _ _ _ _ Hr E) as (s1 & l & s2 & Hr1 & Hl & Hs & <- & E2).
  pose proof (answered_by _ _ _ _ _ Hs E2) as A.
  assert (forall i n faults k cl a, threads s1 !! i = Some (PSubmit cl) ->
      (l = LThread i (Kernel_ok faults) \/ exists e, l = LThread i (Kernel_err n faults e)) ->
      kevent (keeps c) (kern s1) (take n (default [] (call_changes c cl))) faults = (a, k) ->
      match asks cl f, a !! slot f with Some None, Some (Some (ENOENT | EPIPE)) => true | _, _ => false end = true ->
      armed (keeps c) f (log s1) = None) as K.
  { intros i n faults k cl a Hp Hlab Hk Hm.
    destruct (asks cl f) as [[?|]|] eqn:Ha; [done| |done].
    destruct (a !! slot f) as [[e|]|] eqn:Hx; [|done..].
    assert (honest c cl faults) as Hh.
    { destruct Hlab as [->|[? ->]]; cbn in Hl; by apply Hl. }
    pose proof (inv_reach _ _ _ Hr1) as Hi. destruct (iv_call _ _ Hi i _ cl Hp eq_refl) as [Hu Hko].
    destruct (can_submit_reach _ _ _ Hr1 _ _ Hp) as [chs Hc].
    pose proof (call_slot c cl chs f Hc Hko) as Hsl. rewrite Ha in Hsl. destruct Hsl as (ch & Hch & Ef & Hdel).
    rewrite Hc in Hk. cbn [default] in Hk.
    assert (take n chs !! slot f = Some ch) as Ht.
    { apply lookup_lt_Some in Hx. rewrite (kevent_length _ _ _ _ _ _ Hk) in Hx. rewrite take_length in Hx.
      rewrite lookup_take; [done|lia]. }
    assert (NoDup (map ch_filter (take n chs))) as Hnd.
    { pose proof (call_nodup _ _ _ Hc) as N. rewrite <- (take_drop n chs), map_app in N. by apply NoDup_app in N as [? _]. }
    destruct (kevent_lookup _ _ _ _ _ _ _ _ Hk Hnd Ht) as (k1 & x & k2 & Hreg & Hx' & En & _).
    rewrite Hx in Hx'. injection Hx' as <-.
    pose proof (register_delete _ _ _ _ _ _ Hreg Hdel) as [_ Hd].
    assert (default None (faults !! slot f) = None) as Hft.
    { destruct (faults !! slot f) as [[e'|]|] eqn:Hfl; [|done..]. exfalso. cbn [default] in Hreg.
      unfold register in Hreg. injection Hreg as -> _.
      destruct (Hh (slot f) ch e) as [N1 N2]; [by rewrite Hc|done..|]. by destruct e. }
    destruct (Hd Hft) as [_ Hnone]. rewrite En, Ef in Hnone.
    pose proof (iv_note _ _ Hi f Hf) as Hn. rewrite Hnone in Hn. unfold note_ok in Hn.
    destruct (armed (keeps c) f (log s1)) as [[q m]|]; [|done]. by destruct Hn as (? & ? & _). }
  destruct o; cbn [gone_already] in Hg; try discriminate Hg; destruct A as (i' & n & faults & k & Hp & Hlab & Hk); by eapply K.
Qed.

Lemma kqueue_force q f h k m :
  (forall h1 o h2, h = h1 ++ o :: h2 -> gone_already f o = true -> armed q f h1 = None) ->
  armed q f h = Some (k, m) -> in_force f (flat_map (filter_tokens f) h) = Some k.
Proof.
  revert k m. induction h as [|o h IH] using rev_ind; intros k m Hg; [done|]. rewrite armed_snoc.
  rewrite flat_map_app, force_app. cbn [flat_map]. rewrite app_nil_r.
  assert (forall k m, armed q f h = Some (k, m) -> in_force f (flat_map (filter_tokens f) h) = Some k) as K.
  { intros k0 m0. apply IH. intros h1 o1 h2 ->. eapply Hg. by rewrite <- app_assoc. }
  specialize (Hg h o [] eq_refl). clear IH.
  unfold arm, filter_tokens. destruct (granted f o) as [[[k1 m1]|]|] eqn:G.
  - cbn [fold_left keyed]. rewrite decide_True by done. destruct (armed q f h) as [[k0 m0]|]; [destruct q|]; by intros [= -> _].
  - done.
  - destruct (gone_already f o).
    + rewrite (Hg eq_refl). by destruct o.
    + destruct o; cbn [fold_left keyed]; try (by apply K).
      destruct (armed q f h) as [[k0 m0]|] eqn:A; [|done]. specialize (K _ _ eq_refl).
      case_decide; [destruct m0|]; try done; by intros [= <- _].
Qed.
End kqueue.
(** Calls count at what the kernel does for them, kind by kind.  Missing: that a call that fails has no effect (C77). *)
Theorem C103_kqueue_partial c excl s f : KqueueSpec.reachable c excl s -> ~ KqueueSpec.own_filter c f ->
  events_current f (flat_map (filter_tokens f) (KqueueModel.log s)).
Proof.
  intros Hr Hf. apply at_once. intros h1 o h2 u v i evs k E Ho K. unfold filter_tokens in Ho.
  destruct (KqueueSpec.granted f o) as [[[k1 m1]|]|] eqn:G; [apply got_alone in Ho as [_ Ho]; discriminate Ho..|].
  destruct (gone_already f o) eqn:Go; [apply got_alone in Ho as [_ Ho]; discriminate Ho|].
  destruct o; try (by destruct u); apply got_alone in Ho as [-> Ho]; try discriminate Ho. injection Ho as _ <-.
  apply in_keys in K as (e & K & <-). rewrite app_nil_r.
  destruct (KqueueProps.C70_reports_are_current _ _ _ _ _ _ _ _ Hr E K Hf) as (k & m & A & -> & _). eapply kqueue_force; [|exact A].
  intros g1 o g2 -> Hg. eapply gone_unarmed; [exact Hr| |exact Hf|exact Hg]. by rewrite E, <- app_assoc.
Qed.
Print Assumptions C103_kqueue_partial.

(* ------------------------------------------------------------------ *)
(** ** poll, for any number of threads *)
Section poll.
Import PollModel PollSpec PollProofs PollConcModel PollConcSpec PollConcProofs PollConcTable.

Lemma poll_call_force o t cl i h : wf o t -> poll_modes_known (OpEffect i cl (do_call o t cl).1) ->
  (forall x r, registered t x r -> in_force x h = Some (reg_key r)) ->
  forall x r, registered (do_call o t cl).2 x r -> in_force x (h ++ poll_tokens (OpEffect i cl (do_call o t cl).1)) = Some (reg_key r).
Proof.
  intros Hw Hm H x r. pose proof (call_other o t cl x Hw) as Q. destruct (do_call o t cl) as [a t'] eqn:E. cbn [fst snd] in *.
  destruct a as [[]|e|].
  - destruct (call_effect o t cl t' Hw E) as [He _]. intros Hx. destruct (decide (x = call_fd cl)) as [->|N].
    + apply He in Hx. destruct cl as [fd e m|fd e m|fd]; cbn in Hx |- *; [| |done]; rewrite force_snoc; cbn [keyed];
        rewrite decide_True by done; destruct Hx as [-> _]; done.
    + specialize (Q ltac:(congruence)). apply Q in Hx. rewrite force_app.
      destruct cl as [fd e m|fd e m|fd]; cbn in N |- *; rewrite decide_False by congruence; by apply H.
  - assert (t' = t) as ->.
    { destruct (call_error o t cl e t' Hw E) as [->|(fd & ev & m & -> & [->| ->] & _)]; [done| |]; cbn in Hm; by destruct Hm. }
    intros Hx. cbn. destruct cl; rewrite app_nil_r; by apply H.
  - by destruct (call_wf o t cl _ t' Hw E).
Qed.

Definition turns_current (c : config) (h : list obs) : Prop :=
  forall h1 i an fl ord h2 evs x e, h = h1 ++ TurnEffect i an fl ord :: h2 ->
    (poll_turn (table_after c h1) (PollRet an.1 an.2) fl ord).1 = TDone evs -> (x, e) ∈ evs ->
    in_force x (flat_map poll_tokens h1) = Some (ev_key e).
Lemma turns_snoc c h o : turns_current c h ->
  (forall i an fl ord evs x e, o = TurnEffect i an fl ord ->
    (poll_turn (table_after c h) (PollRet an.1 an.2) fl ord).1 = TDone evs -> (x, e) ∈ evs ->
    in_force x (flat_map poll_tokens h) = Some (ev_key e)) -> turns_current c (h ++ [o]).
Proof.
  intros H K h1 i an fl ord h2 evs x e E. destruct h2 as [|y h2 _] using rev_ind.
  - apply app_inj_tail in E as [-> ->]. by eapply K.
  - rewrite app_comm_cons, app_assoc in E. apply app_inj_tail in E as [-> ->]. by eapply H.
Qed.
Lemma flat_snoc {A B} (f : A -> list B) h o : flat_map f (h ++ [o]) = flat_map f h ++ f o.
Proof. rewrite flat_map_app. cbn [flat_map]. by rewrite app_nil_r. Qed.

Lemma poll_force c n s : wf_own (own c) -> reachable c n s -> Forall poll_modes_known (log s) ->
  turns_current c (log s) /\ forall x r, registered (table s) x r -> in_force x (flat_map poll_tokens (log s)) = Some (reg_key r).
Proof.
  intros Ho. induction 1 as [|s [i a] s' Hr IH Hl Hs].
  - intros _. split; [intros h1 i an fl ord h2 evs x e E; by destruct h1|]. intros x r (d & pf & Hd & _). done.
  - intros Hm. destruct (tab_inv_ok c n s Hr) as [H1 H2]. pose proof (reachable_wf _ _ H1) as Hw.
    pose proof (replay_ok c n s Hr) as Hrep. clear Hr. unfold legal in Hl. step_cases Hs as Hp;
      cbn [snd fst] in *.
    all: repeat match goal with H : Forall _ (_ ++ [_]) |- _ => apply Forall_app in H as [H ?%Forall_inv] end.
    all: destruct (IH Hm) as [I1 I2]; clear IH.
    all: try (split; [repeat (apply turns_snoc; [|by intros]); exact I1|]; rewrite ?flat_snoc; cbn [poll_tokens]; rewrite ?app_nil_r; try exact I2).
    all: try (intros x r Hx; rewrite force_snoc; cbn [keyed]; by apply I2).
    all: try match goal with H : has_fd _ (call_fd ?cl) = true, K : poll_modes_known (OpEffect ?j _ _) |- _ =>
      pose proof (poll_call_force (own c) (table s) cl j _ Hw K I2) as P; rewrite own_call in P by done; exact P end.
    all: try match goal with H : do_call _ _ ?cl = _, K : poll_modes_known (OpEffect ?j _ _) |- _ =>
      pose proof (poll_call_force (own c) (table s) cl j (flat_map poll_tokens (log s)) Hw) as P; rewrite H in P; exact (P K I2) end.
    all: match goal with H : poll_turn _ _ _ _ = _ |- _ => rename H into Ht end.
    all: pose proof (proj1 (H2 _ _ _ Hp eq_refl)) as Ha.
    all: split.
    all: try (rewrite flat_snoc; cbn [poll_tokens]; rewrite app_nil_r; intros x r Hx;
      apply (turn_regs _ _ _ _ _ _ _ _ Hw Ho Ha Hl Ht) in Hx as (r1 & Hx & [(_ & _ & ->)|(_ & ->)]); cbn [reg_key]; by apply I2).
    all: apply turns_snoc; [exact I1|]; intros j an fl ord evs' x e9 [= <- <- <- <-]; rewrite <- Hrep, Ht; cbn [fst]; intros Ed Hx; try discriminate Ed.
    injection Ed as <-. destruct (turn_events _ _ _ _ _ _ _ _ Hw Ho Ha Hl Ht) as [_ Te]. apply Te in Hx as (r & f0 & Hx & _ & _ & ->).
    by apply I2.
Qed.

(** Missing: modify with a mode that poll does not have (see the refutation). *)
Theorem C103_poll_partial c n s x : wf_own (own c) -> reachable c n s -> Forall poll_modes_known (log s) ->
  events_current x (flat_map poll_tokens (log s)).
Proof.
  intros Ho Hr Hm t1 i t2 evs t3 k E Nt K. destruct (poll_force c n s Ho Hr Hm) as [T _].
  change (Begin i :: t2 ++ Got i evs :: t3) with ((Begin i :: t2) ++ Got i evs :: t3) in E. rewrite app_assoc in E.
  destruct (OnceEachProps.flat_map_split _ _ _ _ _ E) as (g1 & o & g2 & u & v & El & Eo & Et & _).
  assert (u = [] /\ exists b, o = WaitOk i b /\ evs = prod_map id (@ev_key N) <$> b) as (-> & b & -> & ->).
  { destruct o as [| | | |j [|fd e m|fd] [[]| |]| | | | | |j b|]; cbn [poll_tokens] in Eo;
      try (by destruct u); apply got_alone in Eo as [-> Eo]; try discriminate Eo. injection Eo as -> <-. eauto. }
  rewrite app_nil_r in Et. apply in_keys in K as (e & K & <-).
  destruct (proj2 (proj2 (logs_inv c n s Hr)) _ _ _ _ El) as [->|(a & an & fl & ord & b' & -> & Hb & Ht)]; [by apply elem_of_nil in K|].
  rewrite <- app_assoc in El. specialize (T _ _ _ _ _ _ _ _ _ El Ht K).
  rewrite flat_map_app in Et. cbn [flat_map poll_tokens app] in Et.
  assert (Begin i ∉ flat_map poll_tokens b') as Nb.
  { rewrite OnceEachProps.elem_of_flat_map. intros (o & Hin & Ho'). specialize (Hb o Hin).
    destruct o as [| | | |j [|fd e' m|fd] [[]| |]| |j| | | |j b0|]; cbn in Ho', Hb; try (by apply elem_of_nil in Ho');
      apply elem_of_list_singleton in Ho'; try discriminate Ho'. injection Ho' as <-. by rewrite bool_decide_true in Hb. }
  apply app_eq_inv in Et as [(q & E1 & E2)|(q & E1 & E2)].
  - exfalso. apply Nb. rewrite E2. apply elem_of_app. right. left.
  - destruct q as [|y q].
    + cbn in E2. exfalso. apply Nb. rewrite <- E2. left.
    + injection E2 as <- E2. exists q, (flat_map poll_tokens b'). by rewrite <- E1.
Qed.
End poll.
Print Assumptions C103_poll_partial.

(** poll: a modify that fails because of its mode has replaced the key, so that an event has a key that no successful call
    gave (C28). *)
Section poll_runs.
Import PollSpec PollConcModel.
Definition poll_op (cl : call) : list label := PollConcProps.at0 [CallOp cl; Go; Go; Go; Go; Go; Go; SignalTo None; Go; Go].
Definition poll_wait_for (flags : N) : list label :=
  PollConcProps.at0 [CallWait; Go; Go; Go; Go; KRet ([0%N; flags], 1); Store [10%Z]; Go; Go; Go].
Definition poll_wrong_mode : list label :=
  poll_op (CAdd 10 (Ev 7 true false 0%N) Level) ++ poll_op (CModify 10 (Ev 9 true false 0%N) Edge) ++ poll_wait_for 1.
Definition poll_right : list label :=
  poll_op (CAdd 10 (Ev 7 true false 0%N) Level) ++ poll_wait_for 1 ++ poll_op (CModify 10 (Ev 9 true false 0%N) Oneshot) ++ poll_wait_for 1
  ++ poll_op (CDelete 10) ++ PollConcProps.at0 [CallWait; Go; Go; Go; Go; KRet ([0%N], 0); Store []; Go; Go; Go].
End poll_runs.
Theorem C103_poll_refuted : exists c n s x, PollSpec.wf_own (PollConcModel.own c) /\ PollConcSpec.reachable c n s /\
  ~ events_current x (flat_map poll_tokens (PollConcModel.log s)).
Proof.
  assert (exists s, PollConcProps.run_if (PollConcProps.cfg PollConcModel.Pipe) (PollConcModel.init (PollConcProps.cfg PollConcModel.Pipe) 1)
      poll_wrong_mode = Some s /\ flat_map poll_tokens (PollConcModel.log s) = [Reg 10%Z 7%N; Begin 0; Got 0 [(10%Z, 9%N)]])
    as (s & E & L).
  { eexists. split; [vm_compute; reflexivity|]. reflexivity. }
  exists (PollConcProps.cfg PollConcModel.Pipe), 1, s, 10%Z. split; [exact PollProps.o34_wf|].
  split; [by eapply PollConcProofs2.reachable_w_reachable, PollConcProps.run_if_w|].
  rewrite L. intros H. destruct (H [Reg 10%Z 7%N] 0 [] [(10%Z, 9%N)] [] 9%N eq_refl) as (a & b & E1 & E2);
    [apply not_elem_of_nil|left|]. symmetry in E1. apply app_eq_nil in E1 as [-> ->]. discriminate E2.
Qed.
Print Assumptions C103_poll_refuted.

(* ------------------------------------------------------------------ *)
(** ** Cases *)
Definition about {S} (f : S -> bool) (t : token S) : bool :=
  match t with Reg y _ | Unreg y => f y | Begin _ => false | Got _ evs => existsb (fun r => f r.1) evs end.
Example C103_epoll_case : exists s, EpollSpec.reachable EpollProps.demo s /\ EpollSpec.user_fd EpollProps.demo 11 /\
  List.filter (about (Z.eqb 11)) (flat_map epoll_tokens (EpollModel.log s)) = [Reg 11%Z 8%N; Got 0 [(10%Z, 7%N); (11%Z, 8%N)]; Reg 11%Z 18%N; Got 0 [(10%Z, 7%N); (11%Z, 18%N)]].
Proof.
  exists (EpollProps.demo_state (length EpollProps.labels)). split; [apply EpollProps.demo_reachable|].
  split; [split; intros H; vm_compute in H; discriminate H|]. vm_compute. reflexivity.
Qed.
Example C103_ports_case : exists s, PortSpec.reachable s /\
  List.filter (about (Z.eqb 5)) (flat_map port_tokens (PortModel.log s)) = [Reg 5%Z 7%N; Got 0 [(5%Z, 7%N); (6%Z, 8%N)]; Reg 5%Z 9%N; Got 0 [(5%Z, 9%N)]].
Proof. PortProps.runs PortProps.demo s H Hr Hl. exists s. split; [done|]. rewrite Hl. vm_compute. reflexivity. Qed.
Example C103_iocp_case : exists c s, IocpSpec.reachable c s /\
  List.filter (about (Nat.eqb 1)) (flat_map iocp_tokens (IocpModel.log s)) = [Reg 1 7%N; Got 0 [(1, 7%N)]; Reg 1 9%N; Got 0 [(1, 9%N)]; Unreg 1].
Proof.
  IocpRuns.sees IocpModel.log IocpRuns.cfg 2 (IocpRuns.demo1 ++ IocpRuns.demo2 ++ IocpRuns.demo3) s H R X.
  exists IocpRuns.cfg, s. split; [done|]. rewrite X. reflexivity.
Qed.
Example C103_kqueue_case : exists c s, KqueueSpec.reachable c true s /\ ~ KqueueSpec.own_filter c (FRead 11) /\
  flat_map (filter_tokens (FRead 11)) (KqueueModel.log s) =
    [Reg (FRead 11) 9%N; Begin 0; Got 0 [(FRead 11, 9%N)]; Reg (FRead 11) 12%N; Begin 0; Got 0 [(FRead 11, 12%N)]; Unreg (FRead 11)].
Proof.
  exists KqueueProps.freebsd.
  KqueueProps.runs KqueueProps.freebsd true 1
    (KqueueProps.do_add 0 11 (KqueueProps.ev 9 true true) Oneshot [] ++
     [KqueueModel.LHappen (FRead 11) (Some 0%N) true; KqueueModel.LWait true 8; KqueueModel.LReport [FRead 11];
      KqueueModel.LWaitGo []] ++ KqueueProps.do_modify 0 11 (KqueueProps.ev 12 true false) EdgeOneshot [] ++
     [KqueueModel.LWait true 8; KqueueModel.LReport [FRead 11]; KqueueModel.LWaitGo []] ++ KqueueProps.do_delete 0 11 []) s Hr Hl E.
  exists s. split; [done|]. split; [intros H; vm_compute in H; discriminate H|]. rewrite Hl. vm_compute. reflexivity.
Qed.
Example C103_poll_case : exists c n s, PollSpec.wf_own (PollConcModel.own c) /\ PollConcSpec.reachable c n s /\
  Forall poll_modes_known (PollConcModel.log s) /\
  flat_map poll_tokens (PollConcModel.log s) =
    [Reg 10%Z 7%N; Begin 0; Got 0 [(10%Z, 7%N)]; Reg 10%Z 9%N; Begin 0; Got 0 [(10%Z, 9%N)]; Unreg 10%Z; Begin 0; Got 0 []].
Proof.
  assert (exists s, PollConcProps.run_if (PollConcProps.cfg PollConcModel.Pipe) (PollConcModel.init (PollConcProps.cfg PollConcModel.Pipe) 1)
      poll_right = Some s /\ flat_map poll_tokens (PollConcModel.log s) =
        [Reg 10%Z 7%N; Begin 0; Got 0 [(10%Z, 7%N)]; Reg 10%Z 9%N; Begin 0; Got 0 [(10%Z, 9%N)]; Unreg 10%Z; Begin 0; Got 0 []] /\
      Forall poll_modes_known (PollConcModel.log s)) as (s & E & L & F).
  { eexists. split; [vm_compute; reflexivity|]. split; [reflexivity|]. cbn [PollConcModel.log].
    repeat (apply Forall_cons; split; [cbn; try done; by left|]). by apply Forall_nil. }
  exists (PollConcProps.cfg PollConcModel.Pipe), 1, s. split; [exact PollProps.o34_wf|].
  split; [by eapply PollConcProofs2.reachable_w_reachable, PollConcProps.run_if_w|]. split; [exact F|exact L].
Qed.
