(** C102: the one-shot mode delivers one event per source and arming on every platform. *)
From stdpp Require Import prelude list gmap.
From Verif Require Import Types EventModel EventSpec OnceEachSpec.
From Verif Require PollSpec PollModel PollConcModel PollConcSpec PollConcProps PollConcProofs2 EpollModel EpollSpec EpollProofs EpollProps
  KqueueModel KqueueSpec KqueueProofs3 KqueueProps PortModel PortSpec PortProofs PortProps IocpModel IocpSpec IocpRuns IocpProps.
Local Open Scope nat_scope.

(* ------------------------------------------------------------------ *)
(** ** From pairs of deliveries to the specification *)
Section general.
Context {S O : Type} `{EqDecision S}.

Lemma armed_app (x : S) h t : is_armed x (h ++ t) = fold_left (arming x) t (is_armed x h).
Proof. apply fold_left_app. Qed.
Lemma armed_snoc (x : S) h t : is_armed x (h ++ [t]) = arming x (is_armed x h) t.
Proof. by rewrite armed_app. Qed.
Lemma armed_keep (x : S) t b : Deliver x ∉ t -> fold_left (arming x) t b = true \/ fold_left (arming x) t b = b.
Proof.
  revert b. induction t as [|a t IH] using rev_ind; intros b H; [by right|]. rewrite fold_left_app. cbn [fold_left].
  assert (Deliver x ∉ t) as Ht by set_solver. specialize (IH b Ht).
  destruct a as [y|y]; unfold arming at 1 3; case_decide; subst; auto. set_solver.
Qed.
Lemma not_armed (x : S) t : is_armed x t = false ->
  Arm x ∉ t \/ exists t1 t2, t = t1 ++ Deliver x :: t2 /\ Arm x ∉ t2.
Proof.
  induction t as [|a t IH] using rev_ind; [left; apply not_elem_of_nil|]. rewrite armed_snoc. intros E.
  destruct a as [y|y]; cbn [arming] in E; case_decide as D; try done.
  - destruct (IH E) as [N|(t1 & t2 & -> & N)]; [left; set_solver|]. right. exists t1, (t2 ++ [Arm y]).
    rewrite <- app_assoc. split; [done|set_solver].
  - subst. right. exists t, []. split; [done|apply not_elem_of_nil].
  - destruct (IH E) as [N|(t1 & t2 & -> & N)]; [left; set_solver|]. right. exists t1, (t2 ++ [Deliver y]).
    rewrite <- app_assoc. split; [done|set_solver].
Qed.

Lemma flat_map_split {A} (f : O -> list A) l t1 a t2 : flat_map f l = t1 ++ a :: t2 ->
  exists g1 o g2 u v, l = g1 ++ o :: g2 /\ f o = u ++ a :: v /\ t1 = flat_map f g1 ++ u /\ t2 = v ++ flat_map f g2.
Proof.
  revert t1. induction l as [|o l IH]; intros t1 E; cbn [flat_map] in E; [by destruct t1|].
  apply app_eq_inv in E as [(k & E1 & E2)|(k & E1 & E2)].
  - destruct k as [|b k].
    + rewrite app_nil_r in E1. symmetry in E2. destruct (IH [] E2) as (g1 & o' & g2 & u & v & -> & Ho & Eu & ->).
      exists (o :: g1), o', g2, u, v. split; [done|]. split; [done|]. split; [|done]. cbn [flat_map]. rewrite <- app_assoc, <- Eu.
      by rewrite app_nil_r, E1.
    + injection E2 as <- E2. exists [], o, l, t1, k. done.
  - destruct (IH k E2) as (g1 & o' & g2 & u & v & -> & Ho & -> & ->).
    exists (o :: g1), o', g2, u, v. split; [done|]. split; [done|]. split; [|done]. cbn [flat_map]. by rewrite <- app_assoc, E1.
Qed.
Lemma elem_of_flat_map {A} (f : O -> list A) l a : a ∈ flat_map f l <-> exists o, o ∈ l /\ a ∈ f o.
Proof.
  rewrite elem_of_list_In, in_flat_map. split; intros (o & H & K); exists o; by rewrite ?elem_of_list_In in *.
Qed.

Lemma from_pairs (f : O -> list (token S)) (x : S) l :
  (forall h1 o h2, l = h1 ++ o :: h2 -> Deliver x ∈ f o -> Arm x ∈ flat_map f h1) ->
  (forall h1 o1 h2 o2 h3, l = h1 ++ o1 :: h2 ++ o2 :: h3 -> Deliver x ∈ f o1 -> Deliver x ∈ f o2 -> Arm x ∈ flat_map f h2) ->
  (forall o u v, o ∈ l -> f o = u ++ Deliver x :: v -> Deliver x ∉ u) ->
  one_event_per_arming x (flat_map f l).
Proof.
  intros H1 H2 H3 t1 t2 E. destruct (flat_map_split _ _ _ _ _ E) as (g1 & o & g2 & u & v & -> & Ho & -> & _).
  assert (Deliver x ∈ f o) as Hd by (rewrite Ho; set_solver).
  assert (is_armed x (flat_map f g1) = true) as A.
  { destruct (is_armed x (flat_map f g1)) eqn:Ea; [done|]. exfalso.
    destruct (not_armed _ _ Ea) as [N|(s1 & s2 & Es & N)]; [by apply N, (H1 g1 o g2)|].
    destruct (flat_map_split _ _ _ _ _ Es) as (k1 & p & k2 & u' & v' & -> & Hp & -> & ->).
    apply N, elem_of_app. right. apply (H2 k1 p k2 o g2); [by rewrite <- app_assoc|rewrite Hp; set_solver|done]. }
  rewrite armed_app, A. destruct (armed_keep x u true) as [-> | ->]; try done.
  eapply H3; [|exact Ho]. set_solver.
Qed.
End general.

(** A list of deliveries without repetition. *)
Lemma deliver_once {S} (x : S) (b : list S) u v : NoDup b -> Deliver <$> b = u ++ Deliver x :: v -> Deliver x ∉ u.
Proof.
  intros N E H. apply fmap_app_inv in E as (b1 & b2 & -> & E & ->). symmetry in E.
  apply fmap_cons_inv in E as (y & b3 & Ey & -> & ->). injection Ey as <-.
  apply elem_of_list_fmap in H as (z & [= <-] & Hz). apply NoDup_app in N as (_ & N & _). apply (N x Hz). left.
Qed.
Lemma deliver_in {S} (x : S) (b : list S) : Deliver x ∈ (@Deliver S <$> b) <-> x ∈ b.
Proof. rewrite elem_of_list_fmap. split; [by intros (y & [= <-] & H)|intros H; by exists x]. Qed.

(* ------------------------------------------------------------------ *)
(** ** epoll *)
Lemma epoll_arm_in x h : Arm x ∈ flat_map epoll_tokens h <-> exists o, o ∈ h /\ EpollSpec.registers x o.
Proof.
  rewrite elem_of_flat_map. split; intros (o & Ho & H); exists o; (split; [done|]);
    destruct o as [g e m [[]| |]|g e m [[]| |]| | | | | | | | | |]; cbn in *; try done; try set_solver.
Qed.
Lemma epoll_deliver_in x o : Deliver x ∈ epoll_tokens o -> exists b e, o = EpollModel.Reported b /\ (x, e) ∈ b.
Proof.
  destruct o as [g e m [[]| |]|g e m [[]| |]| | | | | | | | | |]; cbn [epoll_tokens]; intros H; try set_solver.
  apply deliver_in, elem_of_list_fmap in H as ([y e] & -> & H). by exists b, e.
Qed.
Lemma epoll_mode x h e m : Forall (epoll_oneshot_only x) h -> EpollSpec.registered x h = Some (e, m) -> mode_oneshot m.
Proof.
  induction h as [|o h IH] using rev_ind; [done|]. intros [Hh Ho%Forall_inv]%Forall_app. rewrite EpollProofs.registered_snoc.
  destruct o as [g e' m' [[]| |]|g e' m' [[]| |]|g [[]| |]|g| | | | | | | |]; cbn in *; try (by apply IH);
    case_decide; try (by apply IH); intros [= <- <-]; auto.
Qed.
Lemma epoll_registered_arm x h r : EpollSpec.registered x h = Some r -> exists o, o ∈ h /\ EpollSpec.registers x o.
Proof.
  induction h as [|o h IH] using rev_ind; [done|]. rewrite EpollProofs.registered_snoc. intros H.
  destruct (decide (EpollSpec.registers x o)) as [D|D]; [exists o; split; [set_solver|done]|].
  assert (EpollSpec.registered x h = Some r) as E.
  { destruct o as [g e' m' [[]| |]|g e' m' [[]| |]|g [[]| |]|g| | | | | | | |]; cbn in *; try done; by case_decide. }
  destruct (IH E) as (p & Hp & K). exists p. split; [set_solver|done].
Qed.

Theorem C102_epoll c s x : EpollSpec.wf_config c -> EpollSpec.reachable c s -> EpollSpec.user_fd c x ->
  Forall (epoll_oneshot_only x) (EpollModel.log s) ->
  one_event_per_arming x (flat_map epoll_tokens (EpollModel.log s)).
Proof.
  intros Hc Hr Hx Hm. apply from_pairs.
  - intros h1 o h2 E (b & e & -> & Hb)%epoll_deliver_in.
    destruct (EpollProps.C42_reports_are_current _ _ _ _ _ _ _ Hc Hr E Hb Hx) as (e' & m & R & _).
    apply epoll_arm_in. by eapply epoll_registered_arm.
  - intros h1 o1 h2 o2 h3 E (b1 & e1 & -> & H1)%epoll_deliver_in (b2 & e2 & -> & H2)%epoll_deliver_in.
    destruct (EpollProps.C42_reports_are_current _ _ _ _ _ _ _ Hc Hr E H1 Hx) as (e' & m & R & _).
    apply epoll_arm_in. eapply EpollProps.C39_one_delivery_per_arming; try done.
    eapply epoll_mode; [|exact R]. rewrite E in Hm. by apply Forall_app in Hm as [? _].
  - intros o u v (h1 & h2 & E)%elem_of_list_split Ho.
    destruct (epoll_deliver_in x o) as (b & e & -> & _); [rewrite Ho; set_solver|].
    eapply deliver_once; [|exact Ho]. by eapply EpollProps.C39_once_per_batch.
Qed.
Print Assumptions C102_epoll.

(* ------------------------------------------------------------------ *)
(** ** Event ports *)
Lemma port_arm_in x h : Arm x ∈ flat_map port_tokens h <-> exists o, o ∈ h /\ PortSpec.registers x o <> None.
Proof.
  rewrite elem_of_flat_map. split; intros (o & Ho & H); exists o; (split; [done|]);
    destruct o as [g e m [[]| |]|g e m [[]| |]| | | | |]; cbn in *; try done; try set_solver; case_decide; try done; try set_solver.
Qed.
Lemma port_deliver_in x o : Deliver x ∈ port_tokens o -> PortSpec.delivers x o.
Proof.
  destruct o as [g e m [[]| |]|g e m [[]| |]| | | | |]; cbn [port_tokens]; intros H; try set_solver.
  apply deliver_in, elem_of_list_omap in H as ([y|] & H & [= ->]). done.
Qed.
Lemma port_registered_arm x h r : PortSpec.registered x h = Some r -> exists o, o ∈ h /\ PortSpec.registers x o <> None.
Proof.
  induction h as [|o h IH] using rev_ind; [done|]. unfold PortSpec.registered. rewrite fold_left_app. cbn [fold_left]. intros H.
  destruct (PortSpec.registers x o) as [e|] eqn:D; [exists o; split; [set_solver|by rewrite D]|].
  assert (PortSpec.registered x h = Some r) as E.
  { unfold PortSpec.after in H. rewrite D in H. fold (PortSpec.registered x h) in H.
    destruct o as [g e' m' [[]| |]|g e' m' [[]| |]|g [[]| |]| | | |]; cbn in H; try done; by case_decide. }
  destruct (IH E) as (p & Hp & K). exists p. split; [set_solver|done].
Qed.

Theorem C102_ports s x : PortSpec.reachable s -> one_event_per_arming x (flat_map port_tokens (PortModel.log s)).
Proof.
  intros Hr. apply from_pairs.
  - intros h1 o h2 E H%port_deliver_in. apply port_arm_in.
    destruct o as [| | | | | |o r b]; try done. cbn in H. apply elem_of_list_fmap in H as ([y ev] & Ey & Hb). cbn in Ey. subst y.
    destruct (PortProps.C50_reports_current _ _ _ _ _ _ _ _ Hr E Hb) as (e & R & _). by eapply port_registered_arm.
  - intros h1 o1 h2 o2 h3 E H1%port_deliver_in H2%port_deliver_in. apply port_arm_in.
    by eapply PortProps.C50_one_delivery.
  - intros o u v (h1 & h2 & E)%elem_of_list_split Ho.
    assert (PortSpec.delivers x o) as D by (apply port_deliver_in; rewrite Ho; set_solver).
    destruct o as [| | | | | |o r b]; try done. cbn [port_tokens] in Ho. eapply deliver_once; [|exact Ho].
    exact (PortProofs2.once_per_batch _ _ _ _ _ _ Hr E).
Qed.
Print Assumptions C102_ports.

(* ------------------------------------------------------------------ *)
(** ** Completion ports: sockets *)
Lemma iocp_arm_in x h : Arm x ∈ flat_map iocp_tokens h <-> exists e m, IocpModel.Armed (IocpModel.PSock x) e m ∈ h.
Proof.
  rewrite elem_of_flat_map. split.
  - intros (o & Ho & H). destruct o as [| |[] e m| | | | | | | |[] [|]| | |]; cbn in H; try (by apply elem_of_nil in H).
    all: apply elem_of_list_singleton in H; try discriminate H. injection H as ->. eauto.
  - intros (e & m & H). eexists. split; [exact H|]. cbn. set_solver.
Qed.
Lemma iocp_deliver_in x o : Deliver x ∈ iocp_tokens o -> exists e, o = IocpModel.Fed (IocpModel.PSock x) (Some e).
Proof.
  destruct o as [| |[] e m| | | | | | | |[] [|]| | |]; cbn [iocp_tokens]; intros H; try (by apply elem_of_nil in H).
  all: apply elem_of_list_singleton in H; try discriminate H. injection H as ->. eauto.
Qed.
Lemma iocp_mode n h e err m : Forall (iocp_oneshot_only n) h ->
  IocpSpec.interest_of (IocpModel.PSock n) h = Some (e, err, m) -> m = Oneshot /\ exists e' m', IocpModel.Armed (IocpModel.PSock n) e' m' ∈ h.
Proof.
  revert e err m. induction h as [|o h IH] using rev_ind; intros e err m; [done|]. intros [Hh Ho%Forall_inv]%Forall_app.
  unfold IocpSpec.interest_of. rewrite fold_left_app. cbn [fold_left]. fold (IocpSpec.interest_of (IocpModel.PSock n) h).
  assert (forall e err m, IocpSpec.interest_of (IocpModel.PSock n) h = Some (e, err, m) ->
    m = Oneshot /\ exists e' m', IocpModel.Armed (IocpModel.PSock n) e' m' ∈ h ++ [o]) as K.
  { intros e0 r0 m0 H. destruct (IH _ _ _ Hh H) as (-> & e' & m' & A). split; [done|]. exists e', m'. set_solver. }
  clear IH. unfold IocpSpec.interest_step. destruct o as [| |p e0 m0| | | | | | | |p [e0|]| | |]; try by apply K.
  - case_decide as D; [|by apply K]. subst p. intros [= <- <- <-]. split; [by apply Ho|]. exists e0, m0. set_solver.
  - case_decide as D; [|by apply K]. destruct (IocpSpec.interest_of (IocpModel.PSock n) h) as [[[e1 r1] m1]|] eqn:I; [|done].
    destruct (K _ _ _ eq_refl) as (-> & A). intros [= <- <- <-]. done.
Qed.

Theorem C102_iocp_sockets c s n : IocpSpec.reachable c s -> Forall (iocp_oneshot_only n) (IocpModel.log s) ->
  one_event_per_arming n (flat_map iocp_tokens (IocpModel.log s)).
Proof.
  intros Hr Hm. apply from_pairs.
  - intros h1 o h2 E (e & ->)%iocp_deliver_in. apply iocp_arm_in.
    destruct (IocpProps.C55_only_asked _ _ _ _ _ _ Hr E) as (i & err & m & I & _).
    rewrite E in Hm. apply Forall_app in Hm as [Hm _]. by apply (iocp_mode _ _ _ _ _ Hm) in I as [_ I].
  - intros h1 o1 h2 o2 h3 E (e1 & ->)%iocp_deliver_in (e2 & ->)%iocp_deliver_in. apply iocp_arm_in.
    destruct (IocpProps.C55_only_asked _ _ _ _ _ _ Hr E) as (i & err & m & I & _).
    pose proof Hm as Hm'. rewrite E in Hm'. apply Forall_app in Hm' as [Hm' _].
    destruct (iocp_mode _ _ _ _ _ Hm' I) as [-> _]. by eapply IocpProps.C55_oneshot.
  - intros o u v _ Ho. destruct (iocp_deliver_in n o) as [e ->]; [rewrite Ho; set_solver|].
    cbn in Ho. destruct u as [|a u]; [apply not_elem_of_nil|]. by destruct u.
Qed.
Print Assumptions C102_iocp_sockets.

(* ------------------------------------------------------------------ *)
(** ** kqueue: for each kind of readiness *)
Lemma kq_arm_in x h : Arm x ∈ flat_map (filter_tokens x) h <-> exists o, o ∈ h /\ KqueueSpec.arms x o.
Proof.
  rewrite elem_of_flat_map. split; intros (o & Ho & H); exists o; (split; [done|]).
  - unfold filter_tokens, granted_mode in H. apply elem_of_app in H as [H|H].
    + unfold KqueueSpec.arms. destruct (KqueueSpec.granted x o) as [[[k m]|]|]; [by exists k, m|set_solver..].
    + exfalso. destruct o; set_solver.
  - destruct H as (k & m & H). unfold filter_tokens, granted_mode. rewrite H. set_solver.
Qed.
Lemma kq_deliver_in x o : Deliver x ∈ filter_tokens x o -> exists b e, o = KqueueModel.Reported b /\ (x, e) ∈ b.
Proof.
  unfold filter_tokens. intros [H|H]%elem_of_app.
  - destruct (granted_mode x o); set_solver.
  - destruct o; try set_solver. apply deliver_in, elem_of_list_fmap in H as ([y e] & -> & H). by exists b, e.
Qed.
Lemma kq_armed_arm k x h r : KqueueSpec.armed k x h = Some r -> exists o, o ∈ h /\ KqueueSpec.arms x o.
Proof.
  revert r. induction h as [|o h IH] using rev_ind; intros r; [done|]. unfold KqueueSpec.armed. rewrite fold_left_app. cbn [fold_left].
  fold (KqueueSpec.armed k x h). intros H.
  destruct (KqueueSpec.granted x o) as [[[a m]|]|] eqn:D.
  - exists o. split; [set_solver|]. by exists a, m.
  - unfold KqueueSpec.arm in H. by rewrite D in H.
  - destruct (KqueueSpec.armed k x h) as [q|] eqn:E.
    + destruct (IH q eq_refl) as (p & Hp & K). exists p. split; [set_solver|done].
    + unfold KqueueSpec.arm in H. rewrite D in H. by destruct o.
Qed.

(** Reading and writing each give one event, on every kernel. *)
Theorem C102_kqueue_each_kind_partial c excl s f : KqueueSpec.reachable c excl s -> ~ KqueueSpec.own_filter c f ->
  Forall (filter_oneshot_only f) (KqueueModel.log s) ->
  one_event_per_arming f (flat_map (filter_tokens f) (KqueueModel.log s)).
Proof.
  intros Hr Hf Hm. apply from_pairs.
  - intros h1 o h2 E (b & e & -> & Hb)%kq_deliver_in. apply kq_arm_in.
    destruct (KqueueProps.C70_reports_are_current _ _ _ _ _ _ _ _ Hr E Hb Hf) as (k & m & A & _). by eapply kq_armed_arm.
  - intros h1 o1 h2 o2 h3 E (b1 & e1 & -> & H1)%kq_deliver_in (b2 & e2 & -> & H2)%kq_deliver_in. apply kq_arm_in.
    eapply (KqueueProps.C47_always_oneshot c excl s h1 b1 h2 b2 h3); try done.
    rewrite E in Hm. apply Forall_app in Hm as [Hm _]. eapply Forall_impl; [exact Hm|].
    intros o H k m G. apply H. unfold granted_mode. by rewrite G.
  - intros o u v (h1 & h2 & E)%elem_of_list_split Ho.
    destruct (kq_deliver_in f o) as (b & e & -> & _); [rewrite Ho; set_solver|].
    eapply deliver_once; [|exact Ho]. by eapply KqueueProps.C70_once_per_batch.
Qed.
Print Assumptions C102_kqueue_each_kind_partial.

(** kqueue: descriptor 10, registered once for both directions, gives an event for reading to one wait and an event for
    writing to a later one; the container has room for one event. *)
Definition kq_twice : list KqueueModel.label :=
  KqueueProps.do_add 0 10 (KqueueProps.ev 7 true true) Oneshot [] ++
  [KqueueModel.LHappen (FRead 10) (Some 0%N) true; KqueueModel.LHappen (FWrite 10) (Some 0%N) true;
   KqueueModel.LWait false 1; KqueueModel.LReport [FRead 10]; KqueueModel.LWaitGo [];
   KqueueModel.LWait false 1; KqueueModel.LReport [FWrite 10]; KqueueModel.LWaitGo []].
Theorem C102_kqueue_refuted : exists c s x, KqueueSpec.reachable c true s /\
  Forall kqueue_oneshot_only (KqueueModel.log s) /\
  ~ one_event_per_arming x (flat_map kqueue_tokens (KqueueModel.log s)).
Proof.
  exists KqueueProps.freebsd. KqueueProps.runs KqueueProps.freebsd true 1 kq_twice s Hr Hl E.
  exists s, 10%N. split; [done|]. rewrite Hl. split.
  - repeat (apply Forall_cons; split; [cbn; try done; by left|]). by apply Forall_nil.
  - intros H. specialize (H [Arm 10%N; Deliver 10%N] [] eq_refl). discriminate H.
Qed.
Print Assumptions C102_kqueue_refuted.

(** poll: a descriptor that was hung up is reported again although its event has been delivered (C30). *)
Section poll.
Import PollSpec PollConcModel.
Definition poll_add_10 : list label :=
  PollConcProps.at0 [CallOp (CAdd 10 (Ev 7 true false 0%N) Oneshot); Go; Go; Go; Go; Go; Go; SignalTo None; Go; Go].
(** poll(2) returns these flags for the notifier and for descriptor 10: 17 is POLLIN and POLLHUP, 16 is POLLHUP, which is
    reported whether it is asked for or not. *)
Definition poll_wait_for (flags : N) : list label :=
  PollConcProps.at0 [CallWait; Go; Go; Go; Go; KRet ([0%N; flags], 1); Store [10%Z]; Go; Go; Go].
Definition poll_twice : list label := poll_add_10 ++ poll_wait_for 17 ++ poll_wait_for 16.
End poll.

Theorem C102_poll_refuted : exists c n s x, PollConcSpec.reachable c n s /\
  Forall poll_oneshot_only (PollConcModel.log s) /\ ~ one_event_per_arming x (flat_map poll_tokens (PollConcModel.log s)).
Proof.
  assert (exists s, PollConcProps.run_if (PollConcProps.cfg PollConcModel.Pipe) (PollConcModel.init (PollConcProps.cfg PollConcModel.Pipe) 1)
      poll_twice = Some s /\ flat_map poll_tokens (PollConcModel.log s) = [Arm 10%Z; Deliver 10%Z; Deliver 10%Z] /\
      Forall poll_oneshot_only (PollConcModel.log s)) as (s & E & L & F).
  { eexists. split; [vm_compute; reflexivity|]. split; [reflexivity|]. cbn [PollConcModel.log].
    repeat (apply Forall_cons; split; [done|]). by apply Forall_nil. }
  exists (PollConcProps.cfg PollConcModel.Pipe), 1, s, 10%Z.
  split; [by eapply PollConcProofs2.reachable_w_reachable, PollConcProps.run_if_w|]. split; [done|].
  rewrite L. intros H. specialize (H [Arm 10%Z; Deliver 10%Z] [] eq_refl). discriminate H.
Qed.
Print Assumptions C102_poll_refuted.

(* ------------------------------------------------------------------ *)
(** ** Cases *)
(** epoll: source 11 is delivered, armed again and delivered again. *)
Example C102_epoll_case : exists s, EpollSpec.reachable EpollProps.demo s /\ EpollSpec.user_fd EpollProps.demo 11 /\
  Forall (epoll_oneshot_only 11) (EpollModel.log s) /\
  List.filter (fun t => match t with Arm y | Deliver y => Z.eqb y 11 end) (flat_map epoll_tokens (EpollModel.log s))
  = [Arm 11%Z; Deliver 11%Z; Arm 11%Z; Deliver 11%Z].
Proof.
  exists (EpollProps.demo_state (length EpollProps.labels)). split; [apply EpollProps.demo_reachable|].
  split; [split; intros H; vm_compute in H; discriminate H|]. split; [|vm_compute; reflexivity].
  let l := eval vm_compute in (EpollModel.log (EpollProps.demo_state (length EpollProps.labels))) in
  replace (EpollModel.log (EpollProps.demo_state (length EpollProps.labels))) with l by (vm_compute; reflexivity).
  repeat (apply Forall_cons; split; [cbn; try done; first [by intros [=]|intros _; by left]|]). by apply Forall_nil.
Qed.
Example C102_ports_case : exists s, PortSpec.reachable s /\
  List.filter (fun t => match t with Arm y | Deliver y => Z.eqb y 5 end) (flat_map port_tokens (PortModel.log s))
  = [Arm 5%Z; Deliver 5%Z; Arm 5%Z; Deliver 5%Z].
Proof. PortProps.runs PortProps.demo s H Hr Hl. exists s. split; [done|]. rewrite Hl. vm_compute. reflexivity. Qed.
Example C102_iocp_case : exists c s, IocpSpec.reachable c s /\ Forall (iocp_oneshot_only 1) (IocpModel.log s) /\
  List.filter (fun t => match t with Arm y | Deliver y => Nat.eqb y 1 end) (flat_map iocp_tokens (IocpModel.log s))
  = [Arm 1; Deliver 1; Arm 1; Deliver 1].
Proof.
  IocpRuns.sees IocpModel.log IocpRuns.cfg 2 (IocpRuns.demo1 ++ IocpRuns.demo2 ++ IocpRuns.demo3) s H R X.
  exists IocpRuns.cfg, s. split; [done|]. rewrite X. split; [|reflexivity].
  repeat (apply Forall_cons; split; [by cbn|]). by apply Forall_nil.
Qed.
Example C102_kqueue_case : exists c s, KqueueSpec.reachable c true s /\ ~ KqueueSpec.own_filter c (FRead 11) /\
  Forall (filter_oneshot_only (FRead 11)) (KqueueModel.log s) /\
  List.filter (fun t => match t with Arm y | Deliver y => bool_decide (y = FRead 11) end) (flat_map (filter_tokens (FRead 11)) (KqueueModel.log s))
  = [Arm (FRead 11); Deliver (FRead 11); Arm (FRead 11); Deliver (FRead 11)].
Proof.
  exists KqueueProps.freebsd.
  KqueueProps.runs KqueueProps.freebsd true 1
    (KqueueProps.do_add 0 11 (KqueueProps.ev 9 true true) Oneshot [] ++
     [KqueueModel.LHappen (FRead 11) (Some 0%N) true; KqueueModel.LWait true 8; KqueueModel.LReport [FRead 11];
      KqueueModel.LWaitGo []] ++ KqueueProps.do_modify 0 11 (KqueueProps.ev 12 true false) EdgeOneshot [] ++
     [KqueueModel.LWait true 8; KqueueModel.LReport [FRead 11]]) s Hr Hl E.
  exists s. split; [done|]. split; [intros H; vm_compute in H; discriminate H|]. rewrite Hl. split; [|vm_compute; reflexivity].
  repeat (apply Forall_cons; split; [intros m H; vm_compute in H; try discriminate H; injection H as <-; first [by left|by right]|]).
  by apply Forall_nil.
Qed.
