(** What supports_level() and supports_edge() say is what add and modify accept: C91. *)
From stdpp Require Import prelude list gmap.
From Verif Require Import Bits Types EventModel ModesModel.
From Verif Require PollModel PollSpec PollProofs PollProps EpollModel EpollSpec EpollProps
  KqueueModel KqueueSpec KqueueProps PortModel PortSpec PortProps
  IocpModel IocpSpec IocpModes IocpRuns IocpProps.
Local Open Scope nat_scope.

(** The poller says that it supports the mode; one-shot mode is always supported. *)
Definition announced (b : backend) (m : poll_mode) : Prop :=
  match m with
  | Oneshot => True
  | Level => supports_level b = true
  | Edge | EdgeOneshot => supports_edge b = true
  end.
Definition fails (r : res unit) : Prop := exists e, r = Err e.
(** The errors that say that the mode was wrong. *)
Definition blames_mode (r : res unit) : Prop := r = Err (ESimple KUnsupported) \/ r = Err (ESimple KInvalidInput).

(** ** C91 *)
(** poll: a call in an announced mode has the result that it would have in one-shot mode; any other fails. *)
Theorem C91_poll o s fd e m :
  PollSpec.reachable o s ->
  (announced BPoll m ->
     (PollSpec.do_call o s (PollSpec.CAdd fd e m)).1 = (PollSpec.do_call o s (PollSpec.CAdd fd e Oneshot)).1 /\
     (PollSpec.do_call o s (PollSpec.CModify fd e m)).1 = (PollSpec.do_call o s (PollSpec.CModify fd e Oneshot)).1) /\
  (~ announced BPoll m ->
     fails (PollSpec.do_call o s (PollSpec.CAdd fd e m)).1 /\ fails (PollSpec.do_call o s (PollSpec.CModify fd e m)).1).
Proof.
  intros R. pose proof (PollProps.C26_calls_never_panic o s (PollSpec.CModify fd e m) R) as NP. revert NP.
  cbn [PollSpec.do_call]. unfold PollModel.poll_add, PollModel.poll_modify, PollModel.add_fds, PollModel.modify_fds_entry, PollModel.cvt_mode_as_remove, fails.
  destruct (PollModel.has_fd o fd); [intros _; cbn; split; [done|by split; eexists]|]. intros NP. split.
  - intros A. destruct m; cbn in A; try discriminate A; (split; [by repeat case_match|by repeat case_match]).
  - intros A. destruct m; cbn in A; try (exfalso; by apply A); (split; [repeat case_match; cbn in *; eauto; congruence|repeat case_match; cbn in *; eauto; congruence]).
Qed.

(** epoll: every mode is announced, and the result does not depend on it. *)
Theorem C91_epoll c s fd e m f :
  announced BEpoll m /\
  (forall s1 s2, EpollModel.step c s (EpollModel.LAdd fd e m f) = Some s1 -> EpollModel.step c s (EpollModel.LAdd fd e Oneshot f) = Some s2 ->
     exists r, EpollModel.log s1 = EpollModel.log s ++ [EpollModel.AddRet fd e m r] /\ EpollModel.log s2 = EpollModel.log s ++ [EpollModel.AddRet fd e Oneshot r]) /\
  (forall s1 s2, EpollModel.step c s (EpollModel.LModify fd e m f) = Some s1 -> EpollModel.step c s (EpollModel.LModify fd e Oneshot f) = Some s2 ->
     exists r, EpollModel.log s1 = EpollModel.log s ++ [EpollModel.ModifyRet fd e m r] /\ EpollModel.log s2 = EpollModel.log s ++ [EpollModel.ModifyRet fd e Oneshot r]).
Proof.
  split; [by destruct m|]. split; intros s1 s2; cbn [EpollModel.step]; unfold EpollModel.sys_add, EpollModel.sys_modify, EpollModel.ctl_add, EpollModel.ctl_mod; intros H1 H2;
    repeat case_match; simplify_eq/=; eauto.
Qed.

(** kqueue: every mode is announced, and no call fails on account of the mode. *)
Theorem C91_kqueue c excl s h i cl r h' m :
  KqueueSpec.reachable c excl s -> KqueueModel.log s = h ++ KqueueModel.Returned i cl r :: h' ->
  announced BKqueue m /\ ~ blames_mode r.
Proof.
  intros R E. split; [by destruct m|]. pose proof (KqueueProps.C45_results _ _ _ _ _ _ _ _ R E) as H. unfold KqueueSpec.result_of in H. unfold blames_mode.
  destruct (KqueueSpec.last_reply i h) as [[a|e]|].
  - destruct H as [[_ [->|[_ ->]]]|(pre & e & post & _ & _ & _ & ->)]; intros [X|X]; discriminate X.
  - intros [|]; congruence.
  - destruct H as [->|[->| ->]]; intros [X|X]; discriminate X.
Qed.

(** Event ports: a call in an announced mode has the result that it would have in one-shot mode; any other fails and leaves
    the port as it was. *)
Theorem C91_port s fd e m f :
  (announced BPort m ->
     (forall s1 s2, PortModel.step s (PortModel.LAdd fd e m f) = Some s1 -> PortModel.step s (PortModel.LAdd fd e Oneshot f) = Some s2 ->
        exists r, PortModel.log s1 = PortModel.log s ++ [PortModel.AddRet fd e m r] /\ PortModel.log s2 = PortModel.log s ++ [PortModel.AddRet fd e Oneshot r]) /\
     (forall s1 s2, PortModel.step s (PortModel.LModify fd e m f) = Some s1 -> PortModel.step s (PortModel.LModify fd e Oneshot f) = Some s2 ->
        exists r, PortModel.log s1 = PortModel.log s ++ [PortModel.ModifyRet fd e m r] /\ PortModel.log s2 = PortModel.log s ++ [PortModel.ModifyRet fd e Oneshot r])) /\
  (~ announced BPort m -> forall s',
     (PortModel.step s (PortModel.LAdd fd e m f) = Some s' ->
        exists r, PortModel.log s' = PortModel.log s ++ [PortModel.AddRet fd e m r] /\ fails r /\ PortModel.kern s' = PortModel.kern s) /\
     (PortModel.step s (PortModel.LModify fd e m f) = Some s' ->
        exists r, PortModel.log s' = PortModel.log s ++ [PortModel.ModifyRet fd e m r] /\ fails r /\ PortModel.kern s' = PortModel.kern s)).
Proof.
  split.
  - intros A. destruct m; cbn in A; try discriminate A.
    split; intros s1 s2 H1 H2; rewrite H1 in H2; injection H2 as <-; revert H1; cbn; intros H1; repeat case_match; simplify_eq/=; eauto.
  - intros A s'. unfold fails. destruct m; cbn in A; try (exfalso; by apply A); (split; intros H; cbn in H; injection H as <-; cbn; eauto 6).
Qed.

(** Completion ports: a call in a mode that is not announced fails, and one in an announced mode does not fail on its account. *)
Theorem C91_iocp c s i cl x e m r :
  IocpSpec.reachable c s -> IocpModel.Returned i cl r ∈ IocpModel.log s -> IocpSpec.gives cl = Some (x, e, m) ->
  (announced BIocp m -> ~ blames_mode r) /\ (~ announced BIocp m -> fails r).
Proof.
  intros R H G. pose proof (IocpModes.mi_log _ (IocpModes.mode_inv_reach _ _ R) _ _ _ H) as X. unfold IocpModes.mode_fits in X. rewrite G in X.
  unfold blames_mode, fails. unfold IocpModes.mode_blamed in X. destruct m; cbn in X |- *; split; intros A; try done; try tauto; eauto.
Qed.

(** Cases: an edge-triggered registration accepted by kqueue, refused by poll and by a completion port. *)
Example C91_poll_case :
  PollSpec.reachable PollProps.o34 PollProps.s_ab /\ announced BPoll Level /\ ~ announced BPoll Edge /\
  (PollSpec.do_call PollProps.o34 PollProps.s_ab (PollSpec.CAdd 20 (PollProps.rd 7) Level)).1 = Ok tt /\
  (PollSpec.do_call PollProps.o34 PollProps.s_ab (PollSpec.CAdd 20 (PollProps.rd 7) Edge)).1 = Err (ESimple KUnsupported).
Proof. split; [apply PollProps.s_ab_reachable|]. split; [done|]. split; [done|]. by vm_compute. Qed.
Example C91_iocp_case : exists c s,
  IocpSpec.reachable c s /\ IocpModel.Returned 0 (IocpModel.CModify 5 (IocpRuns.rd 7) EdgeOneshot) (Err (ESimple KInvalidInput)) ∈ IocpModel.log s /\
  IocpModel.Returned 0 (IocpModel.CModify 5 (IocpRuns.rd 7) Level) (Err (ESimple KNotFound)) ∈ IocpModel.log s /\
  ~ announced BIocp EdgeOneshot /\ announced BIocp Level.
Proof.
  IocpRuns.sees IocpModel.log IocpRuns.cfg 2
    [IocpRuns.by_ 0 (IocpModel.CModify 5 (IocpRuns.rd 7) EdgeOneshot); IocpRuns.t 0; IocpRuns.by_ 0 (IocpModel.CModify 5 (IocpRuns.rd 7) Level); IocpRuns.t 0; IocpRuns.t 0] s H R X.
  clear H. exists IocpRuns.cfg, s. split; [exact R|]. rewrite X. split; [IocpRuns.in_list|]. split; [IocpRuns.in_list|]. by split.
Qed.
Example C91_kqueue_case : exists s h,
  KqueueSpec.reachable KqueueProps.freebsd true s /\
  KqueueModel.log s = h ++ [KqueueModel.Returned 0 (KqueueModel.CAdd 10 (KqueueProps.ev 7 true false) Edge) (Ok tt)].
Proof.
  KqueueProps.runs KqueueProps.freebsd true 1 (KqueueProps.do_add 0 10 (KqueueProps.ev 7 true false) Edge []) s Hr Hl E.
  exists s. rewrite Hl. eexists [_; _]. by split.
Qed.
Example C91_port_case : ~ announced BPort Level /\ announced BPort Oneshot /\
  PortModel.log <$> PortModel.run PortModel.init [PortModel.LAdd 5 (PortProps.rd 7) Level None; PortModel.LAdd 5 (PortProps.rd 7) Oneshot None]
  = Some [PortModel.AddRet 5 (PortProps.rd 7) Level (Err (ESimple KUnsupported)); PortModel.AddRet 5 (PortProps.rd 7) Oneshot (Ok tt)].
Proof. split; [done|]. split; [done|]. by vm_compute. Qed.

Print Assumptions C91_poll.
Print Assumptions C91_epoll.
Print Assumptions C91_kqueue.
Print Assumptions C91_port.
Print Assumptions C91_iocp.
