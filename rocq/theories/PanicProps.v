(** C97: no call panics. *)
From stdpp Require Import prelude list gmap.
From Verif Require Import Bits Types EventModel TimeModel LibModel PanicProofs.
From Verif Require PollModel PollSpec PollConcModel PollConcSpec PollConcProofs2 PollConcProps EpollModel EpollSpec EpollProofs EpollProps
  KqueueModel KqueueSpec KqueueProps PortModel PortSpec PortProps IocpModel IocpSpec IocpRuns IocpProps.
Local Open Scope nat_scope.

(** [Poller::wait] itself adds no panic to those of the backend's wait. *)
Theorem C97_lib_wait {X} imax locked start timeout (ats : list (attempt X)) c notified :
  Forall (fun a => forall c t, (at_run a c t).1 <> Panic) ats ->
  wo_res (lib_wait imax locked start timeout ats c notified) <> Some Panic.
Proof.
  unfold lib_wait. destruct locked; [done|]. generalize (deadline_of imax start timeout) as d. intros d H. revert c.
  induction H as [|a ats Ha _ IH]; intros c; [done|]. cbn [wait_loop]. specialize (Ha c (time_left d (at_now a))).
  destruct (at_run a c _) as [[[]|e|] c']; [done| |by destruct Ha]. destruct (is_interrupted e); [apply IH|done].
Qed.
Print Assumptions C97_lib_wait.

(** poll: add, modify and delete return something else, and no thread has panicked in wait(). *)
Theorem C97_poll c n s i : PollConcSpec.reachable c n s ->
  PollConcModel.OpRet i Panic ∉ PollConcModel.log s /\ PollConcModel.threads s !! i <> Some PollConcModel.WPanic.
Proof.
  intros Hr. destruct (poll_calm _ _ _ Hr) as [H1 H2]. split; [apply H2|]. intros E. by apply H1 in E.
Qed.
Print Assumptions C97_poll.

(** epoll *)
Definition epoll_panics (o : EpollModel.obs) : Prop :=
  match o with
  | EpollModel.AddRet _ _ _ r | EpollModel.ModifyRet _ _ _ r | EpollModel.DeleteRet _ r => r = Panic
  | _ => False
  end.
Theorem C97_epoll c s o : EpollSpec.reachable c s -> o ∈ EpollModel.log s -> ~ epoll_panics o.
Proof.
  induction 1 as [|s l s' Hr IH Hl Hs]; [by intros E%not_elem_of_nil|].
  assert (X : EpollModel.log s' = EpollModel.log s \/ exists x, EpollModel.log s' = EpollModel.log s ++ [x] /\ ~ epoll_panics x).
  { destruct l; cbn in Hs; unfold EpollModel.sys_add, EpollModel.sys_modify, EpollModel.sys_delete, EpollModel.ctl_add, EpollModel.ctl_mod, EpollModel.ctl_del in Hs;
      repeat match type of Hs with context [match ?x with _ => _ end] =>
        lazymatch x with context [match _ with _ => _ end] => fail | _ => destruct x; try discriminate Hs end end;
      injection Hs as <-; first [by left | right; eexists; split; [reflexivity|cbn; by intros ?]]. }
  destruct X as [->|(x & -> & N)]; [done|]. intros [E| ->%elem_of_list_singleton]%elem_of_app; auto.
Qed.
Print Assumptions C97_epoll.

(** Event ports *)
Definition port_panics (o : PortModel.obs) : Prop :=
  match o with
  | PortModel.AddRet _ _ _ r | PortModel.ModifyRet _ _ _ r | PortModel.DeleteRet _ r | PortModel.NotifyRet r
  | PortModel.WaitRet _ r _ => r = Panic
  | _ => False
  end.
Theorem C97_ports s o : PortSpec.reachable s -> o ∈ PortModel.log s -> ~ port_panics o.
Proof.
  induction 1 as [|s l s' Hr IH Hl Hs]; [by intros E%not_elem_of_nil|].
  assert (X : PortModel.log s' = PortModel.log s \/ exists x, PortModel.log s' = PortModel.log s ++ [x] /\ ~ port_panics x).
  { destruct l; cbn in Hs; unfold PortModel.add, PortModel.modify, PortModel.delete_fd, PortModel.associate, PortModel.dissociate, PortModel.notify, PortModel.wait in Hs;
      repeat match type of Hs with context [match ?x with _ => _ end] =>
        lazymatch x with context [match _ with _ => _ end] => fail | _ => destruct x; try discriminate Hs end end;
      injection Hs as <-; first [by left | right; eexists; split; [reflexivity|cbn; by intros ?]]. }
  destruct X as [->|(x & -> & N)]; [done|]. intros [E| ->%elem_of_list_singleton]%elem_of_app; auto.
Qed.
Print Assumptions C97_ports.

(** kqueue: a call panics only if it names a signal that does not exist. *)
Theorem C97_kqueue_partial c excl s i cl : KqueueSpec.reachable c excl s ->
  KqueueModel.Returned i cl Panic ∈ KqueueModel.log s ->
  exists n, KqueueModel.signal_ok c n = false /\ KqueueModel.call_source cl = KqueueModel.SSignal n.
Proof.
  intros Hr H. destruct (kqueue_calm _ _ _ Hr) as [_ B]. destruct (B _ _ H) as (n & Hn & [(k & m & [->| ->])| ->]); by exists n.
Qed.
Print Assumptions C97_kqueue_partial.
(** Then it does. *)
Theorem C97_kqueue_refuted :
  exists c s i cl, KqueueSpec.reachable c true s /\ KqueueModel.Returned i cl Panic ∈ KqueueModel.log s.
Proof.
  destruct KqueueProps.C44_panicking_add_refuted as (c & s & h & i & cl & h' & Hr & E & _ & _ & H).
  exists c, s, i, cl. split; [done|]. rewrite E. apply elem_of_app. by left.
Qed.
Print Assumptions C97_kqueue_refuted.

(** IOCP: no call returns by panicking. *)
Theorem C97_iocp_calls c s i cl evs : IocpSpec.reachable c s ->
  IocpModel.Returned i cl Panic ∉ IocpModel.log s /\ IocpModel.WaitRet Panic evs ∉ IocpModel.log s.
Proof.
  intros Hr. destruct (iocp_calm _ _ Hr) as (_ & H & _). rewrite Forall_forall in H. by split; intros E%H.
Qed.
Print Assumptions C97_iocp_calls.
(** The assertions of src/iocp/mod.rs:440 and 445 hold: when wait() sets the flag it was not set, and when it clears
    it -- after the completions were taken from the port or when it leaves with an error -- it was set. *)
Theorem C97_iocp_assertions c s : IocpSpec.reachable c s ->
  (forall l, IocpModel.waiter s = IocpModel.WSwap l -> IocpModel.polling s = false) /\
  (forall l z b, IocpModel.waiter s = IocpModel.WGot l z b -> IocpModel.polling s = true) /\
  (forall l e, IocpModel.waiter s = IocpModel.WFail l e true -> IocpModel.polling s = true).
Proof.
  intros Hr. destruct (iocp_calm _ _ Hr) as (_ & _ & F). unfold flag_ok in F. split_and!; intros *; intros E; by rewrite E in F.
Qed.
Print Assumptions C97_iocp_assertions.
(** wait() panics only if AFD reports that a socket was closed, which is not what it was asked. *)
Theorem C97_iocp_wait_partial c s own b : IocpSpec.reachable c s -> IocpModel.waiter s = IocpModel.WDead IocpModel.Panicked own b ->
  exists n r e, IocpModel.Done n r e ∈ IocpModel.log s /\ intersects e AFD_LOCAL_CLOSE = true.
Proof. apply IocpProps.C61_only_closed_partial. Qed.
Print Assumptions C97_iocp_wait_partial.
Theorem C97_iocp_wait_refuted :
  exists c s own b, IocpSpec.valid c /\ IocpSpec.reachable c s /\ IocpModel.waiter s = IocpModel.WDead IocpModel.Panicked own b.
Proof. destruct IocpProps.C61_panic_refuted as (c & s & own & b & V & R & W & _). by exists c, s, own, b. Qed.
Print Assumptions C97_iocp_wait_refuted.

(** Cases: an attempt of each kind. *)
Example C97_case : wo_res (lib_wait 1000%Z false 0%Z None
    [Attempt 0%Z (fun c _ => (Err (EOs EINTR), c)); Attempt 0%Z (fun c _ => (Ok tt, c))] [Ev 3%N true false tt] false) = Some (Ok 0%N)
  /\ exists c s i cl, KqueueSpec.reachable c true s /\ KqueueModel.Returned i cl Panic ∈ KqueueModel.log s.
Proof. split; [reflexivity|]. apply C97_kqueue_refuted. Qed.
(** Histories with calls that fail, on the other backends. *)
Example C97_epoll_case : exists s fd e m r, EpollSpec.reachable EpollProps.demo s /\ EpollModel.ModifyRet fd e m (Ok tt) ∈ EpollModel.log s /\
  EpollModel.step EpollProps.demo s (EpollModel.LAdd fd e m None) = Some r /\ EpollModel.log r = EpollModel.log s ++ [EpollModel.AddRet fd e m (Err (EOs EEXIST))].
Proof.
  exists (EpollProps.demo_state 21), 11%Z, (EpollProps.ev 18), Oneshot. eexists. split; [apply EpollProps.demo_reachable|].
  split; [apply elem_of_list_In; vm_compute; tauto|]. split; vm_compute; reflexivity.
Qed.
Example C97_ports_case : exists s fd e m, PortSpec.reachable s /\ PortModel.ModifyRet fd e m (Err (EOs EBADF)) ∈ PortModel.log s.
Proof.
  PortProps.runs PortProps.demo s H Hr Hl. exists s, 5%Z, (PortProps.rd 9), Oneshot. split; [done|]. rewrite Hl. apply elem_of_list_In. vm_compute. tauto.
Qed.
Example C97_iocp_case : exists c s i cl e, IocpSpec.reachable c s /\ IocpModel.Returned i cl (Err e) ∈ IocpModel.log s.
Proof.
  destruct IocpProps.C82_case as (c & s & h1 & i & cl & e & h2 & _ & R & E & _). exists c, s, i, cl, (EOs e). split; [done|]. rewrite E.
  apply elem_of_app. right. apply elem_of_list_here.
Qed.
Example C97_poll_case : exists c s, PollConcSpec.reachable c 2 s /\ PollConcModel.OpRet 1 (Ok tt) ∈ PollConcModel.log s /\ PollConcModel.threads s !! 0 = Some PollConcModel.WPoll.
Proof.
  destruct PollConcProps.C31_nonvacuous as (s & _ & R & W & _ & _ & O). exists (PollConcProps.cfg PollConcModel.Pipe), s. split_and!; [|done|done].
  by apply PollConcProofs2.reachable_w_reachable.
Qed.
