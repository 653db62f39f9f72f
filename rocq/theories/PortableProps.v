(** C98: registration calls are answered alike on all platforms. *)
From stdpp Require Import prelude list gmap.
From Verif Require Import Types PortableSpec PortableProofs.
From Verif Require PollSpec PollModel PollConcModel PollConcSpec PollConcProps EpollModel EpollSpec EpollProps KqueueModel KqueueSpec
  KqueueProps PortModel PortSpec PortProps IocpModel IocpSpec IocpRuns CrossProps.
Local Open Scope nat_scope.

(** poll: always, whatever the threads do. *)
Theorem C98_poll c n s : PollSpec.wf_own (PollConcModel.own c) -> PollConcSpec.reachable c n s ->
  as_documented (omap poll_deed (PollConcModel.log s)).
Proof. intros Ho Hr. exact (proj1 (poll_holds c n s Ho Hr)). Qed.
Print Assumptions C98_poll.

(** epoll: provided that no source is closed while it is registered, which the contract of add forbids. *)
Theorem C98_epoll c s : EpollSpec.wf_config c -> epoll_civil_run c s ->
  as_documented (omap epoll_deed (EpollModel.log s)).
Proof. intros Hc Hr. exact (proj1 (epoll_holds c s Hc Hr)). Qed.
Print Assumptions C98_epoll.

(** kqueue: if the kernel refuses nothing, and no two threads work on the same source at once. *)
Theorem C98_kqueue_partial c s : KqueueSpec.reachable c true s -> Forall kqueue_civil (KqueueModel.log s) ->
  as_documented (omap kqueue_deed (KqueueModel.log s)).
Proof. exact (kqueue_holds c s). Qed.
Print Assumptions C98_kqueue_partial.

(** So the answers depend on the calls alone: any two of these platforms give the same. *)
Definition calls (h : list deed) : list (verb * Z) := (fun d => (d_verb d, d_source d)) <$> h.
Theorem C98_same_answers_partial h h' : as_documented h -> as_documented h' -> calls h = calls h' -> h = h'.
Proof. exact (documented_same h h'). Qed.
Print Assumptions C98_same_answers_partial.

(** Event ports take a second add, and a modify and a delete of what was never added; completion ports take such a
    delete; kqueue takes a failed add for a registration. *)
Theorem C98_ports_refuted : exists s, PortSpec.reachable s /\ ~ as_documented (omap port_deed (PortModel.log s)).
Proof.
  destruct CrossProps.C51_ports_refuted as (s & e & fd & Hr & _ & L). exists s. split; [done|]. rewrite L.
  intros H. by specialize (H [] _ _ eq_refl).
Qed.
Print Assumptions C98_ports_refuted.
Theorem C98_iocp_refuted : exists c s, IocpSpec.reachable c s /\ ~ as_documented (omap iocp_deed (IocpModel.log s)).
Proof.
  destruct CrossProps.C51_iocp_refuted as (c & s & x & i & Hr & L). exists c, s. split; [done|]. rewrite L.
  intros H. by specialize (H [] _ _ eq_refl).
Qed.
Print Assumptions C98_iocp_refuted.
Theorem C98_kqueue_refuted : exists c s, KqueueSpec.reachable c true s /\ ~ as_documented (omap kqueue_deed (KqueueModel.log s)).
Proof.
  exists KqueueProps.freebsd.
  KqueueProps.runs KqueueProps.freebsd true 1
    (KqueueProps.do_add 0 10 (KqueueProps.ev 7 true false) Level [Some KqueueProps.ENOMEM] ++
     [KqueueModel.LThread 0 (KqueueModel.Call (KqueueModel.CAdd 10 (KqueueProps.ev 7 true false) Level)); KqueueProps.go 0; KqueueProps.go 0]) s Hr Hl E.
  exists s. split; [done|]. rewrite Hl. intros H. by specialize (H [] _ _ eq_refl).
Qed.
Print Assumptions C98_kqueue_refuted.

(** A program run on three platforms. *)
Definition program : list deed :=
  [Deed VAdd 10 Accepted; Deed VAdd 10 Exists; Deed VModify 11 Missing; Deed VModify 10 Accepted; Deed VDelete 10 Accepted;
   Deed VDelete 10 Missing; Deed VAdd 10 Accepted].
Import PollSpec PollConcModel.
Definition poll_op (cl : call) : list label :=
  PollConcProps.at0 [CallOp cl; Go; Go; Go; Go; Go; Go; SignalTo None; Go; Go].
Definition poll_program : list label :=
  poll_op (CAdd 10 (Ev 7 true false 0%N) Level) ++ poll_op (CAdd 10 (Ev 8 true false 0%N) Oneshot) ++
  poll_op (CModify 11 (Ev 7 true false 0%N) Level) ++ poll_op (CModify 10 (Ev 7 true false 0%N) Level) ++ poll_op (CDelete 10) ++
  poll_op (CDelete 10) ++ poll_op (CAdd 10 (Ev 7 true false 0%N) Level).
Example C98_poll_case : exists s, PollConcSpec.reachable (PollConcProps.cfg PollConcModel.Pipe) 1 s /\
  omap poll_deed (log s) = program.
Proof.
  assert (exists s, PollConcProps.run_if (PollConcProps.cfg Pipe) (init (PollConcProps.cfg Pipe) 1) poll_program = Some s /\
    omap poll_deed (log s) = program) as (s & E & L) by (eexists; split; vm_compute; reflexivity).
  exists s. split; [|done]. by eapply PollConcProofs2.reachable_w_reachable, PollConcProps.run_if_w.
Qed.
Definition epoll_program : list EpollModel.label :=
  [EpollModel.LAdd 10 (EpollProps.ev 7) Level None; EpollModel.LAdd 10 (EpollProps.ev 8) Oneshot None;
   EpollModel.LModify 11 (EpollProps.ev 7) Level None; EpollModel.LModify 10 (EpollProps.ev 7) Level None;
   EpollModel.LDelete 10 None; EpollModel.LDelete 10 None; EpollModel.LAdd 10 (EpollProps.ev 7) Level None].
Example C98_epoll_case : exists s, epoll_civil_run EpollProps.demo s /\ omap epoll_deed (EpollModel.log s) = program.
Proof.
  assert (forall ls s s', epoll_civil_run EpollProps.demo s ->
    Forall (fun l => forall s, EpollSpec.legal EpollProps.demo s l /\ epoll_civil EpollProps.demo s l) ls ->
    EpollModel.run EpollProps.demo s ls = Some s' -> epoll_civil_run EpollProps.demo s') as R.
  { induction ls as [|l ls IH]; intros s s' Hr Hl Hs; cbn in Hs; [by simplify_eq|].
    apply Forall_cons in Hl as [Hl Hl']. destruct (EpollModel.step _ s l) as [s1|] eqn:E; [|done].
    eapply IH; [|done|done]. destruct (Hl s). by eapply civil_step. }
  assert (exists s, EpollModel.run EpollProps.demo (EpollModel.init EpollProps.demo) epoll_program = Some s /\
    omap epoll_deed (EpollModel.log s) = program) as (s & E & L) by (eexists; split; vm_compute; reflexivity).
  exists s. split; [|done]. eapply R; [apply civil_init| |exact E].
  assert (forall k, k <> NOTIFY_KEY -> (k < 2 ^ 64)%N -> forall h, EpollSpec.usable h (EpollProps.ev k)) as U
    by (intros; by apply EpollProps.usable_new).
  repeat (apply Forall_cons; split; [intros s0; split; [|done]; cbn [EpollSpec.legal];
    first [split; [|by apply U] | idtac]; split; intros X; vm_compute in X; discriminate X|]).
  by apply Forall_nil.
Qed.
Example C98_kqueue_case : exists s, KqueueSpec.reachable KqueueProps.freebsd true s /\
  Forall kqueue_civil (KqueueModel.log s) /\ omap kqueue_deed (KqueueModel.log s) = program.
Proof.
  KqueueProps.runs KqueueProps.freebsd true 1
    (KqueueProps.do_add 0 10 (KqueueProps.ev 7 true false) Level [] ++
     [KqueueModel.LThread 0 (KqueueModel.Call (KqueueModel.CAdd 10 (KqueueProps.ev 8 true false) Oneshot)); KqueueProps.go 0; KqueueProps.go 0] ++
     [KqueueModel.LThread 0 (KqueueModel.Call (KqueueModel.CModify 11 (KqueueProps.ev 7 true false) Level)); KqueueProps.go 0; KqueueProps.go 0] ++
     KqueueProps.do_modify 0 10 (KqueueProps.ev 7 true false) Level [] ++ KqueueProps.do_delete 0 10 [] ++
     [KqueueModel.LThread 0 (KqueueModel.Call (KqueueModel.CDelete 10)); KqueueProps.go 0; KqueueProps.go 0] ++
     KqueueProps.do_add 0 10 (KqueueProps.ev 7 true false) Level []) s Hr Hl E.
  exists s. split; [done|]. rewrite Hl. split; [|reflexivity].
  repeat (apply Forall_cons; split; [cbn; auto|]). by apply Forall_nil.
Qed.
