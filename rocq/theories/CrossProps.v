(** Properties that compare the platforms: C51. *)
From stdpp Require Import prelude list gmap.
From Verif Require Import Bits Types EventModel.
From Verif Require PollModel PollSpec PollProofs PollProps EpollModel EpollSpec EpollProps
  KqueueModel KqueueSpec KqueueProps PortModel PortSpec PortProofs2 PortProps
  IocpModel IocpSpec IocpRuns IocpProps.
Local Open Scope nat_scope.

Definition fails (r : res unit) : Prop := exists e, r = Err e.

(** ** C51: using a source that was never added is an error *)
(** poll *)
Theorem C51_poll_partial o s fd e m :
  PollSpec.reachable o s ->
  (~ PollSpec.is_registered s fd ->
     fails (PollSpec.do_call o s (PollSpec.CModify fd e m)).1 /\
     fails (PollSpec.do_call o s (PollSpec.CDelete fd)).1) /\
  (PollSpec.is_registered s fd -> fails (PollSpec.do_call o s (PollSpec.CAdd fd e m)).1).
Proof.
  intros Hr.
  assert (W : forall c, exists r, (PollSpec.do_call o s c).1 = r /\ PollSpec.outcome o s c r).
  { intros c. exists (PollSpec.do_call o s c).1. split; [done|].
    by apply (PollProps.C27_call_results o s c _ Hr). }
  unfold fails. split.
  - intros N. split.
    + destruct (W (PollSpec.CModify fd e m)) as (r & -> & H). inversion H; subst; eauto; done.
    + destruct (W (PollSpec.CDelete fd)) as (r & -> & H). inversion H; subst; eauto; done.
  - intros N. destruct (W (PollSpec.CAdd fd e m)) as (r & -> & H). inversion H; subst; eauto; done.
Qed.

(** epoll *)
Theorem C51_epoll_partial c s fd e m f :
  EpollSpec.wf_config c -> EpollSpec.reachable c s ->
  (EpollSpec.registered fd (EpollModel.log s) = None ->
    (forall s', EpollSpec.legal c s (EpollModel.LModify fd e m f) ->
       EpollModel.step c s (EpollModel.LModify fd e m f) = Some s' ->
       exists r, EpollModel.log s' = EpollModel.log s ++ [EpollModel.ModifyRet fd e m r] /\ fails r) /\
    (forall s', EpollSpec.legal c s (EpollModel.LDelete fd f) ->
       EpollModel.step c s (EpollModel.LDelete fd f) = Some s' ->
       exists r, EpollModel.log s' = EpollModel.log s ++ [EpollModel.DeleteRet fd r] /\ fails r)) /\
  (EpollSpec.registered fd (EpollModel.log s) <> None ->
    forall s', EpollSpec.legal c s (EpollModel.LAdd fd e m f) ->
       EpollModel.step c s (EpollModel.LAdd fd e m f) = Some s' ->
       exists r, EpollModel.log s' = EpollModel.log s ++ [EpollModel.AddRet fd e m r] /\ fails r).
Proof.
  intros Hc Hr. unfold fails. split.
  - intros N. split; intros s' Hl Hs.
    + destruct (EpollProps.C38_modify _ _ _ _ _ _ _ Hc Hr Hl Hs) as (r & L & R & _).
      exists r. split; [done|]. rewrite N in R. destruct f; eauto.
    + destruct (EpollProps.C38_delete _ _ _ _ _ Hc Hr Hl Hs) as (r & L & R & _).
      exists r. split; [done|]. rewrite N in R. destruct f; eauto.
  - intros N s' Hl Hs.
    destruct (EpollProps.C38_add _ _ _ _ _ _ _ Hc Hr Hl Hs) as (r & L & R & _).
    exists r. split; [done|]. destruct (EpollSpec.registered fd (EpollModel.log s)); [|done].
    destruct f; eauto.
Qed.

(** kqueue: a source that was never the subject of an add, and one whose add succeeded and that
    was not deleted since. *)
Definition never_added (src : KqueueModel.source) (h : list KqueueModel.obs) : Prop :=
  forall i cl r, KqueueModel.Returned i cl r ∈ h -> KqueueModel.call_source cl = src -> KqueueSpec.is_add cl = false.
Lemma never_entered src h : never_added src h -> KqueueSpec.entered src h = false.
Proof.
  induction h as [|o h IH] using rev_ind; intros N; [done|].
  unfold KqueueSpec.entered. rewrite fold_left_app. cbn [fold_left].
  change (KqueueSpec.enter src (KqueueSpec.entered src h) o = false). rewrite IH.
  - destruct o as [|i c r| | | | | | | | | |]; cbn; try done. case_decide as D; [|done].
    rewrite (N i c r); [|rewrite elem_of_app, elem_of_list_singleton; by right|done].
    destruct (KqueueModel.deletes c); [|done]. by destruct r.
  - intros i cl r H. apply (N i cl r). rewrite elem_of_app. by left.
Qed.
Theorem C51_kqueue_partial c s h i cl r h' :
  KqueueSpec.reachable c true s -> KqueueModel.log s = h ++ KqueueModel.Returned i cl r :: h' ->
  (never_added (KqueueModel.call_source cl) h ->
     KqueueSpec.is_modify cl = true \/ (exists fd, cl = KqueueModel.CDelete fd) -> fails r) /\
  (forall g, never_added (KqueueModel.call_source cl) h -> cl = KqueueModel.CDeleteFilter g -> r <> Ok tt) /\
  (KqueueSpec.entered (KqueueModel.call_source cl) h = true -> KqueueSpec.is_add cl = true -> fails r).
Proof.
  intros Hr E. split; [|split].
  - intros N. apply never_entered in N. intros [M|[fd ->]].
    + eexists. by apply (KqueueProps.C43_modify _ _ _ _ _ _ _ Hr E M).
    + eexists. by apply (KqueueProps.C43_delete _ _ _ _ _ _ _ Hr E).
  - intros g N ->. apply never_entered in N. intros ->.
    destruct (KqueueProps.C43_delete_filter _ _ _ _ _ _ _ Hr E) as [_ X]. specialize (X eq_refl).
    cbn [KqueueModel.call_source] in N. congruence.
  - intros N A. eexists. by apply (KqueueProps.C43_add _ _ _ _ _ _ _ Hr E A).
Qed.

(** Event ports: modify and delete of a source that was never added succeed (and the modify
    registers it), and so does a second add. *)
Theorem C51_ports_refuted :
  exists s e fd, PortSpec.reachable s /\ PortSpec.key_ok e /\
    PortModel.log s =
      [PortModel.DeleteRet fd (Ok tt); PortModel.ModifyRet fd e Oneshot (Ok tt);
       PortModel.AddRet fd e Oneshot (Ok tt); PortModel.AddRet fd e Oneshot (Ok tt)].
Proof.
  assert (exists s, PortModel.run PortModel.init
            [PortModel.LDelete 5 None; PortModel.LModify 5 (PortProps.rd 7) Oneshot None;
             PortModel.LAdd 5 (PortProps.rd 7) Oneshot None; PortModel.LAdd 5 (PortProps.rd 7) Oneshot None]
            = Some s /\ PortModel.log s =
      [PortModel.DeleteRet 5 (Ok tt); PortModel.ModifyRet 5 (PortProps.rd 7) Oneshot (Ok tt);
       PortModel.AddRet 5 (PortProps.rd 7) Oneshot (Ok tt); PortModel.AddRet 5 (PortProps.rd 7) Oneshot (Ok tt)])
    as (s & H & L) by (vm_compute; eauto).
  exists s, (PortProps.rd 7), 5%Z. split; [|split; [|done]].
  - eapply PortProps.run_reach; [constructor| |exact H]. vm_compute. reflexivity.
  - split; [done|]. vm_compute. reflexivity.
Qed.

(** The hypotheses are met: poll after three adds (PollProps), kqueue after an add and a modify of
    another source (KqueueProps.C43_nonvacuous), epoll at the start. *)
Example C51_nonvacuous :
  (PollSpec.reachable PollProps.o34 PollProps.s_ab /\ PollSpec.is_registered PollProps.s_ab 10) /\
  (PollSpec.do_call PollProps.o34 PollProps.s_ab (PollSpec.CModify 99 (PollProps.rd 1) Level)).1
    = Err (ESimple KNotFound).
Proof.
  split; [|reflexivity]. split; [apply PollProps.s_ab_reachable|].
  exists (PollSpec.Reg 1 (poll_events (PollProps.rd 1)) true).
  exists (PollModel.FdData 1 1 true), (PollModel.Pfd 10 (poll_events (PollProps.rd 1)) 0).
  repeat split; vm_compute; reflexivity.
Qed.

(** Completion ports.  A modify of a source that was never entered does not succeed; a second add fails
    (C81_exists_partial).  Missing: delete. *)
Theorem C51_iocp_partial c s h1 i x e m r h2 :
  IocpSpec.reachable c s -> IocpModel.log s = h1 ++ IocpModel.Returned i (IocpModel.CModify x e m) r :: h2 ->
  (forall n, IocpModel.Entered (IocpModel.PSock n) x ∉ h1) -> r <> Ok tt.
Proof.
  intros R E N ->. destruct (IocpProps.C53_call_arms _ _ _ _ _ _ R E) as (p & _ & y & e' & m' & G & K & Y); [done|].
  injection G as <- <- <-. destruct p; try done. by apply (N n).
Qed.
Example C51_iocp_case : exists c s h1 i x e m r h2,
  IocpSpec.reachable c s /\ IocpModel.log s = h1 ++ IocpModel.Returned i (IocpModel.CModify x e m) r :: h2 /\
  (forall n, IocpModel.Entered (IocpModel.PSock n) x ∉ h1) /\ r = Err (ESimple KNotFound).
Proof.
  IocpRuns.sees IocpModel.log IocpRuns.cfg 2 [IocpRuns.by_ 0 (IocpModel.CModify 5 (IocpRuns.rd 7) Level); IocpRuns.t 0; IocpRuns.t 0] s H R X.
  eexists IocpRuns.cfg, s, [_], 0, 5%N, _, _, _, []. split; [exact R|]. split; [rewrite X; reflexivity|]. split; [intros n; IocpRuns.not_in_list|]. done.
Qed.
Theorem C51_iocp_refuted :
  exists c s x i, IocpSpec.reachable c s /\ IocpModel.log s = [IocpModel.Called i (IocpModel.CDelete x); IocpModel.Returned i (IocpModel.CDelete x) (Ok tt)].
Proof.
  IocpRuns.sees IocpModel.log IocpRuns.cfg 2 [IocpRuns.by_ 0 (IocpModel.CDelete 5); IocpRuns.t 0; IocpRuns.t 0] s H R X.
  exists IocpRuns.cfg, s, 5%N, 0. split; [exact R|exact X].
Qed.

Print Assumptions C51_poll_partial.
Print Assumptions C51_epoll_partial.
Print Assumptions C51_kqueue_partial.
Print Assumptions C51_ports_refuted.
Print Assumptions C51_iocp_partial.
Print Assumptions C51_iocp_refuted.
