(** C113, for each backend: the wait() that is running, or ran last, was given a container with room for [room] events. *)
From stdpp Require Import prelude list gmap.
From Verif Require EpollModel EpollSpec KqueueModel KqueueSpec IocpModel IocpSpec.

Inductive epoll_waiting (c : EpollModel.config) (room : nat) : EpollModel.state -> Prop :=
| epoll_begins s t s' : EpollSpec.reachable c s -> EpollModel.step c s (EpollModel.LWait t room) = Some s' -> epoll_waiting c room s'
| epoll_goes_on s l s' : epoll_waiting c room s -> EpollSpec.legal c s l -> (forall t room', l <> EpollModel.LWait t room') ->
    EpollModel.step c s l = Some s' -> epoll_waiting c room s'.

Inductive kqueue_waiting (c : KqueueModel.config) (excl : bool) (room : nat) : KqueueModel.state -> Prop :=
| kqueue_begins s t s' : KqueueSpec.reachable c excl s -> KqueueModel.step c s (KqueueModel.LWait t room) = Some s' -> kqueue_waiting c excl room s'
| kqueue_goes_on s l s' : kqueue_waiting c excl room s -> KqueueSpec.legal c excl s l -> (forall t room', l <> KqueueModel.LWait t room') ->
    KqueueModel.step c s l = Some s' -> kqueue_waiting c excl room s'.

Inductive iocp_waiting (c : IocpModel.config) (room : nat) : IocpModel.state -> Prop :=
| iocp_begins s d old s' : IocpSpec.reachable c s -> 0 < room -> IocpModel.step c s (IocpModel.LWait room d old) = Some s' -> iocp_waiting c room s'
| iocp_goes_on s l s' : iocp_waiting c room s -> IocpSpec.legal s l -> (forall room' d old, l <> IocpModel.LWait room' d old) ->
    IocpModel.step c s l = Some s' -> iocp_waiting c room s'.
