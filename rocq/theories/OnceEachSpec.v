(** What src/lib.rs:144-151 says of the one-shot mode, read off a list of armings and deliveries: "the poller will only
    deliver one event per file descriptor or socket.  Once an event has been delivered, interest in the event needs to be
    re-enabled by calling Poller::modify or Poller::add." *)
From stdpp Require Import prelude list gmap.
From Verif Require Import Types EventModel EventSpec.
From Verif Require PollSpec PollConcModel EpollModel EpollSpec KqueueModel KqueueSpec PortModel IocpModel.

(** A successful add or modify of source [x]; an event about it in the container of wait. *)
Inductive token (S : Type) := Arm (x : S) | Deliver (x : S).
Arguments Arm {S}.
Arguments Deliver {S}.

Section spec.
Context {S : Type} `{EqDecision S}.
(** The source was armed and no event has been delivered since. *)
Definition arming (x : S) (b : bool) (t : token S) : bool :=
  match t with
  | Arm y => if decide (y = x) then true else b
  | Deliver y => if decide (y = x) then false else b
  end.
Definition is_armed (x : S) (h : list (token S)) : bool := fold_left (arming x) h false.
(** Every delivery uses up an arming. *)
Definition one_event_per_arming (x : S) (h : list (token S)) : Prop :=
  forall h1 h2, h = h1 ++ Deliver x :: h2 -> is_armed x h1 = true.
End spec.

(** ** What happened on the different platforms *)
Definition epoll_tokens (o : EpollModel.obs) : list (token Z) :=
  match o with
  | EpollModel.AddRet fd _ _ (Ok _) | EpollModel.ModifyRet fd _ _ (Ok _) => [Arm fd]
  | EpollModel.Reported b => Deliver <$> b.*1
  | _ => []
  end.
(** The program uses only one-shot modes for [x]. *)
Definition epoll_oneshot_only (x : Z) (o : EpollModel.obs) : Prop :=
  match o with
  | EpollModel.AddRet fd _ m (Ok _) | EpollModel.ModifyRet fd _ m (Ok _) => fd = x -> mode_oneshot m
  | _ => True
  end.

Definition port_tokens (o : PortModel.obs) : list (token Z) :=
  match o with
  | PortModel.AddRet fd _ _ (Ok _) | PortModel.ModifyRet fd _ _ (Ok _) => [Arm fd]
  | PortModel.WaitRet _ _ b => Deliver <$> omap (fun i => match i with PortModel.IFd fd => Some fd | _ => None end) b.*1
  | _ => []
  end.

(** Completion ports: a registration of a socket is identified by the number of its packet. *)
Definition iocp_tokens (o : IocpModel.obs) : list (token nat) :=
  match o with
  | IocpModel.Armed (IocpModel.PSock n) _ _ => [Arm n]
  | IocpModel.Fed (IocpModel.PSock n) (Some _) => [Deliver n]
  | _ => []
  end.
Definition iocp_oneshot_only (n : nat) (o : IocpModel.obs) : Prop :=
  match o with IocpModel.Armed (IocpModel.PSock p) _ m => p = n -> m = Oneshot | _ => True end.

(** kqueue: a descriptor is armed by a call that returns Ok, and each of its filters gives an event of its own. *)
Definition kqueue_fd (f : kq_filter) : option N := match f with FRead fd | FWrite fd => Some fd | _ => None end.
Definition kqueue_tokens (o : KqueueModel.obs) : list (token N) :=
  match o with
  | KqueueModel.Returned _ (KqueueModel.CAdd fd _ _ | KqueueModel.CModify fd _ _) (Ok _) => [Arm fd]
  | KqueueModel.Reported b => Deliver <$> omap kqueue_fd b.*1
  | _ => []
  end.
Definition kqueue_oneshot_only (o : KqueueModel.obs) : Prop :=
  match o with
  | KqueueModel.Called _ (KqueueModel.CAdd _ _ m | KqueueModel.CModify _ _ m) => mode_oneshot m
  | _ => True
  end.
(** The same for a single filter, at the moment the kernel installs it. *)
Definition granted_mode (f : kq_filter) (o : KqueueModel.obs) : option poll_mode :=
  match KqueueSpec.granted f o with Some (Some (_, m)) => Some m | _ => None end.
Definition filter_tokens (f : kq_filter) (o : KqueueModel.obs) : list (token kq_filter) :=
  match granted_mode f o with Some _ => [Arm f] | None => [] end ++
  match o with KqueueModel.Reported b => Deliver <$> b.*1 | _ => [] end.
Definition filter_oneshot_only (f : kq_filter) (o : KqueueModel.obs) : Prop :=
  forall m, granted_mode f o = Some m -> mode_oneshot m.

(** poll: the calls in the order in which they took effect. *)
Definition poll_tokens (o : PollConcModel.obs) : list (token Z) :=
  match o with
  | PollConcModel.OpEffect _ (PollSpec.CAdd fd _ _ | PollSpec.CModify fd _ _) (Ok _) => [Arm fd]
  | PollConcModel.WaitOk _ b => Deliver <$> b.*1
  | _ => []
  end.
Definition poll_oneshot_only (o : PollConcModel.obs) : Prop :=
  match o with
  | PollConcModel.OpEffect _ (PollSpec.CAdd _ _ m | PollSpec.CModify _ _ m) _ => m = Oneshot
  | _ => True
  end.
