(** An event is about a registration that was in force during the wait() that returned it, and carries its key.
    src/lib.rs:469-500 (add), 563-573 (modify: "modifies the interest of a previously added file descriptor or socket"),
    668-671 (delete: "removes the file descriptor or socket from the poller"): after a delete nothing about the source is
    expected, and after a modify nothing with the old key. *)
From stdpp Require Import prelude list gmap.
From Verif Require Import Types EventModel EventSpec.
From Verif Require PollSpec PollConcModel EpollModel KqueueModel KqueueSpec PortModel IocpModel.

(** A wait() begins on a thread; an add or modify gives source [x] the key [k]; a delete (or closing the descriptor) ends
    the registration; the wait() of a thread obtains events. *)
Inductive token (S : Type) :=
| Begin (i : nat) | Reg (x : S) (k : N) | Unreg (x : S) | Got (i : nat) (evs : list (S * N)).
Arguments Begin {S}.
Arguments Reg {S}.
Arguments Unreg {S}.
Arguments Got {S}.

Section spec.
Context {S : Type} `{EqDecision S}.
(** The key under which [x] is registered. *)
Definition keyed (x : S) (r : option N) (t : token S) : option N :=
  match t with
  | Reg y k => if decide (y = x) then Some k else r
  | Unreg y => if decide (y = x) then None else r
  | _ => r
  end.
Definition in_force (x : S) (h : list (token S)) : option N := fold_left (keyed x) h None.
(** At some moment between the beginning of the wait() and its getting the event, [x] was registered with that key. *)
Definition events_current (x : S) (h : list (token S)) : Prop :=
  forall h1 i h2 evs h3 k, h = h1 ++ Begin i :: h2 ++ Got i evs :: h3 -> Begin i ∉ h2 -> (x, k) ∈ evs ->
    exists a b, h2 = a ++ b /\ in_force x (h1 ++ Begin i :: a) = Some k.
End spec.

(** ** What happened on the different platforms *)
Definition epoll_tokens (o : EpollModel.obs) : list (token Z) :=
  match o with
  | EpollModel.AddRet fd e _ (Ok _) | EpollModel.ModifyRet fd e _ (Ok _) => [Reg fd (ev_key e)]
  | EpollModel.DeleteRet fd (Ok _) | EpollModel.Closed fd => [Unreg fd]
  | EpollModel.WaitBegun _ => [Begin 0]
  | EpollModel.Reported b => [Got 0 (prod_map id (@ev_key N) <$> b)]
  | _ => []
  end.

(** A wait of event ports is one step of the model. *)
Definition port_tokens (o : PortModel.obs) : list (token Z) :=
  match o with
  | PortModel.AddRet fd e _ (Ok _) | PortModel.ModifyRet fd e _ (Ok _) => [Reg fd (ev_key e)]
  | PortModel.DeleteRet fd (Ok _) | PortModel.Closed fd => [Unreg fd]
  | PortModel.WaitRet _ _ b =>
      [Begin 0; Got 0 (omap (fun r => match r.1 with PortModel.IFd fd => Some (fd, ev_key r.2) | _ => None end) b)]
  | _ => []
  end.

(** Completion ports: a registration of a socket is identified by the number of its packet. *)
Definition iocp_tokens (o : IocpModel.obs) : list (token nat) :=
  match o with
  | IocpModel.Armed (IocpModel.PSock n) e _ => [Reg n (ev_key e)]
  | IocpModel.Removed (IocpModel.PSock n) => [Unreg n]
  | IocpModel.WaitBegun _ _ => [Begin 0]
  | IocpModel.Fed (IocpModel.PSock n) (Some e) => [Got 0 [(n, ev_key e)]]
  | _ => []
  end.

(** kqueue: what the kernel did for one filter of a descriptor, whether or not the call then returned Ok.  ENOENT and EPIPE
    are its answers to a removal if the filter is gone already. *)
Definition gone_already (f : kq_filter) (o : KqueueModel.obs) : bool :=
  match o with
  | KqueueModel.Answered _ cl a | KqueueModel.Aborted _ cl a _ =>
      match KqueueSpec.asks cl f, a !! KqueueSpec.slot f with
      | Some None, Some (Some (ENOENT | EPIPE)) => true
      | _, _ => false
      end
  | _ => false
  end.
Definition filter_tokens (f : kq_filter) (o : KqueueModel.obs) : list (token kq_filter) :=
  match KqueueSpec.granted f o with
  | Some (Some (k, _)) => [Reg f k]
  | Some None => [Unreg f]
  | None =>
      if gone_already f o then [Unreg f] else
      match o with
      | KqueueModel.WaitBegun => [Begin 0]
      | KqueueModel.Reported b => [Got 0 (prod_map id ev_key <$> b)]
      | _ => []
      end
  end.

(** poll: calls count at the moment at which they take effect, which is before they return. *)
Definition poll_tokens (o : PollConcModel.obs) : list (token Z) :=
  match o with
  | PollConcModel.OpEffect _ (PollSpec.CAdd fd e _ | PollSpec.CModify fd e _) (Ok _) => [Reg fd (ev_key e)]
  | PollConcModel.OpEffect _ (PollSpec.CDelete fd) (Ok _) => [Unreg fd]
  | PollConcModel.WaitCall i => [Begin i]
  | PollConcModel.WaitOk i b => [Got i (prod_map id (@ev_key N) <$> b)]
  | _ => []
  end.
(** No modify asks for a mode that poll does not have (such a modify fails, C28). *)
Definition poll_modes_known (o : PollConcModel.obs) : Prop :=
  match o with
  | PollConcModel.OpEffect _ (PollSpec.CModify _ _ m) _ => m = Oneshot \/ m = Level
  | _ => True
  end.
