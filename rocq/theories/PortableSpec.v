(** What a program may rely on when it registers sources, on whatever platform: the answers to add, modify and delete
    depend only on the calls made before. *)
From stdpp Require Import prelude list gmap.
From Verif Require Import Types.
From Verif Require PollSpec PollConcModel EpollModel EpollSpec KqueueModel KqueueSpec PortModel IocpModel.

Inductive verb := VAdd | VModify | VDelete.
(** Success, the error AlreadyExists, the error NotFound. *)
Inductive answer := Accepted | Exists | Missing.
Record deed := Deed { d_verb : verb; d_source : Z; d_answer : answer }.

(** A source is registered after an accepted add, until an accepted delete. *)
Definition after (x : Z) (b : bool) (d : deed) : bool :=
  if decide (d_source d = x) then
    match d_verb d, d_answer d with
    | VAdd, Accepted => true
    | VDelete, Accepted => false
    | _, _ => b
    end
  else b.
Definition registered (x : Z) (h : list deed) : bool := fold_left (after x) h false.

(** The answer to expect. *)
Definition expected (b : bool) (v : verb) : answer :=
  match v, b with
  | VAdd, false | VModify, true | VDelete, true => Accepted
  | VAdd, true => Exists
  | _, false => Missing
  end.
Definition as_documented (h : list deed) : Prop :=
  forall h1 d h2, h = h1 ++ d :: h2 -> d_answer d = expected (registered (d_source d) h1) (d_verb d).

(** The answer that a result is: errors are told apart by their kind (std::io::Error::kind).  [None]: something else
    was wrong with the call -- memory, the mode, the descriptor. *)
Definition answer_of (r : res unit) : option answer :=
  match r with
  | Ok _ => Some Accepted
  | Err e => match kind e with KAlreadyExists => Some Exists | KNotFound => Some Missing | _ => None end
  | Panic => None
  end.
Definition deed_of (v : verb) (x : Z) (r : res unit) : option deed := Deed v x <$> answer_of r.

(** ** The deeds of a run *)
(** poll: the calls in the order in which they took effect. *)
Definition poll_verb (cl : PollSpec.call) : verb :=
  match cl with PollSpec.CAdd _ _ _ => VAdd | PollSpec.CModify _ _ _ => VModify | PollSpec.CDelete _ => VDelete end.
Definition poll_deed (o : PollConcModel.obs) : option deed :=
  match o with PollConcModel.OpEffect _ cl r => deed_of (poll_verb cl) (PollSpec.call_fd cl) r | _ => None end.
(** epoll *)
Definition epoll_deed (o : EpollModel.obs) : option deed :=
  match o with
  | EpollModel.AddRet fd _ _ r => deed_of VAdd fd r
  | EpollModel.ModifyRet fd _ _ r => deed_of VModify fd r
  | EpollModel.DeleteRet fd r => deed_of VDelete fd r
  | _ => None
  end.
(** The kernel gives EEXIST and ENOENT as reasons only where it should; no source is closed while it is registered. *)
Definition epoll_civil (c : EpollModel.config) (s : EpollModel.state) (l : EpollModel.label) : Prop :=
  match l with
  | EpollModel.LAdd _ _ _ f | EpollModel.LModify _ _ _ f | EpollModel.LDelete _ f => f <> Some EEXIST /\ f <> Some ENOENT
  | EpollModel.LClose fd => EpollSpec.registered fd (EpollModel.log s) = None
  | _ => True
  end.
Inductive epoll_civil_run (c : EpollModel.config) : EpollModel.state -> Prop :=
| civil_init : epoll_civil_run c (EpollModel.init c)
| civil_step s l s' : epoll_civil_run c s -> EpollSpec.legal c s l -> epoll_civil c s l -> EpollModel.step c s l = Some s' ->
    epoll_civil_run c s'.
(** kqueue: the calls about descriptors, in the order in which they returned. *)
Definition kqueue_deed (o : KqueueModel.obs) : option deed :=
  match o with
  | KqueueModel.Returned _ (KqueueModel.CAdd fd _ _) r => deed_of VAdd (Z.of_N fd) r
  | KqueueModel.Returned _ (KqueueModel.CModify fd _ _) r => deed_of VModify (Z.of_N fd) r
  | KqueueModel.Returned _ (KqueueModel.CDelete fd) r => deed_of VDelete (Z.of_N fd) r
  | _ => None
  end.
(** The kernel refuses nothing: no call about a descriptor fails for another reason than the poller's own table. *)
Definition kqueue_civil (o : KqueueModel.obs) : Prop :=
  match o with
  | KqueueModel.Returned _ (KqueueModel.CAdd _ _ _) r => r = Ok tt \/ r = KqueueSpec.exists_err
  | KqueueModel.Returned _ (KqueueModel.CModify _ _ _ | KqueueModel.CDelete _) r => r = Ok tt \/ r = KqueueSpec.missing_err
  | _ => True
  end.
(** Event ports *)
Definition port_deed (o : PortModel.obs) : option deed :=
  match o with
  | PortModel.AddRet fd _ _ r => deed_of VAdd fd r
  | PortModel.ModifyRet fd _ _ r => deed_of VModify fd r
  | PortModel.DeleteRet fd r => deed_of VDelete fd r
  | _ => None
  end.
(** Completion ports *)
Definition iocp_deed (o : IocpModel.obs) : option deed :=
  match o with
  | IocpModel.Returned _ (IocpModel.CAdd x _ _) r => deed_of VAdd (Z.of_N x) r
  | IocpModel.Returned _ (IocpModel.CModify x _ _) r => deed_of VModify (Z.of_N x) r
  | IocpModel.Returned _ (IocpModel.CDelete x) r => deed_of VDelete (Z.of_N x) r
  | _ => None
  end.
