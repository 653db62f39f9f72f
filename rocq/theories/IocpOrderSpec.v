(** C110: the order in which completions come out of a completion port. *)
From stdpp Require Import prelude list gmap.
From Verif Require Import Types EventModel IocpModel.

(** The completions in the order in which the system put them into the port: AFD finished a
    request, or a packet was posted (by post, by notify, by the callback of a waitable). *)
Definition queues (o : obs) : option pid :=
  match o with Done n _ _ => Some (PSock n) | Posted p => Some p | _ => None end.
Definition queued (h : list obs) : list pid := omap queues h.

(** The completions in the order in which wait() processed them. *)
Definition processes (o : obs) : option pid := match o with Fed p _ => Some p | _ => None end.
Definition processed (h : list obs) : list pid := omap processes h.

(** Nothing was dropped. *)
Definition nothing_lost (h : list obs) : Prop := forall p, Lost p ∉ h.

(** Thread [i] neither calls nor returns. *)
Definition quiet (i : nat) (h : list obs) : Prop :=
  Forall (fun o => match o with Called j _ | Returned j _ _ => j <> i | _ => True end) h.
