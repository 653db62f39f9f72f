(** One-shot waitables: which events say something. *)
From stdpp Require Import prelude list.
From Verif Require Import Types IocpModel.

(** An event of the waitable that says something. *)
Definition useful (n : nat) (o : obs) : bool :=
  match o with Fed p (Some e) => bool_decide (p = PWait n) && (ev_readable e || ev_writable e) | _ => false end.
