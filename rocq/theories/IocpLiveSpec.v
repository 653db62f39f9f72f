(** What it means that calls around a completion port return. *)
From stdpp Require Import prelude list gmap.
From Verif Require Import Types IocpModel IocpSpec.
Local Open Scope nat_scope.

(** Steps that a call makes by itself.  The others come from outside: calls, completions, satisfied waits and their
    callbacks, and that waiting on the port ends with a timeout or an error. *)
Definition own (l : label) : bool :=
  match l with LThread _ (Go _) => true | LWaiter (WTimeout | WError _) => false | LWaiter _ => true | _ => false end.
(** From [s] to [s'] by [a] steps of the calls and [e] from outside, in any order. *)
Inductive goes (c : config) (s : state) : nat -> nat -> state -> Prop :=
| goes_not : goes c s 0 0 s
| goes_own a e s1 l s2 : goes c s a e s1 -> own l = true -> legal s1 l -> step c s1 l = Some s2 -> goes c s (S a) e s2
| goes_out a e s1 l s2 : goes c s a e s1 -> own l = false -> legal s1 l -> step c s1 l = Some s2 -> goes c s a (S e) s2.
(** Every call has returned but possibly a wait() that waits at an empty port (or that was stopped for good, C61). *)
Definition resting (s : state) : Prop :=
  (forall i q, threads s !! i = Some q -> q = Out) /\
  match waiter s with WOut | WDead _ _ _ => True | WBlock _ _ => queue (sys s) = [] | _ => False end.
