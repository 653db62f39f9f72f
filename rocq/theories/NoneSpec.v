(** C114: what it means to ask for nothing (src/lib.rs:219-225, 621-632: [Event::none] disables
    interest in all events). *)
From stdpp Require Import prelude.
From Verif Require Import Types EventModel.

Definition no_interest (e : event N) : Prop := ev_readable e = false /\ ev_writable e = false /\ ev_extra e = 0%N.
