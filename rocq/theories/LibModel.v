(** Sequential model of src/lib.rs: the key check in front of the backend, the [Events]
    container and the wait loop, over an arbitrary backend. *)
From Coq Require Import NArith ZArith Bool List.
From Verif Require Import Types TimeModel.
Import ListNotations.
Open Scope N_scope.

(* ------------------------------------------------------------------ *)
(** ** Registration calls *)

(** The registration methods of [sys::Poller]: state [S], sources [F], extras [X]. src/epoll.rs:104, 124, 144 and their like. *)
Record backend (S F X : Type) := Backend {
  b_add : S -> F -> event X -> poll_mode -> res unit * S;
  b_modify : S -> F -> event X -> poll_mode -> res unit * S;
  b_delete : S -> F -> res unit * S
}.
Arguments Backend {S F X}.
Arguments b_add {S F X}.
Arguments b_modify {S F X}.
Arguments b_delete {S F X}.

Section Registration.
  Context {S F X : Type} (b : backend S F X).

  (** src/lib.rs:548-561 [add_with_mode] *)
  Definition lib_add_with_mode (s : S) (src : F) (e : event X) (mode : poll_mode)
    : res unit * S :=
    if ev_key e =? NOTIFY_KEY then (Err (ESimple KInvalidInput), s) else b_add b s src e mode.

  (** src/lib.rs:529-531 [add] *)
  Definition lib_add (s : S) (src : F) (e : event X) : res unit * S :=
    lib_add_with_mode s src e Oneshot.

  (** src/lib.rs:653-666 [modify_with_mode] *)
  Definition lib_modify_with_mode (s : S) (src : F) (e : event X) (mode : poll_mode)
    : res unit * S :=
    if ev_key e =? NOTIFY_KEY then (Err (ESimple KInvalidInput), s) else b_modify b s src e mode.

  (** src/lib.rs:634-636 [modify] *)
  Definition lib_modify (s : S) (src : F) (e : event X) : res unit * S :=
    lib_modify_with_mode s src e Oneshot.

  (** src/lib.rs:688-690 [delete] *)
  Definition lib_delete (s : S) (src : F) : res unit * S := b_delete b s src.
End Registration.

(* ------------------------------------------------------------------ *)
(** ** Events container *)

(** src/lib.rs:804-809; the content of [sys::Events] as the list its [iter] yields. *)
Definition container (X : Type) := list (event X).

(** src/lib.rs:881-883 [Events::iter] *)
Fixpoint ev_iter {X} (c : container X) : list (event X) :=
  match c with
  | [] => []
  | e :: r => if negb (ev_key e =? NOTIFY_KEY) then e :: ev_iter r else ev_iter r
  end.

(** src/lib.rs:904-906 [Events::clear] *)
Definition ev_clear {X} (c : container X) : container X := [].

(** src/lib.rs:919-921 [Events::len]: iter().count() *)
Definition ev_len {X} (c : container X) : N := N.of_nat (length (ev_iter c)).

(** src/lib.rs:934-936 [Events::is_empty] *)
Definition ev_is_empty {X} (c : container X) : bool := ev_len c =? 0.

(* ------------------------------------------------------------------ *)
(** ** wait *)

(** One turn of the loop in src/lib.rs:738-759: the clock reading at lines 740-741 and the
    behaviour of the backend's wait, which gets the container and the timeout and returns a
    result and the new container. *)
Record attempt (X : Type) := Attempt {
  at_now : instant;
  at_run : container X -> option duration -> res unit * container X
}.
Arguments Attempt {X}.
Arguments at_now {X}.
Arguments at_run {X}.

(** What a call to wait amounts to: the result (or [None] if all given attempts were
    interrupted and the call is still running), the container, the notification flag and the
    timeouts handed to the backend, in order. *)
(** src/lib.rs:731-764. *)
Record wait_out (X : Type) := WaitOut {
  wo_res : option (res N);
  wo_events : container X;
  wo_notified : bool;
  wo_timeouts : list (option duration)
}.
Arguments WaitOut {X}.
Arguments wo_res {X}.
Arguments wo_events {X}.
Arguments wo_notified {X}.
Arguments wo_timeouts {X}.

(** src/lib.rs:746. *)
Definition is_interrupted (e : io_error) : bool :=
  match kind e with KInterrupted => true | _ => false end.

(** src/lib.rs:738-759, the loop.  [notified] is the flag swapped at line 755. *)
Fixpoint wait_loop {X} (deadline : option instant) (ats : list (attempt X))
  (c : container X) (notified : bool) : wait_out X :=
  match ats with
  | [] => WaitOut None c notified []
  | a :: rest =>
      let timeout := time_left deadline (at_now a) in
      match at_run a c timeout with
      | (Ok _, c') => WaitOut (Some (Ok (ev_len c'))) c' false [timeout]
      | (Err e, c') =>
          if is_interrupted e then
            let o := wait_loop deadline rest (ev_clear c') notified in
            WaitOut (wo_res o) (wo_events o) (wo_notified o) (timeout :: wo_timeouts o)
          else WaitOut (Some (Err e)) c' notified [timeout]
      | (Panic, c') => WaitOut (Some Panic) c' notified [timeout]
      end
  end.

(** src/lib.rs:731-764 [wait].  [locked]: another thread holds [self.lock]. *)
Definition lib_wait {X} (imax : instant) (locked : bool) (start : instant)
  (timeout : option duration) (ats : list (attempt X)) (c : container X) (notified : bool)
  : wait_out X :=
  if locked then WaitOut (Some (Ok 0)) c notified []
  else wait_loop (deadline_of imax start timeout) ats c notified.
