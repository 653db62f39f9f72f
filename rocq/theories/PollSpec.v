(** Meaning of the properties of the poll backend. *)
From stdpp Require Import prelude list gmap.
From Verif Require Import Types TimeModel EventModel LibModel PollModel.
Local Open Scope nat_scope.

(** What is registered for a descriptor. *)
Record reg := Reg { reg_key : N; reg_interest : N; reg_oneshot : bool }.

(** Calls of the public interface. *)
Inductive call :=
| CAdd (fd : Z) (ev : event N) (mode : poll_mode)
| CModify (fd : Z) (ev : event N) (mode : poll_mode)
| CDelete (fd : Z).
Definition call_fd (c : call) : Z :=
  match c with CAdd fd _ _ | CModify fd _ _ | CDelete fd => fd end.
Definition do_call (o : own_fds) (s : fds) (c : call) : res unit * fds :=
  match c with
  | CAdd fd ev mode => poll_add o s fd ev mode
  | CModify fd ev mode => poll_modify o s fd ev mode
  | CDelete fd => poll_delete o s fd
  end.

(** What is registered for [fd], read off the table handed to poll(2) and the map. *)
Definition registered (s : fds) (fd : Z) (r : reg) : Prop :=
  exists d pf, fd_data s !! fd = Some d /\ poll_fds s !! fd_index d = Some pf /\
    pfd_fd pf = fd /\ r = Reg (fd_key d) (pfd_events pf) (fd_remove d).
Definition is_registered (s : fds) (fd : Z) : Prop := exists r, registered s fd r.

(** Two tables hold the same registration for [fd]. *)
Definition same_reg (s s' : fds) (fd : Z) : Prop :=
  forall r, registered s fd r <-> registered s' fd r.

(** What POSIX requires of an answer of poll(2): one set of flags for each entry, and the
    number returned is the number of entries with flags. *)
Definition nonzero (r : N) : bool := negb (N.eqb r 0).
Definition posix_answer (s : fds) (ans : poll_answer) : Prop :=
  match ans with
  | PollErr _ => True
  | PollRet rs num =>
      length rs = length (poll_fds s) /\ num = length (List.filter nonzero rs)
  end.

(** The flags poll(2) returned for descriptor [fd]. *)
Definition returned (s : fds) (rs : list N) (fd : Z) (f : N) : Prop :=
  exists i pf, poll_fds s !! i = Some pf /\ pfd_fd pf = fd /\ rs !! i = Some f.

(** Flags that poll(2) may return for an entry with the given interest: requested ones, and
    ERR, HUP, NVAL which cannot be masked. *)
Definition unmaskable : N := N.lor (N.lor POLLERR POLLHUP) POLLNVAL.
Definition posix_flags (s : fds) (ans : poll_answer) : Prop :=
  match ans with
  | PollErr _ => True
  | PollRet rs num => forall i pf f, poll_fds s !! i = Some pf -> rs !! i = Some f ->
      N.land f (N.lor (pfd_events pf) unmaskable) = f
  end.
(** No flag is returned that was not asked for. *)
Definition only_requested (s : fds) (fd : Z) (ans : poll_answer) : Prop :=
  match ans with
  | PollErr _ => True
  | PollRet rs num => forall i pf f, poll_fds s !! i = Some pf -> pfd_fd pf = fd ->
      rs !! i = Some f -> N.land f (pfd_events pf) = f
  end.

(** [order] is an order in which the hash map may yield its entries. *)
Definition hash_order (s : fds) (order : list Z) : Prop :=
  NoDup order /\ forall fd, fd ∈ order <-> is_Some (fd_data s !! fd).

(** Histories: calls, and turns of waits with conforming answers. *)
Inductive reachable (o : own_fds) : fds -> Prop :=
| reach_new : reachable o (poll_new o)
| reach_call s c : reachable o s -> reachable o (do_call o s c).2
| reach_turn s ans flag order : reachable o s -> posix_answer s ans -> hash_order s order ->
    reachable o (poll_turn s ans flag order).2.

(** A sane notifier: the descriptor polled is one of its own. *)
Definition wf_own (o : own_fds) : Prop := own_poll o ∈ own_all o.

(** The result every call must have. *)
Definition edge_mode (m : poll_mode) : Prop := m = Edge \/ m = EdgeOneshot.
Inductive outcome (o : own_fds) (s : fds) : call -> res unit -> Prop :=
| out_own c : call_fd c ∈ own_all o -> outcome o s c (Err (ESimple KInvalidInput))
| out_add_exists fd ev m : fd ∉ own_all o -> is_registered s fd ->
    outcome o s (CAdd fd ev m) (Err (ESimple KAlreadyExists))
| out_add_edge fd ev m : fd ∉ own_all o -> ~ is_registered s fd -> edge_mode m ->
    outcome o s (CAdd fd ev m) (Err (ESimple KUnsupported))
| out_add fd ev m : fd ∉ own_all o -> ~ is_registered s fd -> ~ edge_mode m ->
    outcome o s (CAdd fd ev m) (Ok tt)
| out_modify_missing fd ev m : fd ∉ own_all o -> ~ is_registered s fd ->
    outcome o s (CModify fd ev m) (Err (ESimple KNotFound))
| out_modify_edge fd ev m : fd ∉ own_all o -> is_registered s fd -> edge_mode m ->
    outcome o s (CModify fd ev m) (Err (ESimple KUnsupported))
| out_modify fd ev m : fd ∉ own_all o -> is_registered s fd -> ~ edge_mode m ->
    outcome o s (CModify fd ev m) (Ok tt)
| out_delete_missing fd : fd ∉ own_all o -> ~ is_registered s fd ->
    outcome o s (CDelete fd) (Err (ESimple KNotFound))
| out_delete fd : fd ∉ own_all o -> is_registered s fd -> outcome o s (CDelete fd) (Ok tt).

(** The registration a successful call leaves behind for its descriptor. *)
Definition wanted (c : call) (r : reg) : Prop :=
  match c with
  | CAdd _ ev m | CModify _ ev m =>
      reg_key r = ev_key ev /\ reg_interest r = poll_events ev /\
      (reg_oneshot r = true <-> m = Oneshot)
  | CDelete _ => False
  end.

(** Histories in which nobody calls add, modify or delete for [fd], and poll(2) returns for
    [fd] only flags that were asked for. *)
Inductive meanwhile (o : own_fds) (fd : Z) (s0 : fds) : fds -> Prop :=
| mean_refl : meanwhile o fd s0 s0
| mean_call s c : meanwhile o fd s0 s -> call_fd c <> fd -> meanwhile o fd s0 (do_call o s c).2
| mean_turn s ans flag order : meanwhile o fd s0 s -> posix_answer s ans -> hash_order s order ->
    only_requested s fd ans -> meanwhile o fd s0 (poll_turn s ans flag order).2.

(** The poll(2) calls of one wait: clock readings that do not go backwards. *)
Fixpoint readings (evs : list wait_event) : list Z :=
  match evs with
  | [] => []
  | WPoll now _ _ _ :: r => now :: readings r
  | _ :: r => readings r
  end.

(** A wait that starts with table [s]: poll(2) conforms each time it is called, and other threads leave tables that
    calls can leave. *)
Fixpoint conforming (o : own_fds) (s : fds) (evs : list wait_event) : Prop :=
  match evs with
  | [] | WNotified _ :: _ => True
  | WChange s' :: rest => reachable o s' /\ conforming o s' rest
  | WPoll _ ans flag order :: rest =>
      posix_answer s ans /\ hash_order s order /\
      match poll_turn s ans flag order with
      | (TAgain, s') => conforming o s' rest
      | _ => True
      end
  end.
(** It got as far as returning to its caller. *)
Definition ends (imax start : Z) (timeout : option duration) (evs : list wait_event) (s : fds) : Prop :=
  pw_res (poll_wait_loop (deadline_of imax start timeout) evs s) <> None.
(** The container holds one event for each descriptor that poll(2) returned flags for, and nothing else. *)
Definition holds_exactly (s : fds) (rs : list N) (c : list (event N)) : Prop :=
  exists evs, c = map snd evs /\ NoDup (map fst evs) /\
    forall fd e, (fd, e) ∈ evs <->
      exists r f, registered s fd r /\ returned s rs fd f /\ f <> 0%N /\ e = poll_to_event (reg_key r) f.
