(** Model of the poll(2) backend (src/poll.rs): the descriptor table, add, modify, delete and
    what wait does with the answers of poll(2).  The locking protocol around it is in
    [PollConcModel]. *)
From stdpp Require Import prelude list gmap.
From Verif Require Import Bits Types TimeModel EventModel LibModel.
Local Open Scope nat_scope.

(** rustix::event::PollFd (struct pollfd), used at src/poll.rs:23. *)
Record pollfd := Pfd { pfd_fd : Z; pfd_events : N; pfd_revents : N }.

(** PollFd::from_borrowed_fd: no returned flags yet. Called at src/poll.rs:77, 130, 164, 283. *)
Definition new_pollfd (fd : Z) (events : N) : pollfd := Pfd fd events 0%N.

(** src/poll.rs:57-66 [FdData]. *)
Record fddata := FdData { fd_index : nat; fd_key : N; fd_remove : bool }.

(** src/poll.rs:44-55 [Fds]. *)
Record fds := Fds { poll_fds : list pollfd; fd_data : gmap Z fddata }.

(** The notifier's descriptors: the one polled, the ones [has_fd] recognises
    (src/poll.rs:733-735 pipe ends, src/poll.rs:826-828 eventfd) and the flags it is polled
    for (src/poll.rs:689-691 RDNORM, src/poll.rs:798-800 IN). *)
Record own_fds := Own { own_poll : Z; own_all : list Z; own_flags : N }.
(** src/poll.rs:733-735, 826-828. *)
Definition has_fd (o : own_fds) (fd : Z) : bool := bool_decide (fd ∈ own_all o).

(** src/poll.rs:70-89 [new]. *)
Definition poll_new (o : own_fds) : fds := Fds [new_pollfd (own_poll o) (own_flags o)] ∅.

(** src/poll.rs:92-99 *)
Definition poll_supports_level : bool := true.
(** src/poll.rs:97-99. *)
Definition poll_supports_edge : bool := false.

(** src/poll.rs:445-453 *)
Definition cvt_mode_as_remove (mode : poll_mode) : res bool :=
  match mode with
  | Oneshot => Ok true
  | Level => Ok false
  | Edge | EdgeOneshot => Err (ESimple KUnsupported)
  end.

(** src/poll.rs:114-137, the closure of [add]. *)
Definition add_fds (fd : Z) (ev : event N) (mode : poll_mode) (s : fds) : res unit * fds :=
  match fd_data s !! fd with
  | Some _ => (Err (ESimple KAlreadyExists), s)
  | None =>
      match cvt_mode_as_remove mode with
      | Ok remove =>
          (Ok tt, Fds (poll_fds s ++ [new_pollfd fd (poll_events ev)])
                      (<[fd := FdData (length (poll_fds s)) (ev_key ev) remove]> (fd_data s)))
      | Err e => (Err e, s)
      | Panic => (Panic, s)
      end
  end.

(** src/poll.rs:153-171, the closure of [modify]: the key and the table entry are replaced
    before the mode is checked. *)
Definition modify_fds_entry (fd : Z) (ev : event N) (mode : poll_mode) (s : fds) : res unit * fds :=
  match fd_data s !! fd with
  | None => (Err (ESimple KNotFound), s)
  | Some d =>
      let data1 := <[fd := FdData (fd_index d) (ev_key ev) (fd_remove d)]> (fd_data s) in
      match poll_fds s !! fd_index d with
      | None => (Panic, Fds (poll_fds s) data1)
      | Some _ =>
          let pfds := <[fd_index d := new_pollfd fd (poll_events ev)]> (poll_fds s) in
          match cvt_mode_as_remove mode with
          | Ok remove =>
              (Ok tt, Fds pfds (<[fd := FdData (fd_index d) (ev_key ev) remove]> (fd_data s)))
          | Err e => (Err e, Fds pfds data1)
          | Panic => (Panic, Fds pfds data1)
          end
      end
  end.

(** Vec::swap_remove: the last element takes the place of the removed one; panics when the
    index is out of bounds ([None]). *)
(** Called at src/poll.rs:192. *)
Definition swap_remove {A} (l : list A) (i : nat) : option (list A) :=
  match l !! i, last l with
  | Some _, Some x => Some (take (length l - 1) (<[i := x]> l))
  | _, _ => None
  end.

(** src/poll.rs:187-201, the closure of [delete]. *)
Definition delete_fds (fd : Z) (s : fds) : res unit * fds :=
  match fd_data s !! fd with
  | None => (Err (ESimple KNotFound), s)
  | Some d =>
      let data1 := delete fd (fd_data s) in
      match swap_remove (poll_fds s) (fd_index d) with
      | None => (Panic, Fds (poll_fds s) data1)
      | Some pfds =>
          match pfds !! fd_index d with
          | None => (Ok tt, Fds pfds data1)
          | Some pf =>
              match data1 !! pfd_fd pf with
              | None => (Panic, Fds pfds data1)       (* the unwrap of line 196 *)
              | Some d' =>
                  (Ok tt, Fds pfds
                    (<[pfd_fd pf := FdData (fd_index d) (fd_key d') (fd_remove d')]> data1))
              end
          end
      end
  end.

(** src/poll.rs:102-138 [add]. *)
Definition poll_add (o : own_fds) (s : fds) (fd : Z) (ev : event N) (mode : poll_mode)
  : res unit * fds :=
  if has_fd o fd then (Err (ESimple KInvalidInput), s) else add_fds fd ev mode s.

(** src/poll.rs:141-172 [modify]. *)
Definition poll_modify (o : own_fds) (s : fds) (fd : Z) (ev : event N) (mode : poll_mode)
  : res unit * fds :=
  if has_fd o fd then (Err (ESimple KInvalidInput), s) else modify_fds_entry fd ev mode s.

(** src/poll.rs:175-202 [delete]. *)
Definition poll_delete (o : own_fds) (s : fds) (fd : Z) : res unit * fds :=
  if has_fd o fd then (Err (ESimple KInvalidInput), s) else delete_fds fd s.

(* ------------------------------------------------------------------ *)
(** ** wait *)

(** What poll(2) does to the table: it fails, or it stores the returned flags of every entry
    and returns a number. *)
(** The call is at src/poll.rs:248. *)
Inductive poll_answer :=
| PollErr (e : io_error)
| PollRet (revents : list N) (num : nat).

(** Not in /repo. *)
Definition set_revents (pf : pollfd) (r : N) : pollfd := Pfd (pfd_fd pf) (pfd_events pf) r.
(** What poll(2) does to its argument at src/poll.rs:248. *)
Fixpoint kernel_write (pfds : list pollfd) (rs : list N) : list pollfd :=
  match pfds, rs with
  | pf :: pr, r :: rr => set_revents pf r :: kernel_write pr rr
  | _, [] => pfds
  | [], _ => []
  end.

(** src/poll.rs:268-293, the loop that stores the events.  [order] is the order in which the
    hash map yields its entries.  Every event is tagged with the descriptor it is for (the
    tag is not part of the event and is dropped when the container is filled).  [None]: the
    index of line 271 is out of bounds. *)
Fixpoint store_events (order : list Z) (num_fd_events : nat) (data : gmap Z fddata)
  (pfds : list pollfd) (acc : list (Z * event N)) : option (list pollfd * list (Z * event N)) :=
  match order with
  | [] => Some (pfds, acc)
  | fd :: rest =>
      match data !! fd with
      | None => store_events rest num_fd_events data pfds acc
      | Some d =>
          match pfds !! fd_index d with
          | None => None
          | Some pf =>
              if is_empty (pfd_revents pf) then store_events rest num_fd_events data pfds acc
              else
                let acc' := acc ++ [(fd, poll_to_event (fd_key d) (pfd_revents pf))] in
                let pfds' := if fd_remove d
                             then <[fd_index d := new_pollfd (pfd_fd pf) 0%N]> pfds else pfds in
                if decide (length acc' = num_fd_events) then Some (pfds', acc')
                else store_events rest num_fd_events data pfds' acc'
          end
      end
  end.

(** How one turn of the outer loop ends. *)
Inductive turn :=
| TAgain                          (* continue, line 262 *)
| TDone (evs : list (Z * event N))   (* break, line 296, with the stored events *)
| TErr (e : io_error)             (* the [?] of line 248 *)
| TPanic.

(** src/poll.rs:247-297 — one turn of the outer loop from the call of poll(2) on.  [flag]:
    what the swap of line 261 finds.  pop_all_notifications (line 255) never fails
    (src/poll.rs:724-728, 817-822).  [num - 1] of line 250 panics on 0 in a build with
    overflow checks. *)
Definition poll_turn (s : fds) (ans : poll_answer) (flag : bool) (order : list Z) : turn * fds :=
  match ans with
  | PollErr e => (TErr e, s)
  | PollRet rs num =>
      let pfds := kernel_write (poll_fds s) rs in
      let s1 := Fds pfds (fd_data s) in
      match pfds !! 0 with
      | None => (TPanic, s1)
      | Some pf0 =>
          let notified := negb (is_empty (pfd_revents pf0)) in
          if notified && bool_decide (num = 0) then (TPanic, s1)
          else
            let num_fd_events := if notified then num - 1 else num in
            if negb flag && bool_decide (num_fd_events = 0) && notified then (TAgain, s1)
            else if bool_decide (num_fd_events = 0) then (TDone [], s1)
            else
              match store_events order num_fd_events (fd_data s) pfds [] with
              | None => (TPanic, s1)
              | Some (pfds', evs) => (TDone evs, Fds pfds' (fd_data s))
              end
      end
  end.

(** What happens to one call of wait, turn by turn, as seen from this thread: before each
    poll(2) call it finds itself notified (line 222) and returns what pop_notification
    returned; or it calls poll(2) at clock reading [now].  Between turns other threads may
    have changed the table through add, modify and delete ([change]). *)
Inductive wait_event :=
| WNotified (r : res unit)
| WPoll (now : instant) (ans : poll_answer) (flag : bool) (order : list Z)
| WChange (s' : fds).

(** Result of a (possibly unfinished: [None]) wait: the stored events, the table, and the
    timeouts passed to poll(2). *)
(** src/poll.rs:205-300. *)
Record poll_wait_out := PollWaitOut {
  pw_res : option (res unit);
  pw_events : list (Z * event N);
  pw_fds : fds;
  pw_timeouts : list Z
}.

(** src/poll.rs:219-299, the outer loop. *)
Fixpoint poll_wait_loop (deadline : option instant) (evs : list wait_event) (s : fds)
  : poll_wait_out :=
  match evs with
  | [] => PollWaitOut None [] s []
  | WNotified r :: _ => PollWaitOut (Some r) [] s []
  | WChange s' :: rest => poll_wait_loop deadline rest s'
  | WPoll now ans flag order :: rest =>
      let t := poll_timeout_ms deadline now in
      match poll_turn s ans flag order with
      | (TAgain, s1) =>
          let o := poll_wait_loop deadline rest s1 in
          PollWaitOut (pw_res o) (pw_events o) (pw_fds o) (t :: pw_timeouts o)
      | (TDone e, s1) => PollWaitOut (Some (Ok tt)) e s1 [t]
      | (TErr e, s1) => PollWaitOut (Some (Err e)) [] s1 [t]
      | (TPanic, s1) => PollWaitOut (Some Panic) [] s1 [t]
      end
  end.

(** src/poll.rs:205-300 [wait]: the container is cleared first (line 215), so what it held
    before is lost. *)
Definition poll_wait (imax start : instant) (timeout : option duration) (evs : list wait_event)
  (s : fds) (c : container N) : res unit * container N * fds * list Z :=
  let o := poll_wait_loop (deadline_of imax start timeout) evs s in
  (match pw_res o with Some r => r | None => Ok tt end,
   ev_clear c ++ map snd (pw_events o), pw_fds o, pw_timeouts o).
