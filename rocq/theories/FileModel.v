(** Which file a registration belongs to, when descriptors are closed, duplicated and used again.
    src/lib.rs:499-503, 541-545: "Safety: The source must be delete()d from this Poller before it is dropped."
    The models of the backends (EpollModel, PollModel, KqueueModel, PortModel) identify a source with its number.  Here
    files and descriptors are separate.  One registration has a key and nothing else: interests, modes and readiness are
    left out, and a wait may report any registration at any time (more than the systems allow, so that nothing is
    missed). *)
From stdpp Require Import prelude list gmap.
From Verif Require Import Types EventModel.
Local Open Scope nat_scope.

(** src/epoll.rs, src/poll.rs, src/kqueue.rs, src/port.rs. *)
Inductive backend := Epoll | Poll | Kqueue | Ports.

(** [fds]: the open descriptors and their files, numbered in the order in which they were opened.
    [regs]: the registrations.  epoll (fs/eventpoll.c, ep_find) looks for the pair of descriptor and file; the other
    systems go by the number, and the second component is 0.
    [sources]: src/kqueue.rs:18-24, the set of sources; unused by the others. *)
Record state := State { fds : gmap Z nat; next : nat; regs : gmap (Z * nat) N; sources : gset Z }.
(** A poller just made: src/epoll.rs:41-86, src/poll.rs:70-89, src/kqueue.rs:51-71, src/port.rs:22-33; its own descriptors are left out. *)
Definition init : state := State ∅ 0 ∅ ∅.

(** How the systems find a registration; not in /repo. *)
Definition ident (b : backend) (fd : Z) (f : nat) : Z * nat := (fd, match b with Epoll => f | _ => 0 end).
(** Bookkeeping of the model: a registration is made or replaced. No code of its own. *)
Definition set_reg (s : state) (i : Z * nat) (k : N) : state := State (fds s) (next s) (<[i := k]> (regs s)) (sources s).
(** Bookkeeping of the model: a registration is removed. No code of its own. *)
Definition del_reg (s : state) (i : Z * nat) : state := State (fds s) (next s) (delete i (regs s)) (sources s).
(** Bookkeeping of the model: the set of src/kqueue.rs:18-24 changes. No code of its own. *)
Definition set_sources (s : state) (x : gset Z) : state := State (fds s) (next s) (regs s) x.

(** src/epoll.rs:104-121 (EPOLL_CTL_ADD), src/poll.rs:102-138, src/kqueue.rs:87-92 (the source is entered first),
    src/port.rs:50-53.  [fault]: the system call fails for a reason of its own (not one of those the code ignores).  The
    tests for the poller's own descriptors, and the poll backend's for the mode, are left out. *)
Definition add (b : backend) (s : state) (fd : Z) (k : N) (fault : option errno) : res unit * state :=
  match b with
  | Epoll =>
      match fault, fds s !! fd with
      | Some e, _ => (Err (EOs e), s)
      | None, None => (Err (EOs EBADF), s)
      | None, Some f =>
          match regs s !! (fd, f) with
          | Some _ => (Err (EOs EEXIST), s)
          | None => (Ok tt, set_reg s (fd, f) k)
          end
      end
  | Poll =>
      match regs s !! (fd, 0) with
      | Some _ => (Err (ESimple KAlreadyExists), s)
      | None => (Ok tt, set_reg s (fd, 0) k)
      end
  | Kqueue =>
      if decide (fd ∈ sources s) then (Err (ESimple KAlreadyExists), s)
      else
        let s1 := set_sources s ({[fd]} ∪ sources s) in
        match fault, fds s !! fd with
        | Some e, _ => (Err (EOs e), s1)
        | None, None => (Err (EOs EBADF), s1)
        | None, Some _ => (Ok tt, set_reg s1 (fd, 0) k)
        end
  | Ports =>
      match fault, fds s !! fd with
      | Some e, _ => (Err (EOs e), s)
      | None, None => (Err (EOs EBADF), s)
      | None, Some _ => (Ok tt, set_reg s (fd, 0) k)
      end
  end.

(** src/epoll.rs:124-141 (EPOLL_CTL_MOD), src/poll.rs:141-172, src/kqueue.rs:95-174, src/port.rs:56-84. *)
Definition modify (b : backend) (s : state) (fd : Z) (k : N) (fault : option errno) : res unit * state :=
  match b with
  | Epoll =>
      match fault, fds s !! fd with
      | Some e, _ => (Err (EOs e), s)
      | None, None => (Err (EOs EBADF), s)
      | None, Some f =>
          match regs s !! (fd, f) with
          | Some _ => (Ok tt, set_reg s (fd, f) k)
          | None => (Err (EOs ENOENT), s)
          end
      end
  | Poll =>
      match regs s !! (fd, 0) with
      | Some _ => (Ok tt, set_reg s (fd, 0) k)
      | None => (Err (ESimple KNotFound), s)
      end
  | Kqueue =>
      if decide (fd ∈ sources s) then
        match fault, fds s !! fd with
        | Some e, _ => (Err (EOs e), s)
        | None, None => (Err (EOs EBADF), s)
        | None, Some _ => (Ok tt, set_reg s (fd, 0) k)
        end
      else (Err (ESimple KNotFound), s)
  | Ports =>
      match fault, fds s !! fd with
      | Some e, _ => (Err (EOs e), s)
      | None, None => (Err (EOs EBADF), s)
      | None, Some _ => (Ok tt, set_reg s (fd, 0) k)
      end
  end.

(** src/epoll.rs:144-155 (EPOLL_CTL_DEL), src/poll.rs:175-202, src/kqueue.rs:221-229 (the source is taken out if the kernel
    has accepted the removal; a missing filter counts as removed), src/port.rs:87-104 (ENOENT counts as removed). *)
Definition delete (b : backend) (s : state) (fd : Z) (fault : option errno) : res unit * state :=
  match b with
  | Epoll =>
      match fault, fds s !! fd with
      | Some e, _ => (Err (EOs e), s)
      | None, None => (Err (EOs EBADF), s)
      | None, Some f =>
          match regs s !! (fd, f) with
          | Some _ => (Ok tt, del_reg s (fd, f))
          | None => (Err (EOs ENOENT), s)
          end
      end
  | Poll =>
      match regs s !! (fd, 0) with
      | Some _ => (Ok tt, del_reg s (fd, 0))
      | None => (Err (ESimple KNotFound), s)
      end
  | Kqueue =>
      if decide (fd ∈ sources s) then
        match fault, fds s !! fd with
        | Some e, _ => (Err (EOs e), s)
        | None, None => (Err (EOs EBADF), s)
        | None, Some _ => (Ok tt, set_sources (del_reg s (fd, 0)) (sources s ∖ {[fd]}))
        end
      else (Err (ESimple KNotFound), s)
  | Ports =>
      match fault, fds s !! fd with
      | Some e, _ => (Err (EOs e), s)
      | None, None => (Err (EOs EBADF), s)
      | None, Some _ => (Ok tt, del_reg s (fd, 0))
      end
  end.

(** Does any descriptor refer to the file?. Not in /repo. *)
Definition held (m : gmap Z nat) (f : nat) : bool := existsb (fun r => Nat.eqb r.2 f) (map_to_list m).
(** close(2).  epoll forgets a file when its last descriptor is closed (eventpoll_release); kqueue and event ports forget
    what they know about the number (knote_fdclose; port_close_fd); the table of the poll backend is not touched. *)
(** Not in /repo. *)
Definition close (b : backend) (s : state) (fd : Z) : state :=
  match fds s !! fd with
  | None => s
  | Some f =>
      let m := base.delete fd (fds s) in
      State m (next s)
        (match b with
         | Epoll => if held m f then regs s else filter (fun r => r.1.2 <> f) (regs s)
         | Poll => regs s
         | Kqueue | Ports => base.delete (fd, 0) (regs s)
         end) (sources s)
  end.

(** The history that the statements are about: opens and closes of the program, results of src/lib.rs:548, 653, 688 and what src/lib.rs:731 puts into the container. *)
Inductive obs :=
| Opened (fd : Z) (f : nat)      (* also by duplication *)
| Closed (fd : Z)
| AddRet (fd : Z) (k : N) (r : res unit)
| ModifyRet (fd : Z) (k : N) (r : res unit)
| DeleteRet (fd : Z) (r : res unit)
| Got (k : N) (fd : Z) (f : option nat).
    (* wait returned an event with this key; the registration was made for the number [fd], the readiness is that of file
       [f] ([None]: of no file, POLLNVAL) *)

(** What happens next: the program opens, duplicates or closes a descriptor, calls one of src/lib.rs:548, 653, 688, or a wait (src/lib.rs:731) reports. *)
Inductive label :=
| LOpen (fd : Z) | LDup (fd fd' : Z) | LClose (fd : Z)
| LAdd (fd : Z) (k : N) (fault : option errno)
| LModify (fd : Z) (k : N) (fault : option errno)
| LDelete (fd : Z) (fault : option errno)
| LReport (i : Z * nat).

(** poll(2) looks the number up when it is called; kqueue and event ports hold the file the number had.
    The calls are [add], [modify] and [delete] above (src/epoll.rs:104-155 and so on); the rest is not in /repo. *)
Definition step (b : backend) (s : state) (l : label) : option (state * obs) :=
  match l with
  | LOpen fd =>
      match fds s !! fd with
      | Some _ => None
      | None => Some (State (<[fd := next s]> (fds s)) (S (next s)) (regs s) (sources s), Opened fd (next s))
      end
  | LDup fd fd' =>
      match fds s !! fd, fds s !! fd' with
      | Some f, None => Some (State (<[fd' := f]> (fds s)) (next s) (regs s) (sources s), Opened fd' f)
      | _, _ => None
      end
  | LClose fd => match fds s !! fd with Some _ => Some (close b s fd, Closed fd) | None => None end
  | LAdd fd k x => let (r, s') := add b s fd k x in Some (s', AddRet fd k r)
  | LModify fd k x => let (r, s') := modify b s fd k x in Some (s', ModifyRet fd k r)
  | LDelete fd x => let (r, s') := delete b s fd x in Some (s', DeleteRet fd r)
  | LReport (fd, f) =>
      match regs s !! (fd, f) with
      | Some k => Some (s, Got k fd (match b with Epoll => Some f | _ => fds s !! fd end))
      | None => None
      end
  end.

(** A state and what has happened so far. Not in /repo. *)
Inductive run (b : backend) : state -> list obs -> Prop :=
| run_init : run b init []
| run_step s h l s' o : run b s h -> step b s l = Some (s', o) -> run b s' (h ++ [o]).
