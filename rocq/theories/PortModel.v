(** Model of src/port.rs on top of a Solaris-like event port.  Every method of the poller is one
    system call, so one step is one call of any thread or one event in the outside world, and
    the histories of this model are the interleavings of any number of threads. *)
From stdpp Require Import prelude list gmap.
From Verif Require Import Bits Types EventModel.
Local Open Scope nat_scope.

(* ------------------------------------------------------------------ *)
(** ** The kernel (uts/common/fs/portfs), which is not part of /repo: trusted *)

(** An association: events word and user value, and the events that fired but have not been
    retrieved. *)
(** Not in /repo. *)
Record assoc := Assoc { as_events : N; as_user : N; as_fired : N }.
(** What can be in the queue of an event port; not in /repo. *)
Inductive item := IFd (fd : Z) | IUser (events user : N).
Global Instance item_eq_dec : EqDecision item.
Proof. solve_decision. Defined.

(** Associations, the queue of events to retrieve, and the readiness of all open files.
    Simplification: files are identified by their descriptors. *)
(** Not in /repo. *)
Record kernel := Kernel { assocs : gmap Z assoc; queue : list item; masks : gmap Z N }.
(** Not in /repo. *)
Definition ready (k : kernel) (fd : Z) : N := default 0%N (masks k !! fd).

(** POLLERR, POLLHUP and POLLNVAL cannot be masked. Not in /repo. *)
Definition ALWAYS : N := N.lor (N.lor POLLERR POLLHUP) POLLNVAL.
(** Not in /repo. *)
Definition matching (events m : N) : N := N.land m (N.lor events ALWAYS).

(** Not in /repo. *)
Definition unqueue (l : list item) (fd : Z) : list item :=
  List.filter (fun x => bool_decide (x <> IFd fd)) l.

(** Something happened to the file: record it, and queue the association if it is not queued. Not in /repo. *)
Definition fire (k : kernel) (fd : Z) (m : N) : kernel :=
  match assocs k !! fd with
  | None => k
  | Some a =>
      let hit := matching (as_events a) m in
      if is_empty hit then k
      else Kernel (<[fd := Assoc (as_events a) (as_user a) (N.lor (as_fired a) hit)]> (assocs k))
                  (if is_empty (as_fired a) then queue k ++ [IFd fd] else queue k)
                  (masks k)
  end.

(** port_associate: replaces an earlier association and what it had fired; fires at once if the
    file is ready. *)
(** Called at src/port.rs:80. *)
Definition associate (k : kernel) (fd : Z) (events user : N) (fault : option errno) : res unit * kernel :=
  match fault with
  | Some e => (Err (EOs e), k)
  | None =>
      (Ok tt, fire (Kernel (<[fd := Assoc events user 0]> (assocs k)) (unqueue (queue k) fd) (masks k))
                fd (ready k fd))
  end.

(** Not in /repo. *)
Definition forget (k : kernel) (fd : Z) : kernel :=
  Kernel (delete fd (assocs k)) (unqueue (queue k) fd) (masks k).

(** port_dissociate: the answer. Called at src/port.rs:95. *)
Definition dissociate (k : kernel) (fd : Z) (fault : option errno) : option errno * kernel :=
  match fault with
  | Some e => (Some e, k)
  | None =>
      match assocs k !! fd with
      | Some _ => (None, forget k fd)
      | None => (Some ENOENT, k)
      end
  end.

(** port_send. Called at src/port.rs:147. *)
Definition send (k : kernel) (events user : N) : kernel :=
  Kernel (assocs k) (queue k ++ [IUser events user]) (masks k).

(** A retrieved event: whose it is (not visible to the program), its events and user value. Read at src/port.rs:191-201. *)
Record report := Report { rp_item : item; rp_events : N; rp_user : N }.
(** Not in /repo. *)
Definition report_of (k : kernel) (x : item) : report :=
  match x with
  | IFd fd =>
      match assocs k !! fd with
      | Some a => Report x (as_fired a) (as_user a)
      | None => Report x 0 0
      end
  | IUser e u => Report x e u
  end.
(** Retrieving an event ends its association. Not in /repo. *)
Definition retrieve (as' : gmap Z assoc) (x : item) : gmap Z assoc :=
  match x with IFd fd => delete fd as' | IUser _ _ => as' end.

(** port_getn with room for [max] events. Called at src/port.rs:116. *)
Definition getn (k : kernel) (max : nat) : list report * kernel :=
  (map (report_of k) (take max (queue k)),
   Kernel (foldl retrieve (assocs k) (take max (queue k))) (drop max (queue k)) (masks k)).

(* ------------------------------------------------------------------ *)
(** ** The poller *)

(** src/port.rs:56-84 *)
Definition modify (k : kernel) (fd : Z) (e : event N) (m : poll_mode) (fault : option errno)
  : res unit * kernel :=
  match m with
  | Oneshot => associate k fd (port_interest e) (key_to_u64 (ev_key e)) fault
  | _ => (Err (ESimple KUnsupported), k)
  end.

(** src/port.rs:49-53 *)
Definition add (k : kernel) (fd : Z) (e : event N) (m : poll_mode) (fault : option errno) := modify k fd e m fault.

(** src/port.rs:87-104 *)
Definition delete_fd (k : kernel) (fd : Z) (fault : option errno) : res unit * kernel :=
  let (a, k') := dissociate k fd fault in
  (match a with None | Some ENOENT => Ok tt | Some e => Err (EOs e) end, k').

(** src/port.rs:137-150: port_send takes (port, events, user); the first of the two values passed
    is PORT_SOURCE_USER = 3. *)
Definition notify (k : kernel) (fault : option errno) : res unit * kernel :=
  match fault with
  | Some e => (Err (EOs e), k)
  | None => (Ok tt, send k 3 (key_to_u64 NOTIFY_KEY))
  end.

(** src/port.rs:191-201 on a 64-bit target, tagged with whose event it is. *)
Definition to_event (r : report) : item * event N :=
  (rp_item r, port_to_event 64 (rp_user r) (rp_events r)).

(** What port_getn does: it returns when there is something to retrieve, fails with ETIME if the
    timeout elapses, or fails for another reason. *)
(** src/port.rs:116-131. *)
Inductive outcome := GEvents | GFail (e : errno).

(** src/port.rs:107-134.  [None]: port_getn goes on waiting. *)
Definition wait (k : kernel) (max : nat) (o : outcome)
  : option (res unit * list (item * event N) * kernel) :=
  match o with
  | GFail ETIME => Some (Ok tt, [], k)
  | GFail e => Some (Err (EOs e), [], k)
  | GEvents =>
      if decide (queue k = []) then None
      else let (b, k') := getn k max in Some (Ok tt, map to_event b, k')
  end.

(** The history that the statements are about: results of src/port.rs:50, 56, 87, 107, 137, and what happens outside. *)
Inductive obs :=
| AddRet (fd : Z) (e : event N) (m : poll_mode) (r : res unit)
| ModifyRet (fd : Z) (e : event N) (m : poll_mode) (r : res unit)
| DeleteRet (fd : Z) (r : res unit)
| NotifyRet (r : res unit)
| Happened (fd : Z) (m : N)
| Closed (fd : Z)
| WaitRet (o : outcome) (r : res unit) (b : list (item * event N)).

(** src/port.rs:14-18 is one descriptor: the state is that of the kernel. *)
Record state := State { kern : kernel; log : list obs }.
(** src/port.rs:22-33. *)
Definition init : state := State (Kernel ∅ [] ∅) [].

(** Calls of src/port.rs:50, 56, 87, 107, 137, and what happens outside. *)
Inductive label :=
| LAdd (fd : Z) (e : event N) (m : poll_mode) (fault : option errno)
| LModify (fd : Z) (e : event N) (m : poll_mode) (fault : option errno)
| LDelete (fd : Z) (fault : option errno)
| LNotify (fault : option errno)
| LHappen (fd : Z) (m : N)       (* the readiness of the file becomes [m] *)
| LClose (fd : Z)
| LWait (max : nat) (o : outcome).

(** src/port.rs:50-150, one call each. *)
Definition step (s : state) (l : label) : option state :=
  let k := kern s in
  match l with
  | LAdd fd e m f => let (r, k') := add k fd e m f in Some (State k' (log s ++ [AddRet fd e m r]))
  | LModify fd e m f => let (r, k') := modify k fd e m f in Some (State k' (log s ++ [ModifyRet fd e m r]))
  | LDelete fd f => let (r, k') := delete_fd k fd f in Some (State k' (log s ++ [DeleteRet fd r]))
  | LNotify f => let (r, k') := notify k f in Some (State k' (log s ++ [NotifyRet r]))
  | LHappen fd m =>
      Some (State (fire (Kernel (assocs k) (queue k) (<[fd:=m]> (masks k))) fd m) (log s ++ [Happened fd m]))
  | LClose fd =>
      let k1 := forget k fd in
      Some (State (Kernel (assocs k1) (queue k1) (delete fd (masks k1))) (log s ++ [Closed fd]))
  | LWait max o =>
      match wait k max o with
      | Some (r, b, k') => Some (State k' (log s ++ [WaitRet o r b]))
      | None => None
      end
  end.

(** A sequence of steps; not in /repo. *)
Fixpoint run (s : state) (ls : list label) : option state :=
  match ls with
  | [] => Some s
  | l :: r => match step s l with Some s' => run s' r | None => None end
  end.
