(** Model of src/iocp/afd.rs:173-315 and 536-568: the functions of ntdll, looked up once for the whole process by
    whichever thread needs them first.  Any number of threads, one step for every system call, every access of the
    cell and every transition of its [Once]. *)
From stdpp Require Import prelude list.
From Verif Require Import Types.
Local Open Scope nat_scope.

(** The functions, in the order of src/iocp/afd.rs:221-271. *)
Inductive name := NtCancelIoFileEx | NtCreateFile | NtDeviceIoControlFile | RtlNtStatusToDosError.
(** src/iocp/afd.rs:221-271. *)
Definition names : list name := [NtCancelIoFileEx; NtCreateFile; NtDeviceIoControlFile; RtlNtStatusToDosError].

(** GetModuleHandleW (line 298), GetProcAddress (line 196), and an address or the error. *)
Inductive query := Module | Proc (f : name).
(** What the two return; not in /repo. *)
Inductive answer := Found (a : N) | Refused (e : errno).

(** What the cell holds: [io::Result<NtdllImports>], the addresses in the order of [names]. src/iocp/afd.rs:536-542. *)
Definition cell : Type := list N + io_error.

(** Where a thread is in [get] (274-309): outside; at [call_once] (561); asking for the module (298); asking for
    the next function, having found some (305, 191-206); writing the value (563); leaving the closure (564); reading
    the value (566). *)
(** Lines of src/iocp/afd.rs. *)
Inductive pc := Out | Enter | AskModule | AskNext (fs : list N) | Store (v : cell) | Leave | Read.

(** What happens, in order.  [Got]: [get] returned; without a result if the cell had not been written.
    The history that the statements are about; not in /repo. *)
Inductive obs :=
| Called (i : nat)
| Asked (q : query) (a : answer)
| Got (i : nat) (r : option (res (list N))).

(** std::sync::Once: the closure is run by one thread, the others wait for it (trusted). Used at src/iocp/afd.rs:561. *)
Inductive once := Incomplete | Running | Complete.

(** src/iocp/afd.rs:536-542 and the threads. *)
Record state := St { flag : once; value : option cell; threads : list pc; log : list obs }.
(** src/iocp/afd.rs:549-554. *)
Definition start (n : nat) : state := St Incomplete None (replicate n Out) [].

(** Bookkeeping of the model: a thread moves. No code of its own. *)
Definition set_pc (s : state) (i : nat) (p : pc) : state := St (flag s) (value s) (<[i:=p]> (threads s)) (log s).
(** Bookkeeping of the model: the history grows. No code of its own. *)
Definition say (s : state) (o : obs) : state := St (flag s) (value s) (threads s) (log s ++ [o]).
(** Bookkeeping of the model: the Once changes. No code of its own. *)
Definition set_flag (s : state) (f : once) : state := St f (value s) (threads s) (log s).
(** Bookkeeping of the model: the cell is written. No code of its own. *)
Definition set_value (s : state) (v : cell) : state := St (flag s) (Some v) (threads s) (log s).

(** Lines 307-308: .as_ref().map_err(|e| io::Error::from(e.kind())). Of src/iocp/afd.rs. *)
Definition given (v : cell) : res (list N) := match v with inl fs => Ok fs | inr e => Err (ESimple (kind e)) end.

(** A call begins, or thread [i] takes its next step; [a] is what the system answers if it is asked. Not in /repo. *)
Inductive label := LCall (i : nat) | LGo (i : nat) (a : answer).
(** src/iocp/afd.rs:191-206, 274-309, 557-567, as in [pc]. *)
Definition thread_step (s : state) (i : nat) (p : pc) (a : answer) : option state :=
  match p with
  | Out => None
  | Enter =>
      match flag s with
      | Incomplete => Some (set_pc (set_flag s Running) i AskModule)
      | Running => None
      | Complete => Some (set_pc s i Read)
      end
  | AskModule =>
      Some (say (set_pc s i (match a with Found _ => AskNext [] | Refused e => Store (inr (EOs e)) end)) (Asked Module a))
  | AskNext fs =>
      match names !! length fs with
      | Some f => Some (say (set_pc s i (match a with Found x => AskNext (fs ++ [x]) | Refused e => Store (inr (EOs e)) end)) (Asked (Proc f) a))
      | None => Some (set_pc s i (Store (inl fs)))
      end
  | Store v => Some (set_pc (set_value s v) i Leave)
  | Leave => Some (set_pc (set_flag s Complete) i Read)
  | Read => Some (say (set_pc s i Out) (Got i (given <$> value s)))
  end.
(** src/iocp/afd.rs:274-309, as in [pc]. *)
Definition step (s : state) (l : label) : option state :=
  match l with
  | LCall i => match threads s !! i with Some Out => Some (say (set_pc s i Enter) (Called i)) | _ => None end
  | LGo i a => p ← threads s !! i; thread_step s i p a
  end.
(** A sequence of steps; not in /repo. *)
Fixpoint run (s : state) (ls : list label) : option state :=
  match ls with
  | [] => Some s
  | l :: r => match step s l with Some s' => run s' r | None => None end
  end.
