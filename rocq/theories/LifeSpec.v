(** Words for the properties of making and dropping pollers. *)
From stdpp Require Import prelude list gmap.
From Verif Require Import Types LifeModel.
Local Open Scope nat_scope.

(** Nothing watches or is watched that is not open: the kernel's part. *)
Definition sane (w : world) : Prop :=
  forall x, is_Some (regs w !! x) -> is_Some (opened w !! x.1) /\ forall n, x.2 = Some n -> is_Some (opened w !! n).

(** The descriptors a poller owns. *)
Definition own (p : poller) : list nat :=
  match p with
  | PEpoll ep no timer => ep :: notifier_fds no ++ match timer with Some t => [t] | None => [] end
  | PKqueue kq st => kq :: pair_fds st
  | PPort n | PIocp n => [n]
  | PPoll no => notifier_fds no
  end.
(** The one that is read when the poller is woken up, if there is one. *)
Definition read_end (p : poller) : option nat :=
  match p with
  | PEpoll _ no _ | PPoll no => Some (notifier_fd no)
  | PKqueue _ st => match st with Some (r, _) => Some r | None => None end
  | PPort _ | PIocp _ => None
  end.

(** What a new poller watches: its wake-up channel and, without interest, its timer. *)
Definition own_entries (p : poller) : gmap entry (event unit * poll_mode) :=
  match p with
  | PEpoll ep no timer =>
      <[(ep, Some (notifier_fd no)) := (Ev NOTIFY_KEY true false tt, Oneshot)]>
        match timer with Some t => {[(ep, Some t) := (Ev NOTIFY_KEY false false tt, Oneshot)]} | None => ∅ end
  | PKqueue kq (Some (r, _)) => {[(kq, Some r) := (Ev NOTIFY_KEY true false tt, Oneshot)]}
  | PKqueue kq None => {[(kq, None) := (Ev NOTIFY_KEY true false tt, Edge)]}   (* EVFILT_USER, cleared when reported *)
  | PPort _ | PPoll _ | PIocp _ => ∅
  end.

(** System calls a poller can do without: another way is tried when they are refused. *)
Definition dispensable (f : flavour) (c : kcall) : Prop :=
  match c with
  | TimerfdCreate | CtlDel => True
  | Eventfd => f = Linux
  | Pipe2 => True
  | _ => False
  end.

(** How the refusal [x] of the call [c] shows: as it is, but for the two tests that say whether completion ports can be used. *)
Definition shown_as (c : kcall) (x : errno) (e : io_error) : Prop :=
  match c with
  | LoadNtdll | OpenAfd => e = ESimple KUnsupported
  | _ => e = EOs x
  end.

(** Histories of a process that starts with the descriptors [l]. *)
Inductive history (l : list nat) (sc : nat -> answer) : process -> Prop :=
| hist_start : history l sc (Process (World (list_to_map (map (fun n => (n, Desc KUser false false)) l)) ∅ sc 0 [] []) l [])
| hist_act s a s' : history l sc s -> act s a = Some s' -> history l sc s'.
Definition alive (s : process) (p : poller) : Prop := exists i : nat, pollers s !! i = Some (Some p).
