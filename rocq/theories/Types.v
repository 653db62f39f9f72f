(** Types shared by all parts of the model. *)
From Coq Require Import NArith ZArith Bool List.
Import ListNotations.

(** Operating-system error codes that the crate distinguishes; [EOTHER n] stands for all
    the others.  (rustix::io::Errno, io::Error::from_raw_os_error) *)
Inductive errno :=
| EINTR | EAGAIN | EEXIST | ENOENT | EINVAL | EPIPE | ETIME | ENOSPC | EBADF | EPERM
| EOTHER (n : N).

(** std::io::ErrorKind, the kinds the crate creates or inspects. *)
Inductive err_kind :=
| KInterrupted | KWouldBlock | KInvalidInput | KAlreadyExists | KNotFound | KUnsupported
| KOther.

(** io::Error: either made from a kind (io::Error::new / from(ErrorKind)) or from a raw
    operating-system code. *)
Inductive io_error :=
| ESimple (k : err_kind)
| EOs (e : errno).

(** std's decode_error_kind for the codes above. *)
Definition kind (e : io_error) : err_kind :=
  match e with
  | ESimple k => k
  | EOs EINTR => KInterrupted
  | EOs EAGAIN => KWouldBlock
  | EOs EEXIST => KAlreadyExists
  | EOs ENOENT => KNotFound
  | EOs EINVAL => KInvalidInput
  | EOs _ => KOther
  end.

(** io::Result plus the possibility of a panic. *)
Inductive res (A : Type) :=
| Ok (a : A)
| Err (e : io_error)
| Panic.
Arguments Ok {A} a.
Arguments Err {A} e.
Arguments Panic {A}.

Definition is_ok {A} (r : res A) : bool := match r with Ok _ => true | _ => false end.
Definition is_panic {A} (r : res A) : bool := match r with Panic => true | _ => false end.

(** src/lib.rs:143-182 [PollMode]. *)
Inductive poll_mode := Oneshot | Level | Edge | EdgeOneshot.

(** src/lib.rs:129-138 [Event]; [X] is the platform's [sys::EventExtra].  Keys are [usize],
    represented by [N]. *)
Record event (X : Type) := Ev {
  ev_key : N;
  ev_readable : bool;
  ev_writable : bool;
  ev_extra : X
}.
Arguments Ev {X}.
Arguments ev_key {X}.
Arguments ev_readable {X}.
Arguments ev_writable {X}.
Arguments ev_extra {X}.

(** usize::MAX on a 64-bit target. *)
Definition usize_max : N := 18446744073709551615%N.

(** src/lib.rs:125 [NOTIFY_KEY]. *)
Definition NOTIFY_KEY : N := usize_max.
