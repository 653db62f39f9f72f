(** Model of the memory that the completion-port backend shares with the kernel: the request and the answer of a poll
    (src/iocp/afd.rs:30-76, 445-497) and the block that a completion points to (src/iocp/afd.rs:570-588).
    Memory is a list of bytes; integers are little-endian. *)
From stdpp Require Import prelude list.
From Verif Require Import Types.
Local Open Scope nat_scope.

(** ** #[repr(C)] (The Rust Reference, "The C representation") *)

(** The Rust Reference; applied to src/iocp/afd.rs:30-56, 570-588. *)
Record field := Field { f_size : nat; f_align : nat }.
(** The next multiple of [a]. The Rust Reference; applied to src/iocp/afd.rs:30-56, 570-588. *)
Definition round_up (n a : nat) : nat := (n + (a - 1)) / a * a.
(** The offsets of the fields when the first [cur] bytes are taken, and where the last one ends.
    The Rust Reference; applied to src/iocp/afd.rs:30-56, 570-588. *)
Fixpoint place (cur : nat) (fs : list field) : list nat * nat :=
  match fs with
  | [] => ([], cur)
  | f :: r =>
      let o := round_up cur (f_align f) in
      let (os, e) := place (o + f_size f) r in (o :: os, e)
  end.
(** The Rust Reference; applied to src/iocp/afd.rs:30-56, 570-588. *)
Definition offsets (fs : list field) : list nat := (place 0 fs).1.
(** The Rust Reference; applied to src/iocp/afd.rs:30-56, 570-588. *)
Definition struct_align (fs : list field) : nat := fold_right (fun f a => max (f_align f) a) 1 fs.
(** The Rust Reference; applied to src/iocp/afd.rs:30-56, 570-588. *)
Definition struct_size (fs : list field) : nat := round_up (place 0 fs).2 (struct_align fs).
(** The Rust Reference; applied to src/iocp/afd.rs:30-56, 570-588. *)
Definition struct_field (fs : list field) : field := Field (struct_size fs) (struct_align fs).
(** Of the field at position [k]. The Rust Reference; applied to src/iocp/afd.rs:30-56, 570-588. *)
Definition offset (fs : list field) (k : nat) : nat := default 0 (offsets fs !! k).

(** ** Bytes *)

(** Little-endian bytes of a number; not in /repo. *)
Fixpoint le (n : nat) (v : N) : list N := match n with 0 => [] | S m => (v mod 256)%N :: le m (v / 256)%N end.
(** The number; not in /repo. *)
Fixpoint unle (l : list N) : N := match l with [] => 0%N | b :: r => (b + 256 * unle r)%N end.
(** An assignment to a field, as at src/iocp/afd.rs:460-465. *)
Definition write (o n : nat) (v : N) (buf : list N) : list N := list_inserts o (le n v) buf.
(** A read of a field, as at src/iocp/afd.rs:69-75. *)
Definition read (o n : nat) (buf : list N) : N := unle (take n (drop o buf)).

(** ** The request (src/iocp/afd.rs:30-56); [w]: the size of a pointer, 4 or 8 *)

(** A type of src/iocp/afd.rs:34. *)
Definition i64 : field := Field 8 8.
(** A type of src/iocp/afd.rs:37, 40, 52, 55. *)
Definition u32 : field := Field 4 4.
(** HANDLE of src/iocp/afd.rs:49. *)
Definition pointer (w : nat) : field := Field w w.
(** AfdPollHandleInfo: handle, events, status. src/iocp/afd.rs:46-56. *)
Definition handle_info (w : nat) : list field := [pointer w; u32; u32].
(** AfdPollInfo: timeout, handle_count, exclusive, handles (an array of one). src/iocp/afd.rs:30-44. *)
Definition poll_info (w : nat) : list field := [i64; u32; u32; struct_field (handle_info w)].
(** handles[0].x. src/iocp/afd.rs:463-465, 74. *)
Definition in_handle (w k : nat) : nat := offset (poll_info w) 3 + offset (handle_info w) k.

(** src/iocp/afd.rs:460-465: the assignments, in order. *)
Definition fill (w : nat) (socket mask : N) (buf : list N) : list N :=
  let b1 := write (offset (poll_info w) 2) 4 0 buf in
  let b2 := write (offset (poll_info w) 1) 4 1 b1 in
  let b3 := write (offset (poll_info w) 0) 8 9223372036854775807 b2 in
  let b4 := write (in_handle w 0) w socket b3 in
  let b5 := write (in_handle w 2) 4 0 b4 in
  write (in_handle w 1) 4 mask b5.
(** src/iocp/afd.rs:485-488: the length given to the kernel for request and answer. *)
Definition buffer_length (w : nat) : nat := struct_size (poll_info w).
(** src/iocp/afd.rs:69-75 *)
Definition handle_count (w : nat) (buf : list N) : N := read (offset (poll_info w) 1) 4 buf.
(** src/iocp/afd.rs:73-75. *)
Definition events (w : nat) (buf : list N) : N := read (in_handle w 1) 4 buf.

(** ** The block (src/iocp/afd.rs:570-588): IO_STATUS_BLOCK (a union of a status and a pointer, and a pointer-sized
    integer), [in_use], and the data, of which size and alignment are not known *)

(** Of the crate windows-sys, used at src/iocp/afd.rs:575. *)
Definition status_block (w : nat) : list field := [pointer w; pointer w].
(** src/iocp/afd.rs:570-588. *)
Definition block (w : nat) (data : field) : list field := [struct_field (status_block w); Field 1 1; data].
