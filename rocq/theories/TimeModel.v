(** Time arithmetic: std::time::Duration/Instant as used by the crate and every conversion of
    a timeout into the form an operating system wants. *)
From Coq Require Import ZArith Bool.
From Verif Require Import Types.
Open Scope Z_scope.

(** Rust's u64::MAX, used at src/poll.rs:239. *)
Definition u64_max : Z := 18446744073709551615.
(** Rust's i64::MAX, the bound of the cast at src/epoll.rs:176. *)
Definition i64_max : Z := 9223372036854775807.
(** Rust's u32::MAX, used at src/iocp/mod.rs:1321-1341. *)
Definition u32_max : Z := 4294967295.
(** Rust's i32::MAX, used at src/epoll.rs:204 and src/poll.rs:243. *)
Definition i32_max : Z := 2147483647.

(** std::time::Duration: whole seconds (u64) and nanoseconds (u32, below 10^9). The argument of src/lib.rs:731. *)
Record duration := Dur { secs : Z; nanos : Z }.

(** The type invariant of std::time::Duration. Not in /repo. *)
Definition wf_duration (d : duration) : Prop :=
  0 <= secs d <= u64_max /\ 0 <= nanos d < 1000000000.

(** Duration::as_millis (u128, cannot overflow). Used at src/epoll.rs:204, src/poll.rs:239. *)
Definition as_millis (d : duration) : Z := secs d * 1000 + nanos d / 1000000.

(** Duration::from_millis (argument is a u64). Used at src/epoll.rs:205, src/poll.rs:240. *)
Definition from_millis (ms : Z) : duration := Dur (ms / 1000) ((ms mod 1000) * 1000000).

(** Derived [PartialOrd] on Duration: lexicographic. Used at src/epoll.rs:205, src/poll.rs:240. *)
Definition dur_ltb (a b : duration) : bool :=
  (secs a <? secs b) || ((secs a =? secs b) && (nanos a <? nanos b)).

(** Used at src/epoll.rs:201. *)
Definition dur_eqb (a b : duration) : bool := (secs a =? secs b) && (nanos a =? nanos b).

(** TryFrom between integer types: [None] if out of range.
    Used at src/epoll.rs:204, src/poll.rs:239, 243, src/iocp/mod.rs:1339. *)
Definition try_into (lo hi x : Z) : option Z :=
  if (lo <=? x) && (x <=? hi) then Some x else None.
(** Option::unwrap_or, Result::unwrap_or; used at src/epoll.rs:204. *)
Definition unwrap_or {A} (o : option A) (d : A) : A := match o with Some x => x | None => d end.

(** Integer saturating_add(1) for an upper bound. Used at src/epoll.rs:206, src/poll.rs:241. *)
Definition sat_add1 (hi x : Z) : Z := if x <? hi then x + 1 else hi.

(** [as i64]: reinterpretation of the low 64 bits as signed. src/epoll.rs:176. *)
Definition as_i64 (x : Z) : Z :=
  let y := x mod 18446744073709551616 in
  if y <=? i64_max then y else y - 18446744073709551616.

(* ------------------------------------------------------------------ *)
(** ** Instants *)

(** std::time::Instant as nanoseconds since the clock's origin.  [imax] is the largest
    representable instant of the platform. *)
(** Used at src/lib.rs:736-741, src/poll.rs:213. *)
Definition instant := Z.

(** Instant on Linux/Unix: i64 seconds + nanoseconds. Not in /repo. *)
Definition unix_instant_max : instant := i64_max * 1000000000 + 999999999.

(** A duration in nanoseconds; not in /repo. *)
Definition dur_nanos (d : duration) : Z := secs d * 1000000000 + nanos d.
(** Its inverse; not in /repo. *)
Definition dur_of_nanos (n : Z) : duration := Dur (n / 1000000000) (n mod 1000000000).

(** Instant::checked_add. Used at src/lib.rs:736, src/poll.rs:213. *)
Definition checked_add (imax : instant) (now : instant) (d : duration) : option instant :=
  let t := now + dur_nanos d in
  if t <=? imax then Some t else None.

(** Instant::saturating_duration_since. Used at src/lib.rs:741, src/poll.rs:236. *)
Definition saturating_duration_since (later earlier : instant) : duration :=
  if earlier <=? later then dur_of_nanos (later - earlier) else Dur 0 0.

(** src/lib.rs:736 and src/poll.rs:213 — the deadline of a wait. *)
Definition deadline_of (imax now : instant) (timeout : option duration) : option instant :=
  match timeout with None => None | Some d => checked_add imax now d end.

(** src/lib.rs:740-741 — the timeout left at clock reading [now]. *)
Definition time_left (deadline : option instant) (now : instant) : option duration :=
  match deadline with
  | None => None
  | Some d => Some (saturating_duration_since d now)
  end.

(* ------------------------------------------------------------------ *)
(** ** epoll *)

(** src/epoll.rs:200-211 — the millisecond argument of epoll_wait. *)
Definition epoll_timeout_ms (has_timerfd : bool) (timeout : option duration) : Z :=
  match has_timerfd, timeout with
  | _, Some t =>
      if dur_eqb t (Dur 0 0) then 0
      else if has_timerfd then -1
      else
        let ms := unwrap_or (try_into (-i32_max - 1) i32_max (as_millis t)) i32_max in
        if dur_ltb (from_millis ms) t then sat_add1 i32_max ms else ms
  | _, None => -1
  end.

(** src/epoll.rs:170-182 — it_value (tv_sec, tv_nsec) of timerfd_settime. *)
Definition epoll_timerfd_value (timeout : option duration) : Z * Z :=
  match timeout with
  | None => (0, 0)
  | Some t => (as_i64 (secs t), nanos t)
  end.

(* ------------------------------------------------------------------ *)
(** ** poll *)

(** src/poll.rs:234-245 — the millisecond argument of poll. *)
Definition poll_timeout_ms (deadline : option instant) (now : instant) : Z :=
  match deadline with
  | None => -1
  | Some d =>
      let timeout := saturating_duration_since d now in
      let ms := unwrap_or (try_into 0 u64_max (as_millis timeout)) u64_max in
      let ms := if dur_ltb (from_millis ms) timeout then sat_add1 u64_max ms else ms in
      unwrap_or (try_into (-i32_max - 1) i32_max ms) i32_max
  end.

(* ------------------------------------------------------------------ *)
(** ** IOCP *)

(** windows-sys's, used at src/iocp/mod.rs:1340 and src/iocp/port.rs:228. *)
Definition INFINITE : Z := u32_max.

(** Used at src/iocp/mod.rs:1330. *)
Definition checked_mul_u64 (a b : Z) : option Z := try_into 0 u64_max (a * b).
(** Used at src/iocp/mod.rs:1331, 1334. *)
Definition checked_add_u64 (a b : Z) : option Z := try_into 0 u64_max (a + b).
(** Used at src/iocp/mod.rs:1331-1339. *)
Definition and_then {A B} (o : option A) (f : A -> option B) : option B :=
  match o with Some x => f x | None => None end.

(** src/iocp/mod.rs:1321-1341 [dur2timeout]. *)
Definition dur2timeout (dur : duration) : Z :=
  unwrap_or
    (and_then
       (and_then
          (and_then (checked_mul_u64 (secs dur) 1000)
             (fun ms => checked_add_u64 ms (nanos dur / 1000000)))
          (fun ms => if 0 <? nanos dur mod 1000000 then checked_add_u64 ms 1 else Some ms))
       (fun x => try_into 0 u32_max x))
    INFINITE.

(** src/iocp/port.rs:228 — the argument of GetQueuedCompletionStatusEx. *)
Definition iocp_timeout (timeout : option duration) : Z :=
  match timeout with Some d => dur2timeout d | None => INFINITE end.
