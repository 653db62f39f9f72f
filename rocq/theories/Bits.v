(** Bit-flag words as [N], in the way the [bitflags] crate treats them. *)
From Coq Require Import NArith Bool Lia.
Open Scope N_scope.

(** bitflags [contains]: every bit of [b] is in [a]. *)
Definition contains (a b : N) : bool := N.land a b =? b.

(** bitflags [intersects]: some bit of [b] is in [a]. *)
Definition intersects (a b : N) : bool := negb (N.land a b =? 0).

(** bitflags [is_empty]. *)
Definition is_empty (a : N) : bool := a =? 0.

(** bitflags [set]: insert the bits of [b] if [v], remove them otherwise. *)
Definition fset (a b : N) (v : bool) : N := if v then N.lor a b else N.ldiff a b.

(** bitflags [from_bits_truncate]: keep the known bits. *)
Definition truncate (all a : N) : N := N.land a all.
