(** C66: the capacity of [Events]; C97: the capacity with which wait panics on IOCP. *)
From Coq Require Import NArith Bool List Lia.
From Verif Require Import Types CapacityModel.
Import ListNotations.
Open Scope N_scope.

(** A target of 32 or 64 bits; the entries are not empty. *)
Definition target (l : layout) : Prop :=
  (bits l = 32 \/ bits l = 64) /\ 0 < item l /\ (forall s, entry l = Some s -> 0 < s).
(** [cap] entries of [size] bytes are more than the language allows one object to have. *)
Definition too_large (l : layout) (cap : N) : Prop :=
  exists size, (size = item l \/ entry l = Some size) /\ 2 ^ (bits l - 1) <= cap * size.

Lemma pow_pos (b : N) : 0 < 2 ^ b.
Proof. apply N.neq_0_lt_0, N.pow_nonzero. lia. Qed.

Lemma vec_ok b size cap extra : 0 < size ->
  match vec_with_capacity b size cap extra with
  | Ok n => cap <= n /\ n <= cap + extra /\ n * size < 2 ^ (b - 1) /\ cap * size < 2 ^ (b - 1)
  | Err _ => False
  | Panic => 2 ^ (b - 1) <= cap * size
  end.
Proof.
  intros Hs. unfold vec_with_capacity, isize_max. pose proof (pow_pos (b - 1)) as P.
  destruct (N.ltb_spec (2 ^ (b - 1) - 1) (cap * size)) as [H|H]; [lia|].
  assert (D : cap <= (2 ^ (b - 1) - 1) / size) by (apply N.div_le_lower_bound; lia).
  pose proof (N.mul_div_le (2 ^ (b - 1) - 1) size ltac:(lia)) as M.
  repeat split; try lia.
  assert (N.min (cap + extra) ((2 ^ (b - 1) - 1) / size) * size <= (2 ^ (b - 1) - 1) / size * size)
    by (apply N.mul_le_mono_r; lia). lia.
Qed.

Lemma made_ok l cap x y : target l ->
  match with_capacity l cap x y with
  | Ok e => cap <= listed e /\ ~ too_large l cap /\
      match entry l, buffer e with
      | None, None => True
      | Some size, Some b => cap <= b /\ b <= cap + y /\ b * size < 2 ^ (bits l - 1)
      | _, _ => False
      end
  | Err _ => False
  | Panic => too_large l cap
  end.
Proof.
  intros (_ & Hi & He). unfold with_capacity, sys_with_capacity, too_large.
  pose proof (vec_ok (bits l) (item l) cap x Hi) as A.
  destruct (vec_with_capacity (bits l) (item l) cap x) as [a|?|]; [|exact A|exists (item l); auto].
  destruct (entry l) as [size|] eqn:E.
  - pose proof (vec_ok (bits l) size cap y (He _ eq_refl)) as B.
    destruct (vec_with_capacity (bits l) size cap y) as [b|?|]; [|exact B|exists size; auto].
    cbn [listed buffer]. repeat split; try tauto. intros (s & [Hs|Hs] & Hl); [subst s; lia|]. injection Hs as <-. lia.
  - cbn [listed buffer]. repeat split; try tauto. intros (s & [Hs|Hs] & Hl); [subst s; lia|discriminate].
Qed.

(** with_capacity panics exactly if the entries are too many for an object; otherwise there is room for what was asked. *)
Theorem C66_with_capacity_partial : forall l cap x y, target l ->
  (with_capacity l cap x y = Panic <-> too_large l cap) /\
  (~ too_large l cap -> exists e, with_capacity l cap x y = Ok e /\ cap <= listed e).
Proof.
  intros l cap x y T. pose proof (made_ok l cap x y T) as M.
  destruct (with_capacity l cap x y) as [e|?|]; [|tauto|].
  - split; [split; [discriminate|tauto]|]. intros _. exists e. tauto.
  - tauto.
Qed.
Print Assumptions C66_with_capacity_partial.

(** It does on every platform: there is a capacity for which it panics. *)
Theorem C66_with_capacity_refuted : forall l x y, target l ->
  exists cap, 0 < cap /\ cap < 2 ^ bits l /\ with_capacity l cap x y = Panic.
Proof.
  intros l x y T. exists (2 ^ (bits l) - 1).
  assert (B : 2 ^ (bits l - 1) <= 2 ^ bits l - 1 /\ 0 < 2 ^ bits l - 1).
  { destruct T as [[->| ->] _]; vm_compute; split; congruence. }
  split; [lia|]. split; [pose proof (pow_pos (bits l)); lia|]. apply C66_with_capacity_partial; [exact T|].
  exists (item l). split; [now left|]. destruct T as (_ & Hi & _).
  apply N.le_trans with ((2 ^ bits l - 1) * 1); [lia|]. apply N.mul_le_mono_l. lia.
Qed.
Print Assumptions C66_with_capacity_refuted.

(** capacity() does not panic after any use, and is not below what was asked. *)
Theorem C66_capacity_never_panics : forall l cap x y e history, target l -> 0 < cap ->
  with_capacity l cap x y = Ok e ->
  exists n, capacity (fold_left step history e) = Ok n /\ cap <= n.
Proof.
  intros l cap x y e h T Hc E. pose proof (made_ok l cap x y T) as M. rewrite E in M. destruct M as [M _]. clear E.
  revert e M. induction h as [|u h IH]; intros e M; cbn [fold_left].
  - exists (listed e). unfold capacity, nonzero. destruct (N.eqb_spec (listed e) 0); [lia|]. split; [reflexivity|lia].
  - apply IH. destruct u; cbn [step listed]; lia.
Qed.
Print Assumptions C66_capacity_never_panics.

(** new() does not panic if an entry takes less than a megabyte, and has room for 1024 events (32 on ESP-IDF). *)
Theorem C66_new_has_default_capacity : forall l espidf x y, target l ->
  item l < 2 ^ 20 -> (forall s, entry l = Some s -> s < 2 ^ 20) ->
  exists e, new l espidf x y = Ok e /\ (if espidf then 32 else 1024) <= listed e.
Proof.
  intros l espidf x y T Hi He. unfold new, default_capacity.
  replace (nonzero (if espidf then 32 else 1024)) with (Ok (if espidf then 32 else 1024)) by now destruct espidf.
  apply C66_with_capacity_partial; [exact T|]. intros (s & Hs & H).
  assert (s < 2 ^ 20) as S by (destruct Hs as [->|Hs]; [exact Hi|exact (He _ Hs)]).
  assert (2 ^ 31 <= 2 ^ (bits l - 1)) as P by (destruct T as [[->| ->] _]; vm_compute; congruence).
  change (2 ^ 20) with 1048576 in S. change (2 ^ 31) with 2147483648 in P. destruct espidf; lia.
Qed.
Print Assumptions C66_new_has_default_capacity.

(** IOCP: wait asks for at least one completion, and for as many as the container was made for, and its call does not panic,
    on 32-bit systems always, on 64-bit systems if the capacity asked for (and what the allocator adds) fits 32 bits. *)
Theorem C97_iocp_capacity_partial : forall l cap x y e size history, target l -> entry l = Some size -> 0 < cap ->
  with_capacity l cap x y = Ok e -> (bits l = 32 \/ cap + y < 2 ^ 32) ->
  exists n, asked (fold_left step history e) = Some (Ok n) /\ 0 < n /\ cap <= n.
Proof.
  intros l cap x y e size h T En Hc E Hb. pose proof (made_ok l cap x y T) as M. rewrite E, En in M.
  destruct M as (_ & _ & M). assert (X : buffer (fold_left step h e) = buffer e).
  { clear. revert e. induction h as [|u h IH]; intros e; [reflexivity|]. cbn [fold_left]. rewrite IH. now destruct u. }
  unfold asked. rewrite X. destruct (buffer e) as [b|]; [|contradiction]. exists b.
  destruct M as (M1 & M2 & M3). destruct (N.ltb_spec b (2 ^ 32)) as [H|H]; [repeat split; lia|].
  exfalso. destruct Hb as [Hb|Hb]; [|lia]. rewrite Hb in M3. change (2 ^ (32 - 1)) with 2147483648 in M3.
  change (2 ^ 32) with 4294967296 in H. destruct T as (_ & _ & He). specialize (He _ En).
  assert (b * 1 <= b * size) by (apply N.mul_le_mono_l; lia). lia.
Qed.
Print Assumptions C97_iocp_capacity_partial.

(** Otherwise it does, however much the allocator gives: a container for 2^32 events or more, which is not too large to be
    made, is too large for wait.  The sizes are those of [Event] and OVERLAPPED_ENTRY on 64-bit Windows. *)
Definition windows : layout := Layout 64 16 (Some 32).
Theorem C97_iocp_capacity_refuted : forall cap x y, 2 ^ 32 <= cap -> ~ too_large windows cap ->
  exists e, with_capacity windows cap x y = Ok e /\ asked e = Some Panic.
Proof.
  intros cap x y Hc N. assert (T : target windows) by (split; [now right|split; [reflexivity|]]; intros s Hs; injection Hs as <-; reflexivity).
  pose proof (made_ok windows cap x y T) as M. destruct (with_capacity windows cap x y) as [e|?|]; [|tauto|tauto].
  exists e. split; [reflexivity|]. destruct M as (_ & _ & M). unfold asked. cbn [entry windows] in M.
  destruct (buffer e) as [b|]; [|contradiction]. destruct M as [M _].
  destruct (N.ltb_spec b (2 ^ 32)) as [L|L]; [|reflexivity]. destruct (N.lt_irrefl b). eapply N.lt_le_trans; [exact L|].
  eapply N.le_trans; [exact Hc|exact M].
Qed.
Print Assumptions C97_iocp_capacity_refuted.

(** Cases: a container on Linux that grows, one on Windows, one that cannot be made, and one that wait cannot use. *)
Definition linux : layout := Layout 64 12 None.
Example C66_case : target linux /\ target windows /\ ~ too_large windows 1000 /\
  with_capacity linux 1 0 0 = Ok (Events 1 None) /\
  capacity (fold_left step [Clear; Push 0; Push 17; Clear] (Events 1 None)) = Ok 17 /\
  with_capacity windows 1000 0 24 = Ok (Events 1000 (Some 1024)) /\ asked (Events 1000 (Some 1024)) = Some (Ok 1024) /\
  with_capacity windows (2 ^ 63) 0 0 = Panic /\
  with_capacity windows (2 ^ 32) 0 0 = Ok (Events (2 ^ 32) (Some (2 ^ 32))) /\
  ~ too_large windows (2 ^ 32) /\ asked (Events (2 ^ 32) (Some (2 ^ 32))) = Some Panic.
Proof.
  assert (W : target windows) by (split; [now right|split; [reflexivity|]]; intros s Hs; injection Hs as <-; reflexivity).
  split; [split; [now right|split; [reflexivity|intros s Hs; discriminate Hs]]|]. split; [exact W|].
  split. { intros H%(C66_with_capacity_partial windows 1000 0 24 W). discriminate H. }
  repeat (split; [vm_compute; reflexivity|]).
  split; [|vm_compute; reflexivity].
  intros H%(C66_with_capacity_partial windows (2 ^ 32) 0 0 W). discriminate H.
Qed.
