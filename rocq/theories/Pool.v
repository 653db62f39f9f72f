(** Counting threads by program counter. *)
From stdpp Require Import prelude list.

Definition b2n (b : bool) : nat := if b then 1 else 0.

(** Number of elements satisfying [f]. *)
Fixpoint cnt {A} (f : A -> bool) (l : list A) : nat :=
  match l with [] => 0 | x :: r => b2n (f x) + cnt f r end.

Lemma cnt_insert {A} (f : A -> bool) l i x0 x :
  l !! i = Some x0 -> cnt f (<[i:=x]> l) + b2n (f x0) = cnt f l + b2n (f x).
Proof.
  revert i. induction l as [|y l IH]; intros i H; [done|].
  destruct i as [|i]; simplify_eq/=; [lia|].
  specialize (IH i H). lia.
Qed.

Lemma cnt_lookup {A} (f : A -> bool) l i x : l !! i = Some x -> f x = true -> 0 < cnt f l.
Proof.
  revert i. induction l as [|y l IH]; intros i H Hf; [done|].
  destruct i as [|i]; simplify_eq/=; [rewrite Hf; simpl; lia|].
  specialize (IH i H Hf). lia.
Qed.

Lemma cnt_pos {A} (f : A -> bool) l : 0 < cnt f l -> exists i x, l !! i = Some x /\ f x = true.
Proof.
  induction l as [|y l IH]; simpl; [lia|]. intros H. destruct (f y) eqn:E.
  - exists 0, y. split; [done|exact E].
  - destruct (IH ltac:(simpl in H; lia)) as (i & x & Hl & Hx). exists (S i), x. split; done.
Qed.

Lemma cnt_zero {A} (f : A -> bool) l :
  cnt f l = 0 <-> forall i x, l !! i = Some x -> f x = false.
Proof.
  split.
  - intros H i x Hl. destruct (f x) eqn:E; [|done].
    pose proof (cnt_lookup f l i x Hl E). lia.
  - intros H. destruct (cnt f l) eqn:E; [done|].
    destruct (cnt_pos f l ltac:(lia)) as (i & x & Hl & Hx). rewrite (H i x Hl) in Hx. done.
Qed.

Lemma cnt_two {A} (f : A -> bool) l i j x y :
  l !! i = Some x -> l !! j = Some y -> f x = true -> f y = true -> i <> j -> 2 <= cnt f l.
Proof.
  revert i j. induction l as [|z l IH]; intros i j Hi Hj Hx Hy Hne; [done|].
  destruct i as [|i], j as [|j]; simplify_eq/=.
  - rewrite Hx. pose proof (cnt_lookup f l j y Hj Hy). simpl. lia.
  - rewrite Hy. pose proof (cnt_lookup f l i x Hi Hx). simpl. lia.
  - pose proof (IH i j Hi Hj Hx Hy ltac:(congruence)). lia.
Qed.

Lemma cnt_replicate {A} (f : A -> bool) n x : cnt f (replicate n x) = n * b2n (f x).
Proof. induction n as [|n IH]; simpl; [done|]. rewrite IH. lia. Qed.

Lemma cnt_mono {A} (f g : A -> bool) l :
  (forall x, f x = true -> g x = true) -> cnt f l <= cnt g l.
Proof.
  intros H. induction l as [|y l IH]; simpl; [lia|].
  pose proof (H y). destruct (f y) eqn:E; simpl; [rewrite H by done; simpl; lia|].
  destruct (g y); simpl; lia.
Qed.

Lemma cnt_add {A} (f g h : A -> bool) l :
  (forall x, b2n (f x) + b2n (g x) = b2n (h x)) -> cnt f l + cnt g l = cnt h l.
Proof.
  intros H. induction l as [|y l IH]; simpl; [lia|]. pose proof (H y). lia.
Qed.

Lemma cnt_le_length {A} (f : A -> bool) l : cnt f l <= length l.
Proof. induction l as [|y l IH]; simpl; [lia|]. destruct (f y); simpl; lia. Qed.

Lemma lookup_upd {A} (l : list A) i x0 x j :
  l !! i = Some x0 -> <[i:=x]> l !! j = if decide (j = i) then Some x else l !! j.
Proof.
  intros H. destruct (decide (j = i)) as [->|Hne].
  - apply list_lookup_insert. apply lookup_lt_is_Some. eauto.
  - apply list_lookup_insert_ne. congruence.
Qed.

Lemma cnt_ge {A} (f : A -> bool) l i x : l !! i = Some x -> b2n (f x) <= cnt f l.
Proof.
  intros H. destruct (f x) eqn:E; simpl; [|lia]. apply (cnt_lookup f l i x H E).
Qed.

(** Sum of a weight over a list. *)
Fixpoint sumw {A} (w : A -> nat) (l : list A) : nat :=
  match l with [] => 0 | x :: r => w x + sumw w r end.

Lemma sumw_insert {A} (w : A -> nat) l i x0 x :
  l !! i = Some x0 -> sumw w (<[i:=x]> l) + w x0 = sumw w l + w x.
Proof.
  revert i. induction l as [|y l IH]; intros i H; [done|].
  destruct i as [|i]; simplify_eq/=; [lia|]. specialize (IH i H). lia.
Qed.
