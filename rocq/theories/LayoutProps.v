(** C100: the kernel and the poller mean the same by the memory they share. *)
From stdpp Require Import prelude list.
From Verif Require Import Types LayoutModel.
Local Open Scope nat_scope.

(** ** Specification: what the kernel makes of the bytes (AFD_POLL_INFO in the headers of the driver) *)

Record request := Request { r_timeout : N; r_count : N; r_exclusive : N; r_handle : N; r_events : N; r_status : N }.
Definition afd_reads (w : nat) (buf : list N) : request :=
  Request (read 0 8 buf) (read 8 4 buf) (read 12 4 buf) (read 16 w buf) (read (16 + w) 4 buf) (read (20 + w) 4 buf).
(** It answers with the number of handles that became ready, the events and the status of the first; it may write the other
    fields as well. *)
Definition afd_writes (w : nat) (r : request) (buf : list N) : list N :=
  write 0 8 (r_timeout r) (write 8 4 (r_count r) (write 12 4 (r_exclusive r)
    (write 16 w (r_handle r) (write (16 + w) 4 (r_events r) (write (20 + w) 4 (r_status r) buf))))).
Definition pointer_size (w : nat) : Prop := w = 4 \/ w = 8.
Definition fits (n : nat) (v : N) : Prop := (v < 256 ^ N.of_nat n)%N.

(** ** Proofs *)

Lemma le_length n : forall v, length (le n v) = n.
Proof. induction n as [|n IH]; intros v; cbn; [done|]. by rewrite IH. Qed.
Lemma unle_le n : forall v, fits n v -> unle (le n v) = v.
Proof.
  unfold fits. induction n as [|n IH]; intros v H; cbn [le unle].
  - cbn in H. lia.
  - rewrite IH; [|apply N.div_lt_upper_bound; [done|]; by rewrite Nat2N.inj_succ, N.pow_succ_r' in H].
    rewrite (N.div_mod v 256) at 3 by done. lia.
Qed.
Lemma write_length o n v buf : length (write o n v buf) = length buf.
Proof. apply inserts_length. Qed.
Lemma read_write o n v buf : fits n v -> o + n <= length buf -> read o n (write o n v buf) = v.
Proof.
  intros F L. unfold read. assert (take n (drop o (write o n v buf)) = le n v) as ->; [|by apply unle_le].
  apply list_eq. intros i. destruct (decide (i < n)) as [Li|Li].
  - rewrite lookup_take, lookup_drop by done. unfold write. rewrite list_lookup_inserts by (rewrite ?le_length; lia). f_equal. lia.
  - rewrite lookup_take_ge by lia. symmetry. apply lookup_ge_None_2. rewrite le_length. lia.
Qed.
Lemma read_write_ne o n o' n' v buf : o + n <= o' \/ o' + n' <= o -> read o n (write o' n' v buf) = read o n buf.
Proof.
  intros D. unfold read. f_equal. apply list_eq. intros i. destruct (decide (i < n)) as [Li|Li]; [|by rewrite !lookup_take_ge by lia].
  rewrite !lookup_take, !lookup_drop by done. unfold write. destruct D.
  - by rewrite list_lookup_inserts_lt by lia.
  - rewrite list_lookup_inserts_ge; [done|]. rewrite le_length. lia.
Qed.

Lemma round_up_spec n a : 0 < a -> (exists k, round_up n a = k * a) /\ n <= round_up n a < n + a.
Proof.
  intros A. unfold round_up. split; [by eexists|]. pose proof (Nat.div_mod (n + (a - 1)) a ltac:(lia)). pose proof (Nat.mod_upper_bound (n + (a - 1)) a ltac:(lia)). nia.
Qed.
Lemma place_spec fs : forall cur, Forall (fun f => 0 < f_align f) fs ->
  cur <= (place cur fs).2 /\ length (place cur fs).1 = length fs /\
  (forall k f o, fs !! k = Some f -> (place cur fs).1 !! k = Some o -> (exists q, o = q * f_align f) /\ cur <= o /\ o + f_size f <= (place cur fs).2) /\
  (forall k l f o o', k < l -> fs !! k = Some f -> (place cur fs).1 !! k = Some o -> (place cur fs).1 !! l = Some o' -> o + f_size f <= o').
Proof.
  induction fs as [|f fs IH]; intros cur A; cbn [place]; [split_and!; try done; intros; by destruct k|].
  apply Forall_cons in A as [A1 A2]. destruct (round_up_spec cur (f_align f) A1) as [M [B1 B2]].
  specialize (IH (round_up cur (f_align f) + f_size f) A2). destruct (place (round_up cur (f_align f) + f_size f) fs) as [os e]. cbn in *.
  destruct IH as (I1 & I2 & I3 & I4). split_and!; [lia|lia| |].
  - intros [|k] g o Hk Ho; cbn in *.
    + injection Hk as ->. injection Ho as <-. split_and!; [done|lia|lia].
    + destruct (I3 _ _ _ Hk Ho) as (? & ? & ?). split_and!; [done|lia|lia].
  - intros [|k] [|l] g o o' L Hk Ho Hl; cbn in *; try lia.
    + injection Hk as ->. injection Ho as <-. assert (l < length fs) as Ll by (rewrite <- I2; by eapply lookup_lt_Some).
      apply lookup_lt_is_Some in Ll as [g' Hg']. destruct (I3 _ _ _ Hg' Hl) as (_ & ? & _). lia.
    + eapply (I4 k l); [lia|done..].
Qed.

(** ** Theorems *)

(** The fields of a structure are aligned, lie inside it and do not overlap, for every list of fields. *)
Theorem C100_fields_apart fs : Forall (fun f => 0 < f_align f) fs ->
  length (offsets fs) = length fs /\
  (forall k f o, fs !! k = Some f -> offsets fs !! k = Some o -> (exists q, o = q * f_align f) /\ o + f_size f <= struct_size fs) /\
  (forall k l f g o o', k <> l -> fs !! k = Some f -> fs !! l = Some g -> offsets fs !! k = Some o -> offsets fs !! l = Some o' ->
     o + f_size f <= o' \/ o' + f_size g <= o).
Proof.
  intros A. destruct (place_spec fs 0 A) as (_ & P1 & P2 & P3). fold (offsets fs) in *. split; [done|]. split.
  - intros k f o Hk Ho. destruct (P2 _ _ _ Hk Ho) as (? & _ & ?). split; [done|].
    assert (0 < struct_align fs) as SA by (clear; unfold struct_align; induction fs as [|g fs IH]; cbn [fold_right]; [lia|unfold struct_align in IH; lia]).
    destruct (round_up_spec (place 0 fs).2 (struct_align fs) SA) as [_ [? _]]. unfold struct_size. lia.
  - intros k l f g o o' N Hk Hl Ho Ho'. destruct (decide (k < l)); [left; by eapply (P3 k l)|right; eapply (P3 l k); [lia|done..]].
Qed.

(** The kernel reads the request that was asked for, whatever was in the buffer before: the socket, the events, one handle,
    not exclusive, no timeout; and it is not told that the buffer is longer than it is. *)
Theorem C100_request w socket mask buf : pointer_size w -> length buf = buffer_length w -> fits w socket -> fits 4 mask ->
  afd_reads w (fill w socket mask buf) = Request (2 ^ 63 - 1) 1 0 socket mask 0 /\
  length (fill w socket mask buf) = buffer_length w /\ 24 + w <= buffer_length w.
Proof.
  intros W L F1 F2. assert (buffer_length w = 32) as LB by (by destruct W as [-> | ->]). rewrite LB in *.
  assert (offset (poll_info w) 0 = 0 /\ offset (poll_info w) 1 = 8 /\ offset (poll_info w) 2 = 12 /\ in_handle w 0 = 16 /\ in_handle w 1 = 16 + w /\ in_handle w 2 = 20 + w) as (O0 & O1 & O2 & H0 & H1 & H2)
    by (by destruct W as [-> | ->]).
  assert (w <= 8) by (destruct W; lia).
  unfold afd_reads, fill. rewrite O0, O1, O2, H0, H1, H2. split; [|split; [by rewrite !write_length|lia]].
  f_equal; repeat (rewrite read_write_ne by lia); rewrite read_write; rewrite ?write_length; done || lia.
Qed.
(** And what it answers is what is read back. *)
Theorem C100_answer w r buf : pointer_size w -> length buf = buffer_length w -> fits 4 (r_count r) -> fits 4 (r_events r) ->
  handle_count w (afd_writes w r buf) = r_count r /\ events w (afd_writes w r buf) = r_events r.
Proof.
  intros W L F1 F2. assert (buffer_length w = 32) as LB by (by destruct W as [-> | ->]). rewrite LB in *.
  assert (offset (poll_info w) 1 = 8 /\ in_handle w 1 = 16 + w) as (O1 & H1) by (by destruct W as [-> | ->]).
  assert (w <= 8) by (destruct W; lia).
  unfold handle_count, events, afd_writes. rewrite O1, H1.
  split; repeat (rewrite read_write_ne by lia); rewrite read_write; rewrite ?write_length; done || lia.
Qed.
(** Without a word from the kernel the request is read back, with one handle. *)
Theorem C100_unanswered w socket mask buf : pointer_size w -> length buf = buffer_length w -> fits w socket -> fits 4 mask ->
  handle_count w (fill w socket mask buf) = 1%N /\ events w (fill w socket mask buf) = mask.
Proof.
  intros W L F1 F2. destruct (C100_request w socket mask buf W L F1 F2) as (E & _).
  assert (offset (poll_info w) 1 = 8 /\ in_handle w 1 = 16 + w) as (O1 & H1) by (by destruct W as [-> | ->]).
  unfold handle_count, events. rewrite O1, H1. exact (conj (f_equal r_count E) (f_equal r_events E)).
Qed.
(** The pointer to a block is the pointer to its I/O status block; what the kernel writes there (two words) touches neither
    the mark [in_use] nor the data, whatever the data are. *)
Theorem C100_status_block w data : pointer_size w -> 0 < f_align data ->
  offset (block w data) 0 = 0 /\ 2 * w <= offset (block w data) 1 /\ offset (block w data) 1 < offset (block w data) 2 /\
  (exists q, offset (block w data) 2 = q * f_align data) /\ offset (block w data) 2 + f_size data <= struct_size (block w data).
Proof.
  intros W A. set (fs := block w data). assert (Forall (fun f => 0 < f_align f) fs) as Af by (destruct W as [-> | ->]; by repeat constructor).
  destruct (C100_fields_apart fs Af) as (L & P & _). destruct (place_spec fs 0 Af) as (_ & _ & _ & Q).
  assert (exists a b c, offsets fs = [a; b; c]) as (a & b & c & E) by (destruct (offsets fs) as [|a [|b [|c [|]]]]; try done; eauto).
  assert (a = 0) as -> by (unfold offsets, fs, block in E; destruct W as [-> | ->]; cbn [place fst] in E; injection E as E _ _; by vm_compute in E).
  unfold offset. rewrite E. cbn.
  pose proof (Q 0 1 _ 0 b ltac:(lia) eq_refl) as Q1. pose proof (Q 1 2 _ b c ltac:(lia) eq_refl) as Q2. unfold offsets in E. rewrite E in Q1, Q2.
  specialize (Q1 eq_refl eq_refl). specialize (Q2 eq_refl eq_refl). cbn in Q2.
  assert (f_size (struct_field (status_block w)) = 2 * w) as Z by (by destruct W as [-> | ->]). unfold fs, block in Q1. cbn [f_size] in Q1.
  fold (offsets fs) in E. destruct (P 2 data c eq_refl) as [P1 P2]; [by rewrite E|]. rewrite Z in Q1. split_and!; try done; try lia.
Qed.

Example C100_case : pointer_size 8 /\ fits 8 1234%N /\ fits 4 401%N /\ length (replicate 32 7%N) = buffer_length 8 /\
  fill 8 1234 401 (replicate 32 7%N) =
  [255; 255; 255; 255; 255; 255; 255; 127; 1; 0; 0; 0; 0; 0; 0; 0; 210; 4; 0; 0; 0; 0; 0; 0; 145; 1; 0; 0; 0; 0; 0; 0]%N.
Proof. split; [by right|]. split; [done|]. split; [done|]. split; [done|]. by vm_compute. Qed.
Example C100_answer_case : pointer_size 4 /\ fits 4 0%N /\ length (replicate 32 7%N) = buffer_length 4 /\
  handle_count 4 (afd_writes 4 (Request 5 0 0 1 1 0) (replicate 32 7%N)) = 0%N /\ events 4 (afd_writes 4 (Request 5 0 0 1 1 0) (replicate 32 7%N)) = 1%N.
Proof. split; [by left|]. split; [done|]. split; [done|]. by vm_compute. Qed.

Print Assumptions C100_fields_apart.
Print Assumptions C100_request.
Print Assumptions C100_answer.
Print Assumptions C100_unanswered.
Print Assumptions C100_status_block.
Print Assumptions C100_case.
Print Assumptions C100_answer_case.
