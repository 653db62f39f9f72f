(** C105: on every target there is exactly one backend, and the conditionally compiled pieces fit it. *)
From Coq Require Import List String Bool.
From Verif Require Import CfgModel CfgSpec.
Import ListNotations.

Definition fitsb (t : target) (b : backend) : bool :=
  forallb (fun i => Nat.eqb (count t i) 1) (uses t b) && forallb (fun i => Nat.eqb (count t i) 0) (excludes b).
Lemma fitsb_ok t b : fitsb t b = true -> fits t b.
Proof.
  unfold fitsb. intros [H1 H2]%andb_prop. rewrite forallb_forall in H1, H2.
  split; intros i Hi; [apply H1 in Hi|apply H2 in Hi]; now apply PeanoNat.Nat.eqb_eq.
Qed.

(** The facts about targets as one boolean, to compute with. *)
Definition is_named (o : os_name) : bool := match o with Hermit | WindowsOs | Other _ => false | _ => true end.
Lemma named_ok o : In o named <-> is_named o = true.
Proof. destruct o; cbn; intuition congruence. Qed.
Definition realb (t : target) : bool :=
  negb (unix t && windows t) && Bool.eqb (windows t) (match os t with WindowsOs => true | _ => false end) &&
  (match os t with Hermit => negb (unix t) && negb (windows t) | _ => true end) &&
  implb (is_named (os t)) (unix t) && implb (apple t) (unix t && negb (is_named (os t))).
Lemma real_realb t : real t <-> realb t = true.
Proof.
  destruct t as [o a u w tp tq]. unfold realb. cbn. split.
  - intros [R1 R2 R3 R4 R5]. cbn -[named In] in *. rewrite named_ok in R4, R5.
    destruct a, u, w, o; cbn in *; try reflexivity; exfalso; intuition congruence.
  - intros H. split; cbn -[named In]; rewrite ?named_ok; destruct a, u, w, o; cbn in *; try discriminate H; intuition congruence.
Qed.

(** Exactly one backend, or the message that the target is not supported: a target is supported if it is unix, Windows or
    Hermit. *)
Theorem C105_backend t : real t -> test_poll t = false ->
  (exists b, sys t = Some b) <-> unix t = true \/ windows t = true \/ os t = Hermit.
Proof.
  rewrite real_realb. destruct t as [o a u w tp tq]. cbn. intros R ->.
  destruct a, u, w, o; vm_compute in R; try discriminate R; vm_compute; split; try (intros [b H]; discriminate H);
    try (intros [H|[H|H]]; discriminate H); intros _; try (now left); try (now right; left); try (now right; right); eauto.
Qed.
Print Assumptions C105_backend.

(** The pieces of the chosen backend are there once, and those that need another backend are not. *)
Theorem C105_pieces_fit t b : real t -> test_poll t = false -> sys t = Some b -> fits t b.
Proof.
  rewrite real_realb. intros R Tp S. apply fitsb_ok. revert R S. destruct t as [o a u w tp tq]. cbn in Tp. subst tp.
  destruct a, u, w, o; intros R; vm_compute in R; try discriminate R; intros S; vm_compute in S; try discriminate S;
    injection S as <-; vm_compute; reflexivity.
Qed.
Print Assumptions C105_pieces_fit.

(** Where there is no backend there is nothing of any. *)
Theorem C105_unsupported t : real t -> sys t = None ->
  forall b i, In i (PollerAsFd :: parts b) -> count t i = 0.
Proof.
  rewrite real_realb. intros R S b i Hi. apply PeanoNat.Nat.eqb_eq. revert i Hi. apply forallb_forall.
  revert R S. destruct t as [o a u w tp tq].
  destruct tp, a, u, w, o; intros R; vm_compute in R; try discriminate R; intros S; vm_compute in S; try discriminate S;
    destruct b; vm_compute; reflexivity.
Qed.
Print Assumptions C105_unsupported.

(** Which system gets which backend. *)
Theorem C105_which t b : real t -> test_poll t = false -> sys t = Some b ->
  match b with
  | Epoll => os t = Linux \/ os t = Android \/ os t = Redox
  | Port => os t = Illumos \/ os t = Solaris
  | Kqueue => apple t = true \/ os t = Freebsd \/ os t = Netbsd \/ os t = Openbsd \/ os t = Dragonfly
  | Poll => (unix t = true \/ os t = Hermit) /\ apple t = false /\
            ~ In (os t) [Linux; Android; Redox; Illumos; Solaris; Freebsd; Netbsd; Openbsd; Dragonfly]
  | Iocp => os t = WindowsOs
  end.
Proof.
  rewrite real_realb. destruct t as [o a u w tp tq]. cbn. intros R ->.
  destruct a, u, w, o; vm_compute in R; try discriminate R; intros S; vm_compute in S; try discriminate S;
    injection S as <-; cbn; intuition congruence.
Qed.
Print Assumptions C105_which.

(** The flag for testing the poll backend: it fits on every unix target and on Hermit. *)
Theorem C105_test_poll t : real t -> test_poll t = true -> unix t = true \/ os t = Hermit -> sys t = Some Poll /\ fits t Poll.
Proof.
  rewrite real_realb. intros R Tp H. split; [|apply fitsb_ok; revert R H]; destruct t as [o a u w tp tq]; cbn in Tp; subst tp; [reflexivity|].
  destruct a, u, w, o; intros R; vm_compute in R; try discriminate R; intros H; try (destruct H as [H|H]; discriminate H);
    vm_compute; reflexivity.
Qed.
Print Assumptions C105_test_poll.
(** On Windows it does not: there is no poll(2) to call. *)
Example C105_test_poll_windows t : real t -> test_poll t = true -> os t = WindowsOs -> sys t = Some Poll /\ count t PollSyscall = 0.
Proof.
  rewrite real_realb. destruct t as [o a u w tp tq]. cbn. intros R -> ->.
  destruct a, u, w; vm_compute in R; try discriminate R; split; reflexivity.
Qed.

(** Without the facts about targets the pieces need not fit: were Fuchsia not unix, the poll backend would be chosen and
    would lack its system calls and the traits of sources. *)
Example C105_facts_needed :
  let t := Target Fuchsia false false false false false in
  ~ real t /\ sys t = Some Poll /\ count t PollSyscall = 0 /\ count t SourceTraits = 0.
Proof. cbn zeta. rewrite real_realb. vm_compute. repeat split; discriminate. Qed.

(** Real targets: Linux, macOS, Windows, Hermit, AIX (a unix that the crate does not name), and WASI, which is refused. *)
Example C105_cases :
  let mac := Target (Other "macos"%string) true true false false false in
  let aix := Target (Other "aix"%string) false true false false false in
  let wasi := Target (Other "wasi"%string) false false false false false in
  let linux := Target Linux false true false false false in
  let win := Target WindowsOs false false true false false in
  let hermit := Target Hermit false false false false false in
  Forall real [mac; aix; wasi; linux; win; hermit] /\
  map sys [mac; aix; wasi; linux; win; hermit] = [Some Kqueue; Some Poll; None; Some Epoll; Some Iocp; Some Poll].
Proof. cbn zeta. split; [|reflexivity]. repeat constructor; now apply real_realb. Qed.
