(** C113 on kqueue: one wait() reports at most as many events as the container has room for. *)
From stdpp Require Import prelude list gmap.
From Verif Require Import Bits Types EventModel KqueueModel KqueueSpec KqueueProofs KqueueProofs3 KqueueProofs8 KqueueProps RoomSpec.
Local Open Scope nat_scope.

Lemma kq_waiting_room c excl room s : kqueue_waiting c excl room s -> match wait s with WPoll _ m => m = room | _ => True end.
Proof.
  induction 1 as [s t s' _ H|s l s' _ IH _ N H].
  - cbn in H. destruct (wait s); try done. injection H as <-. done.
  - assert (K : forall s1, wait s1 = wait s -> match wait s1 with WPoll _ m => m = room | _ => True end) by (by intros s1 ->).
    destruct l as [i a|f st w|fd|sl max|fs|e|fts]; cbn [step] in H.
    + destruct (threads s !! i) as [p|]; [|done].
      destruct p as [|cl|cl|cl|cl|cl r| |], a as [cl'| | |fts|n fts e]; cbn [thread_step] in H; try done.
      all: try (destruct (kevent _ _ _ _)). all: try (destruct (decide _)). all: try (destruct (noti c)).
      all: simplify_eq; by apply K.
    + injection H as <-. by apply K.
    + injection H as <-. by apply K.
    + by destruct (N sl max).
    + destruct (wait s) as [|sl max| | | |x|]; try done. destruct (may_report (kern s) max fs && _); [|done]. injection H as <-. cbn. by destruct (noti c).
    + destruct (wait s) eqn:E, e; simplify_eq; cbn; try done; by rewrite E.
    + unfold wait_step in H. destruct (wait s); try done; try (destruct (noti c)); try done.
      all: try (destruct (decide _)). all: try (destruct (kevent _ _ _ _); destruct (check_receipts _)).
      all: by simplify_eq.
Qed.
Theorem C113_kqueue_partial c excl room s l s' b :
  kqueue_waiting c excl room s -> step c s l = Some s' -> log s' = log s ++ [Reported b] -> length b <= room.
Proof.
  intros W H E. apply kq_waiting_room in W. destruct (report_step _ _ _ _ _ H E) as (sl & max & fs & _ & Hw & M & _ & -> & _).
  rewrite Hw in W. subst max. apply may_report_spec in M as (_ & _ & M & _). by rewrite map_length.
Qed.
Print Assumptions C113_kqueue_partial.

(** Two sources are ready; the container has room for one, and one is reported. *)
Definition two : list label :=
  do_add 0 10 (ev 7 true false) Level [] ++ do_add 0 11 (ev 8 true false) Level [] ++
  [LHappen (FRead 10) (Some 0%N) true; LHappen (FRead 11) (Some 0%N) true].
Lemma checked_app c excl l1 : forall s l2 s', checked c excl s (l1 ++ l2) = Some s' -> exists s1, checked c excl s l1 = Some s1 /\ checked c excl s1 l2 = Some s'.
Proof.
  induction l1 as [|l l1 IH]; intros s l2 s' H; cbn [checked app] in *; [eauto|].
  destruct (legalb c excl s l); [|done]. destruct (step c s l); [|done]. by apply IH.
Qed.
Example C113_kqueue_nonvacuous : exists s s' b,
  kqueue_waiting freebsd true 1 s /\ reportable (kern s) (FRead 10) = true /\ reportable (kern s) (FRead 11) = true /\
  step freebsd s (LReport [FRead 11]) = Some s' /\ log s' = log s ++ [Reported b] /\ length b = 1.
Proof.
  runs freebsd true 1 two s0 R0 L0 E0. runs freebsd true 1 (two ++ [LWait true 1]) s R L E.
  runs freebsd true 1 (two ++ [LWait true 1] ++ [LReport [FRead 11]]) s' R' L' E'.
  gets E (fun s => reportable (kern s) (FRead 10)) true A. gets E (fun s => reportable (kern s) (FRead 11)) true B.
  apply checked_app in E as (s1 & E1 & E). assert (s1 = s0) as -> by congruence.
  apply checked_app in E' as (s1 & E2 & E'). assert (s1 = s0) as -> by congruence.
  apply checked_app in E' as (s1 & E3 & E'). assert (s1 = s) as -> by congruence.
  cbn [checked] in E, E'. destruct (legalb freebsd true s0 _); [|done]. destruct (step freebsd s0 _) as [s1|] eqn:S; [|done]. assert (s1 = s) as -> by congruence.
  destruct (legalb freebsd true s _); [|done]. destruct (step freebsd s _) as [s1|] eqn:S'; [|done]. assert (s1 = s') as -> by congruence.
  exists s, s'. eexists. split; [eapply kqueue_begins; [exact R0|exact S]|]. split_and!; [done|done|exact S'|rewrite L, L'; reflexivity|done].
Qed.
