(** Proofs about [PollConcModel]: the notification channel. *)
From stdpp Require Import prelude list gmap.
From Verif Require Import Bits Types EventModel PollModel PollSpec PollProofs.
From Verif Require Import Pool PollConcModel PollConcSpec PollConcProofs.
Local Open Scope nat_scope.

Definition is_wpoll (p : pc) : bool := match p with WPoll => true | _ => false end.
Definition is_popall1 (p : pc) : bool := match p with WPopAll _ false => true | _ => false end.
Definition is_wload (p : pc) : bool := match p with WLoad => true | _ => false end.
Definition is_wpop (p : pc) : bool := match p with WPop => true | _ => false end.
Definition is_swap3 (p : pc) : bool := match p with WSwap3 _ => true | _ => false end.
(** In the critical section elsewhere. *)
Definition crit_rest (p : pc) : bool :=
  crit p && negb (is_wpoll p || is_popall1 p || is_wload p || is_wpop p || is_swap3 p).
Definition sent (p : pc) : bool := match p with OLock _ true | OPop _ => true | _ => false end.

Lemma crit_split l :
  cnt is_wpoll l + cnt is_popall1 l + cnt is_wload l + cnt is_wpop l + cnt is_swap3 l
    + cnt crit_rest l = cnt crit l.
Proof.
  induction l as [|p l IH]; [done|]. cbn [cnt]. rewrite <-IH.
  destruct p as [| | | | | | |?|?|? ?|?|?|?|?|?|?| | | | | | | | |? []|?|?|?|?|?|?| ]; cbn; lia.
Qed.

Lemma olock_inop l : cnt olock_sent l <= cnt inop l.
Proof. apply cnt_mono. intros []; try done. Qed.

Lemma nwrite_crit l : cnt is_nwrite l + cnt crit l <= length l.
Proof. induction l as [|p l IH]; [done|]. cbn [cnt length]. destruct p; cbn; lia. Qed.

Lemma length_inv c n s : reachable c n s -> length (threads s) = n.
Proof.
  induction 1 as [|s l s' Hr IH Hl Hs]; [simpl; apply replicate_length|].
  clear Hl Hr. step_cases Hs as Hp; rewrite ?insert_length; done.
Qed.

Record chan_inv (s : state) : Prop := ChanInv {
  ci_poll : 0 < cnt is_wpoll (threads s) -> cnt olock_sent (threads s) <= bytes s;
  ci_pop : 0 < cnt is_popall1 (threads s) -> 0 < bytes s
}.

Ltac counts2 Hp :=
  try match goal with H : ?l !! _ = Some (WPopAll _ ?got) |- _ => is_var got; destruct got end;
  try match goal with H : ?l !! _ = Some (OLock _ ?b) |- _ => is_var b; destruct b end;
  counts Hp;
  cbn [b2n is_wpoll is_popall1 is_wload is_wpop is_swap3 crit_rest sent crit andb orb negb] in *.
Ltac chans :=
  unfold chan_write, chan_pop in *;
  repeat match goal with
  | H : context [match ?x with _ => _ end] |- _ =>
      lazymatch type of H with
      | _ = Some _ =>
        lazymatch x with
        | context [match _ with _ => _ end] => fail
        | _ => destruct x eqn:?; try discriminate H
        end
      end
  end;
  repeat match goal with
  | HS : Some _ = Some _ |- _ => injection HS as HS
  end; subst.

Ltac decided :=
  repeat match goal with
  | H : bool_decide _ = true |- _ => apply bool_decide_eq_true in H
  | H : bool_decide _ = false |- _ => apply bool_decide_eq_false in H
  | H : reports_notifier _ = true, H' : reports_notifier _ = _ |- _ => rewrite H in H'
  | H : reports_notifier _ = false, H' : reports_notifier _ = _ |- _ => rewrite H in H'
  | H : true = bool_decide _ |- _ => symmetry in H
  | H : false = bool_decide _ |- _ => symmetry in H
  end.

Lemma chan_inv_ok c n s : reachable c n s -> chan_inv s.
Proof.
  induction 1 as [|s l s' Hr [H1 H2] Hl Hs].
  - split; simpl; rewrite ?cnt_replicate; simpl; lia.
  - assert (Hge : forall f, forall p, threads s !! l.1 = Some p -> b2n (f p) <= cnt f (threads s))
      by (intros f p; apply cnt_ge).
    destruct (base_inv c n s Hr) as [B1 B2 B3 B4].
    pose proof (n_opt_le (mutex s)) as L1. pose proof (crit_split (threads s)) as L2.
    pose proof (olock_inop (threads s)) as L3.
    clear Hr Hl. step_cases Hs as Hp.
    all: cbn [fst] in Hge.
    all: pose proof (Hge inop _ Hp) as G1; pose proof (Hge crit_rest _ Hp) as G2;
         pose proof (Hge is_wpop _ Hp) as G3; pose proof (Hge is_swap3 _ Hp) as G4;
         pose proof (Hge is_wpoll _ Hp) as G5; pose proof (Hge is_popall1 _ Hp) as G6;
         pose proof (Hge is_wload _ Hp) as G7; clear Hge.
    all: split; fields.
    all: chans.
    all: counts2 Hp; decided;
      repeat match goal with H : mutex ?s = _ |- _ => rewrite H in * end;
      cbn [n_opt] in *; lia.
Qed.

Lemma reachable_w_reachable c n s : reachable_w c n s -> reachable c n s.
Proof. induction 1; econstructor; eauto. Qed.
Lemma reachable_ok_w c n s : reachable_ok c n s -> reachable_w c n s.
Proof. induction 1; econstructor; eauto. Qed.

(** A notification set while a wait is on its way into poll(2) comes with a byte. *)
Lemma note_inv c n s : reachable_w c n s ->
  0 < cnt is_wload (threads s) + cnt is_wpoll (threads s) -> notified s = true ->
  0 < bytes s + cnt is_nwrite (threads s).
Proof.
  induction 1 as [|s l s' Hr IH Hl Hs Hw]; [done|].
  assert (Hge : forall f, forall p, threads s !! l.1 = Some p -> b2n (f p) <= cnt f (threads s))
      by (intros f p; apply cnt_ge).
  apply reachable_w_reachable in Hr. destruct (base_inv c n s Hr) as [B1 B2 B3 B4].
  pose proof (n_opt_le (mutex s)) as L1. pose proof (crit_split (threads s)) as L2.
  clear Hr Hl. step_cases Hs as Hp.
  all: cbn [fst] in Hge.
  all: pose proof (Hge crit_rest _ Hp) as G2;
         pose proof (Hge is_wpop _ Hp) as G3; pose proof (Hge is_swap3 _ Hp) as G4;
         pose proof (Hge is_wpoll _ Hp) as G5; pose proof (Hge is_popall1 _ Hp) as G6;
         pose proof (Hge is_wload _ Hp) as G7; clear Hge.
  all: try (exfalso; apply Hw; eexists; split; [reflexivity|]; by left).
  all: clear Hw; chans.
  all: counts2 Hp; decided;
      repeat match goal with H : mutex ?s = _ |- _ => rewrite H in * end;
      cbn [n_opt] in *; intros ? Hn; try discriminate Hn; try specialize (IH ltac:(lia) Hn);
      lia.
Qed.

Lemma bound_inv c n s : reachable c n s ->
  bytes s + cnt is_nwrite (threads s) + cnt is_swap3 (threads s)
    <= n + cnt sent (threads s) + b2n (notified s) + cnt is_wpop (threads s).
Proof.
  induction 1 as [|s l s' Hr IH Hl Hs].
  { simpl. rewrite !cnt_replicate. simpl. lia. }
  assert (Hge : forall f, forall p, threads s !! l.1 = Some p -> b2n (f p) <= cnt f (threads s))
      by (intros f p; apply cnt_ge).
  destruct (base_inv c n s Hr) as [B1 B2 B3 B4].
  pose proof (n_opt_le (mutex s)) as L1. pose proof (crit_split (threads s)) as L2.
  pose proof (nwrite_crit (threads s)) as L3. pose proof (length_inv _ _ _ Hr) as L4.
  clear Hr Hl. step_cases Hs as Hp.
  all: cbn [fst] in Hge.
  all: pose proof (Hge crit_rest _ Hp) as G2;
         pose proof (Hge is_wpop _ Hp) as G3; pose proof (Hge is_swap3 _ Hp) as G4;
         pose proof (Hge is_wpoll _ Hp) as G5; pose proof (Hge is_popall1 _ Hp) as G6;
         pose proof (Hge is_wload _ Hp) as G7; pose proof (Hge sent _ Hp) as G8; clear Hge.
  all: chans.
  all: counts2 Hp; decided;
      repeat match goal with H : mutex ?s = _ |- _ => rewrite H in * end;
      repeat match goal with H : notified ?s = _ |- _ => rewrite H in * end;
      cbn [n_opt b2n] in *; try lia.
  all: destruct (notified s); cbn [b2n] in *; lia.
Qed.
