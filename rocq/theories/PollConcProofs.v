(** Proofs about [PollConcModel]: locks, counters, table. *)
From stdpp Require Import prelude list gmap.
From Verif Require Import Bits Types EventModel PollModel PollSpec PollProofs.
From Verif Require Import Pool PollConcModel PollConcSpec.
Local Open Scope nat_scope.

Definition crit (p : pc) : bool :=
  match p with
  | OPop _ | OApply _ | ODec _ | OSignal _ | OUnlock _
  | WSwap1 | WLoad | WPop | WPoll | WPopAll _ _ | WSwap3 _ | WUnlock _ | WUnlockErr _ | WPanic => true
  | _ => false
  end.
Definition waiter (p : pc) : bool :=
  match p with
  | WLock | WSwap1 | WLoad | WSleep | WWoken | WPop | WPoll | WPopAll _ _ | WSwap3 _
  | WUnlock _ | WUnlockErr _ | WFlag _ | WRet _ | WErr _ | WPanic => true
  | _ => false
  end.
Definition inop (p : pc) : bool :=
  match p with OWrite _ | OLock _ _ | OPop _ | OApply _ | ODec _ => true | _ => false end.
Definition is_osignal (p : pc) : bool := match p with OSignal _ => true | _ => false end.
Definition is_nwrite (p : pc) : bool := match p with NWrite => true | _ => false end.
Definition is_nswap (p : pc) : bool := match p with NSwap => true | _ => false end.
Definition olock_sent (p : pc) : bool := match p with OLock _ true => true | _ => false end.
Definition olock_unsent (p : pc) : bool := match p with OLock _ false => true | _ => false end.

Definition n_opt (o : option nat) : nat := match o with Some _ => 1 | None => 0 end.

Lemma existsb_false_cnt {A} (f : A -> bool) l : existsb f l = false -> cnt f l = 0.
Proof.
  induction l as [|x l IH]; simpl; [done|]. rewrite orb_false_iff. intros [-> H]. simpl. auto.
Qed.

Ltac fields :=
  cbn [lib_flag lib_lock notified ops mutex bytes table threads log set_pc set_lib_flag
       set_lib_lock set_notified set_ops set_mutex set_bytes set_table emit] in *.

(** Split [step] into its cases. *)
Tactic Notation "step_cases" hyp(H) "as" ident(Hp) :=
  unfold step in H;
  try match type of H with
  | context [let (i, a) := ?l in _] => destruct l as [? ?]
  end;
  let q := fresh "q" in
  match type of H with
  | context [match ?ts !! ?i with _ => _ end] =>
      destruct (ts !! i) as [q|] eqn:Hp; [|discriminate H]
  end;
  match type of H with
  | context [match q with _ => _ end] => destruct q
  end;
  match goal with a : act |- _ => destruct a; try discriminate H end;
  unfold signal in H;
  repeat match type of H with
  | context [match ?x with _ => _ end] =>
      lazymatch x with
      | context [match _ with _ => _ end] => fail
      | _ => destruct x eqn:?; try discriminate H
      end
  end;
  repeat match goal with
  | HS : Some _ = Some _ |- _ => injection HS as HS
  end; subst;
  fields.

Ltac nested Hp :=
  match goal with
  | Hj : ?l !! ?j = Some WSleep |- context [<[?i:=_]> (<[?j:=WWoken]> ?l)] =>
      let H := fresh "Hp'" in
      pose proof (eq_trans (list_lookup_insert_ne l j i WWoken ltac:(intros ->; congruence)) Hp) as H;
      repeat match goal with
      | |- context [cnt ?f (<[i:=?p]> (<[j:=WWoken]> l))] =>
          lazymatch goal with
          | _ : cnt f (<[i:=p]> (<[j:=WWoken]> l)) + _ = _ |- _ => fail
          | _ => pose proof (cnt_insert f _ i _ p H); pose proof (cnt_insert f _ j _ WWoken Hj)
          end
      end
  end.
Ltac counts Hp :=
  try nested Hp;
  repeat match goal with
  | |- context [cnt ?f (<[?i:=?p]> ?l)] =>
      lazymatch goal with
      | _ : cnt f (<[i:=p]> l) + _ = _ |- _ => fail
      | _ => pose proof (cnt_insert f l i _ p Hp)
      end
  end;
  cbn [b2n crit waiter inop is_osignal is_nwrite is_nswap olock_sent olock_unsent asleep n_opt] in *.

Record base (s : state) : Prop := Base {
  base_mutex : cnt crit (threads s) = n_opt (mutex s);
  base_lib : cnt waiter (threads s) = n_opt (lib_lock s);
  base_ops : cnt inop (threads s) = ops s;
  base_sleep : 0 < cnt asleep (threads s) -> 0 < ops s + cnt is_osignal (threads s)
}.

Lemma n_opt_le o : n_opt o <= 1.
Proof. destruct o; simpl; lia. Qed.

Lemma asleep_waiter l : cnt asleep l <= cnt waiter l.
Proof. apply cnt_mono. by intros []. Qed.

Lemma base_inv c n s : reachable c n s -> base s.
Proof.
  induction 1 as [|s l s' Hr [H1 H2 H3 H4] Hl Hs].
  - split; simpl; rewrite ?cnt_replicate; simpl; lia.
  - assert (Hge : forall f, forall p, threads s !! l.1 = Some p -> b2n (f p) <= cnt f (threads s))
      by (intros f p; apply cnt_ge).
    pose proof (n_opt_le (mutex s)) as L1. pose proof (n_opt_le (lib_lock s)) as L2.
    pose proof (asleep_waiter (threads s)) as L3.
    clear Hr Hl. step_cases Hs as Hp.
    all: cbn [fst] in Hge.
    all: pose proof (Hge inop _ Hp) as G1; pose proof (Hge crit _ Hp) as G2;
         pose proof (Hge waiter _ Hp) as G3; clear Hge.
    all: split; fields.
    all: counts Hp; rewrite ?H1, ?H2, ?H3 in *;
      repeat match goal with H : mutex ?s = _ |- _ => rewrite H in * end;
      repeat match goal with H : lib_lock ?s = _ |- _ => rewrite H in * end;
      repeat match goal with H : existsb _ _ = false |- _ => apply existsb_false_cnt in H end;
      cbn [n_opt] in *; lia.
Qed.
