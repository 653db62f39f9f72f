(** Further proofs about concurrent use of the poll backend: early returns and interruptions. *)
From stdpp Require Import prelude list gmap.
From Verif Require Import Bits Types EventModel PollModel PollSpec PollProofs Pool PollConcModel PollConcSpec PollConcProofs
  PollConcProofs2 PollConcTable PollConcNotify.
Local Open Scope nat_scope.

Definition empty_pc (p : pc) : bool :=
  match p with WPop | WUnlock [] | WFlag [] | WRet [] => true | _ => false end.

Lemma done_reason c n s i an order t : reachable c n s -> threads s !! i = Some (WSwap3 an) ->
  poll_turn (table s) (PollRet an.1 an.2) false order = (TDone [], t) ->
  poll_reason (TurnEffect i an false order) = true.
Proof.
  intros Hr Hi E. destruct (tab_inv_ok c n s Hr) as [H1 H2]. destruct (H2 _ _ _ Hi eq_refl) as [[Hl Hn] _].
  destruct an as [rs num]. cbn [fst snd] in *. unfold poll_turn in E.
  destruct rs as [|f rs]; [done|]. cbn [poll_reason fst snd]. unfold reports_notifier. cbn [fst].
  destruct (is_empty f) eqn:Ef; [done|]. cbn [negb andb].
  apply negb_true_iff, bool_decide_eq_false. intros ->.
  destruct (poll_fds (table s)) as [|pf pr]; [done|]. simpl in E. rewrite Ef in E. simpl in E. done.
Qed.

Lemma early_inv c n s : reachable c n s ->
  count is_empty_wait (log s) + cnt empty_pc (threads s) + b2n (notified s)
    + cnt is_ncas (threads s) + cnt is_nswap (threads s) <=
  count is_notify_call (log s) + count poll_reason (log s).
Proof.
  induction 1 as [|s l s' Hr IH Hl Hs].
  { simpl. rewrite !cnt_replicate. simpl. lia. }
  pose proof (done_reason c n s) as Hst. specialize (fun i an o t => Hst i an o t Hr).
  clear Hr. unfold legal in Hl. step_cases Hs as Hp.
  all: cbn [fst snd] in *.
  all: rewrite ?count_snoc.
  all: counts3 Hp; cbn [empty_pc is_ncas is_empty_wait is_notify_call] in *.
  all: repeat match goal with H : notified ?s = _ |- _ => rewrite H in * end; cbn [b2n] in *.
  all: try lia.
  all: try (match goal with E : poll_turn _ _ _ _ = (TDone ?e, _) |- _ => destruct e end; cbn [b2n] in *; try lia).
  all: try (destruct (notified s) eqn:En; cbn [b2n] in *; [lia|]; rewrite (Hst _ _ _ _ Hp ltac:(eassumption)) in *; cbn [b2n] in *; lia).
  all: repeat match goal with
       | |- context [match ?e with _ => _ end] => is_var e; destruct e
       | H : context [match ?e with _ => _ end] |- _ => is_var e; destruct e
       end; cbn [b2n] in *; try lia.
Qed.

Definition interrupted (p : pc) : bool :=
  match p with WErr e => match kind e with KInterrupted => true | _ => false end | _ => false end.
Lemma not_interrupted c n s : reachable c n s ->
  cnt interrupted (threads s) = 0 /\ forall i e, WaitError i e ∈ log s -> kind e <> KInterrupted.
Proof.
  induction 1 as [|s l s' Hr [IH1 IH2] Hl Hs].
  { simpl. rewrite !cnt_replicate. simpl. split; [lia|]. intros i e H. by apply elem_of_nil in H. }
  clear Hr. unfold legal in Hl. step_cases Hs as Hp.
  all: cbn [fst snd] in *.
  all: split; [|try (intros i' e' He; first [by eapply IH2|
      apply elem_of_app in He as [He|He]; [by eapply IH2|]; apply elem_of_list_singleton in He; try done])].
  all: try (counts3 Hp; cbn [interrupted b2n] in *; repeat match goal with H : kind _ = _ |- _ => rewrite H in * end; cbn [b2n] in *; lia).
  - intros i' e' He. rewrite !elem_of_app, !elem_of_list_singleton in He. destruct He as [[He|He]|He]; [|done|done].
    by eapply IH2.
  - injection He as -> ->. pose proof (cnt_ge interrupted _ _ _ Hp) as G. cbn [interrupted] in G.
    intros Hk. rewrite Hk in G. simpl in G. lia.
Qed.
