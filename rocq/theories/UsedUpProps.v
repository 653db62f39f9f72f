(** C116: on the poll backend a one-shot registration is used up only by a wait() that returns it. *)
From stdpp Require Import prelude list gmap.
From Verif Require Import Bits Types EventModel EventSpec PollModel PollSpec PollProofs PollProps.
From Verif Require Import Pool PollConcModel PollConcSpec PollConcProofs PollConcTable PollConcProps.
Local Open Scope nat_scope.

(** The wait() of thread [i] returns. *)
Definition wait_return (i : nat) (o : obs) : Prop :=
  match o with WaitOk j _ | WaitError j _ | WaitContended j => i = j | _ => False end.

(** Every turn was made with an answer poll(2) may give. *)
Definition answers_ok (c : config) (h : list obs) : Prop :=
  forall h1 i an fl ord h2, h = h1 ++ TurnEffect i an fl ord :: h2 ->
    posix_answer (table_after c h1) (PollRet an.1 an.2) /\ hash_order (table_after c h1) ord /\
    PollSpec.reachable (own c) (table_after c h1).
Lemma answers_snoc c h x :
  answers_ok c h ->
  (forall i an fl ord, x = TurnEffect i an fl ord ->
    posix_answer (table_after c h) (PollRet an.1 an.2) /\ hash_order (table_after c h) ord /\
    PollSpec.reachable (own c) (table_after c h)) ->
  answers_ok c (h ++ [x]).
Proof. intros H Hx h1 i an fl ord h2 E. apply snoc_split in E as [(-> & -> & <-)|(b' & -> & E)]; eauto. Qed.

Lemma answers_inv c n s : reachable c n s -> answers_ok c (log s).
Proof.
  induction 1 as [|s l s' Hr IH Hl Hs]; [by intros [|? h1] i an fl ord h2 E|].
  pose proof (replay_ok _ _ _ Hr) as Ht. pose proof (tab_inv_ok _ _ _ Hr) as [T1 T2]. clear Hr. unfold legal in Hl.
  step_cases Hs as Hp; try done.
  all: cbn [snd fst] in Hl.
  all: repeat apply answers_snoc; try done; intros ? ? ? ? E; try discriminate E.
  all: injection E as <- <- <- <-; rewrite <-Ht; split; [by apply (T2 _ _ _ Hp)|done].
Qed.

(** What a turn of a wait() that has not returned has come to. *)
Definition so_far (p : pc) (t : turn) : Prop :=
  match p with
  | WUnlock evs | WFlag evs | WRet evs => t = TAgain \/ t = TDone evs
  | WPanic => True
  | WLock | WSwap1 | WLoad | WSleep | WWoken | WPop | WPoll | WPopAll _ _ | WSwap3 _ | WUnlockErr _ | WErr _ => t = TAgain
  | _ => False
  end.
Definition said (c : config) (h : list obs) (an : answer) (fl : bool) (ord : list Z) : turn :=
  (poll_turn (table_after c h) (PollRet an.1 an.2) fl ord).1.
Definition turn_ok (c : config) (h : list obs) (i : nat) (p : pc) : Prop :=
  forall h1 an fl ord h2, h = h1 ++ TurnEffect i an fl ord :: h2 -> (forall o, o ∈ h2 -> ~ wait_return i o) ->
    so_far p (said c h1 an fl ord).

Lemma turn_ok_snoc c h i p q x :
  turn_ok c h i p -> (forall an fl ord, x <> TurnEffect i an fl ord) -> (wait_return i x \/ forall t, so_far p t -> so_far q t) ->
  turn_ok c (h ++ [x]) i q.
Proof.
  intros H Hx Hq h1 an fl ord h2 E N. apply snoc_split in E as [(-> & -> & <-)|(b' & -> & E)]; [by destruct (Hx an fl ord)|].
  destruct Hq as [Hq|Hq]; [by destruct (N x); [apply elem_of_app; right; left|]|].
  apply Hq. eapply H; [exact E|]. intros o Ho. apply N. apply elem_of_app. by left.
Qed.
Lemma turn_ok_turn c h i p q an fl ord :
  turn_ok c h i p -> (forall t, so_far p t -> so_far q t) -> so_far q (said c h an fl ord) ->
  turn_ok c (h ++ [TurnEffect i an fl ord]) i q.
Proof.
  intros H Hq Hx h1 an' fl' ord' h2 E N. apply snoc_split in E as [(-> & E & <-)|(b' & -> & E)].
  - injection E as <- <- <-. done.
  - apply Hq. eapply H; [exact E|]. intros o Ho. apply N. apply elem_of_app. by left.
Qed.
Lemma turn_ok_pc c h i p q : turn_ok c h i p -> (forall t, so_far p t -> so_far q t) -> turn_ok c h i q.
Proof. intros H Hq h1 an fl ord h2 E N. apply Hq. by eapply H. Qed.

Lemma no_terr t rs num fl ord e t' : poll_turn t (PollRet rs num) fl ord <> (TErr e, t').
Proof. unfold poll_turn. repeat case_match; try done; congruence. Qed.

Lemma turn_inv c n s i p : reachable c n s -> threads s !! i = Some p -> turn_ok c (log s) i p.
Proof.
  intros Hr. revert i p. induction Hr as [|s [j a] s' Hr IH Hl Hs]; intros i p Hi.
  { by intros [|? h1] an fl ord h2 E. }
  destruct (decide (i = j)) as [->|Hne].
  - pose proof (replay_ok _ _ _ Hr) as Ht. clear Hr Hl.
    step_cases Hs as Hp; specialize (IH _ _ Hp).
    all: try (erewrite lookup_self in Hi by exact Hp).
    all: try match goal with
         | Hj : ?l !! ?j = Some WSleep, Hi : <[?i:=_]> (<[?j:=WWoken]> _) !! ?i = _ |- _ =>
           erewrite lookup_self in Hi by
            (rewrite list_lookup_insert_ne by (intros ->; congruence); exact Hp)
         end.
    all: injection Hi as <-.
    all: try match goal with H : poll_turn _ _ _ _ = (TErr _, _) |- _ => by apply no_terr in H end.
    all: try (eapply turn_ok_pc; [exact IH|intros t; cbn; tauto]).
    all: try (eapply turn_ok_snoc; [exact IH|done|]; first [left; reflexivity|right; intros t; cbn; tauto]).
    all: try (eapply turn_ok_turn; [exact IH|intros t; cbn; tauto|]; unfold said; rewrite <-Ht;
              match goal with H : poll_turn _ _ _ _ = _ |- _ => cbn [fst snd] in *; rewrite H; cbn; tauto end).
    all: try (eapply turn_ok_snoc; [eapply turn_ok_snoc; [exact IH|done|]|done|];
              first [left; reflexivity|right; intros t H; exact H]).
    all: idtac.
  - destruct (log_ext c s j a s' Hs) as (k & E & Hk).
    assert (W : exists q, threads s !! i = Some q /\ forall t, so_far q t -> so_far p t).
    { destruct (other_thread c s j a s' i p Hs Hne Hi) as [Hi'|[-> Hi']]; eauto. }
    destruct W as (q & Hq & Hw). specialize (IH i q Hq). rewrite E.
    intros h1 an fl ord h2 E2 N. apply Hw.
    assert (exists b, h2 = b ++ k /\ log s = h1 ++ TurnEffect i an fl ord :: b) as (b & -> & E3).
    { clear -E2 Hk Hne. revert h2 E2. induction k as [|x k IH] using rev_ind; intros h2 E2.
      - rewrite app_nil_r in E2. exists h2. by rewrite app_nil_r.
      - rewrite (assoc_L (++)) in E2. apply snoc_split in E2 as [(-> & -> & E)|(b & -> & E)].
        + exfalso. apply Hne. apply (Hk (TurnEffect i an fl ord)). apply elem_of_app. right. left.
        + destruct (IH (fun o Ho => Hk o ltac:(apply elem_of_app; by left)) _ E) as (b' & -> & E').
          exists b'. by rewrite (assoc_L (++)). }
    eapply IH; [exact E3|]. intros o Ho. apply N. apply elem_of_app. by left.
Qed.

Lemma always_returned o s rs num fd r :
  PollSpec.reachable o s -> posix_answer s (PollRet rs num) -> registered s fd r -> exists f, returned s rs fd f.
Proof.
  intros _ [L _] (d & pf & _ & Hp & Hf & _).
  destruct (lookup_lt_is_Some_2 rs (fd_index d)) as [f Hr]; [rewrite L; by eapply lookup_lt_Some|].
  exists f, (fd_index d), pf. done.
Qed.

Lemma outcome c n s h1 i an fl ord h2 o h3 :
  reachable c n s -> log s = h1 ++ TurnEffect i an fl ord :: h2 ++ o :: h3 ->
  (forall x, x ∈ h2 -> ~ wait_return i x) -> wait_return i o ->
  so_far (match o with WaitOk _ evs => WRet evs | WaitError _ e => WErr e | _ => Idle end) (said c h1 an fl ord).
Proof.
  intros R E N O. change (TurnEffect i an fl ord :: h2 ++ o :: h3) with ((TurnEffect i an fl ord :: h2) ++ o :: h3) in E.
  rewrite (assoc_L (++)) in E. revert h3 E.
  induction R as [|s l s' R IH Hl Hs]; intros h3 E; [exfalso; cbn in E; by destruct h1|].
  pose proof (fun i p => turn_inv c n s i p R) as TI. clear R Hl.
  step_cases Hs as Hp; try (by eapply IH).
  all: specialize (TI _ _ Hp).
  all: repeat (apply snoc_split in E as [(-> & <- & E)|(? & -> & E)]; [|try (by eapply IH)]).
  all: cbn [wait_return] in O; try done; subst.
  all: try (by apply (TI h1 an fl ord h2)).
Qed.
Lemma after_turn c h i an fl ord :
  table_after c (h ++ [TurnEffect i an fl ord]) = (poll_turn (table_after c h) (PollRet an.1 an.2) fl ord).2.
Proof. unfold table_after. by rewrite replay_app. Qed.

(** ** The theorems *)
(** If a turn of a wait() changed what is registered for a descriptor, and that wait() has returned since, it returned
    Ok and with an event of that descriptor. *)
Theorem C116_used_up_means_reported c n s h1 i an fl ord h2 o h3 fd :
  wf_own (own c) -> reachable c n s ->
  log s = h1 ++ TurnEffect i an fl ord :: h2 ++ o :: h3 ->
  (forall x, x ∈ h2 -> ~ wait_return i x) -> wait_return i o ->
  ~ same_reg (table_after c h1) (table_after c (h1 ++ [TurnEffect i an fl ord])) fd ->
  exists evs e, o = WaitOk i evs /\ (fd, e) ∈ evs.
Proof.
  intros W R E N O D.
  destruct (answers_inv _ _ _ R _ _ _ _ _ _ E) as (A & H & Rt).
  pose proof (outcome _ _ _ _ _ _ _ _ _ _ _ R E N O) as T.
  rewrite after_turn in D. unfold said in T.
  destruct (poll_turn (table_after c h1) (PollRet an.1 an.2) fl ord) as [t s2] eqn:P. cbn [fst snd] in *.
  assert (t = TAgain -> False) as NA.
  { intros ->. apply D. by apply (C29_wait_repeats_only_for_internal_wakeups _ _ _ _ _ _ _ W Rt A H P). }
  destruct o as [| | | | | | |j| | |j evs|j e]; cbn [wait_return] in O; try done; subst j; cbn [so_far] in T; try (by destruct NA).
  destruct T as [T|T]; [by destruct NA|]. subst t.
  destruct (decide (fd ∈ evs.*1)) as [M|M].
  { apply elem_of_list_fmap in M as ([fd' e] & -> & M). by exists evs, e. }
  exfalso. apply D. intros r.
  pose proof (proj2 (C29_wait_delivers_exactly_what_poll_returned _ _ _ _ _ _ _ _ W Rt A H P)) as DL.
  rewrite (C29_wait_disarms_only_reported_oneshots _ _ _ _ _ _ _ _ W Rt A H P).
  assert (Z : forall r f, registered (table_after c h1) fd r -> returned (table_after c h1) an.1 fd f -> f = 0%N).
  { intros r0 f Hr Hf. destruct (decide (f = 0%N)) as [|Nz]; [done|]. exfalso. apply M.
    apply elem_of_list_fmap. exists (fd, poll_to_event (reg_key r0) f). split; [done|]. apply DL. by exists r0, f. }
  split.
  - intros Hr. exists r. split; [done|]. right. split; [|done]. right.
    destruct (always_returned _ _ _ _ _ _ Rt A Hr) as [f Hf]. by rewrite <-(Z _ _ Hr Hf).
  - intros (r0 & Hr & [(_ & (f & Hf & Nf) & _)|[_ ->]]); [|done]. by destruct Nf; eapply Z.
Qed.
Print Assumptions C116_used_up_means_reported.

(** A wait() that fails has used up no registration. *)
Theorem C116_failed_wait_uses_up_nothing c n s h1 i an fl ord h2 e h3 :
  wf_own (own c) -> reachable c n s ->
  log s = h1 ++ TurnEffect i an fl ord :: h2 ++ WaitError i e :: h3 ->
  (forall x, x ∈ h2 -> ~ wait_return i x) ->
  forall fd, same_reg (table_after c h1) (table_after c (h1 ++ [TurnEffect i an fl ord])) fd.
Proof.
  intros W R E N. destruct (answers_inv _ _ _ R _ _ _ _ _ _ E) as (A & H & Rt).
  pose proof (outcome _ _ _ _ _ _ _ _ _ _ _ R E N eq_refl) as T. cbn [so_far] in T. unfold said in T.
  rewrite after_turn. destruct (poll_turn (table_after c h1) (PollRet an.1 an.2) fl ord) as [t s2] eqn:P. cbn [fst snd] in *. subst t.
  by apply (C29_wait_repeats_only_for_internal_wakeups _ _ _ _ _ _ _ W Rt A H P).
Qed.
Print Assumptions C116_failed_wait_uses_up_nothing.

(** ** Cases *)
Fixpoint run_any (c : config) (s : state) (ls : list label) : option state :=
  match ls with
  | [] => Some s
  | l :: r => if legalb s l then match step c s l with Some s' => run_any c s' r | None => None end else None
  end.
Lemma run_any_reach c n s ls s' : reachable c n s -> run_any c s ls = Some s' -> reachable c n s'.
Proof.
  revert s. induction ls as [|l ls IH]; cbn [run_any]; intros s H R; [by simplify_eq|].
  destruct (legalb s l) eqn:L; [|done]. destruct (step c s l) eqn:E; [|done].
  eapply IH; [|done]. econstructor; [done|by apply legalb_ok|done].
Qed.
(** A thread in poll(2) is woken because another one adds a descriptor, polls again and reports it. *)
Example C116_case : exists s h1 an fl ord h2 evs,
  wf_own (own (cfg Pipe)) /\ reachable (cfg Pipe) 2 s /\
  log s = h1 ++ TurnEffect 0 an fl ord :: h2 ++ [WaitOk 0 evs] /\ (forall x, x ∈ h2 -> ~ wait_return 0 x) /\
  registered (table_after (cfg Pipe) h1) 10 (Reg 1 3 true) /\
  registered (table_after (cfg Pipe) (h1 ++ [TurnEffect 0 an fl ord])) 10 (Reg 1 0 true).
Proof.
  eexists _, _, _, _, _, [], _. split; [apply o34_wf|]. split.
  { eapply (run_any_reach _ _ _ (woken_add ++ at0 [KRet ([0; 1]%N, 1); Store [10%Z]; Go; Go; Go])); [constructor|]. vm_compute. reflexivity. }
  split; [cbn [log app]; eapply (f_equal2 app (x1 := [_; _; _; _; _; _; _])); reflexivity|].
  split; [by intros x Hx%elem_of_nil|].
  split; eexists _, _; vm_compute; repeat split; reflexivity.
Qed.
(** The same, but the second poll(2) call fails. *)
Example C116_failure_case : exists s h1 an fl ord h2 e,
  reachable (cfg Pipe) 2 s /\
  log s = h1 ++ TurnEffect 0 an fl ord :: h2 ++ [WaitError 0 e] /\ (forall x, x ∈ h2 -> ~ wait_return 0 x).
Proof.
  eexists _, _, _, _, _, _, _. split.
  { eapply (run_any_reach _ _ _ (woken_add ++ at0 [Fault (EOs EBADF); Go; Go])); [constructor|]. vm_compute. reflexivity. }
  split; [cbn [log app]; eapply (f_equal2 app (x1 := [_; _; _])); [reflexivity|];
          eapply (f_equal2 cons); [reflexivity|]; eapply (f_equal2 app (x1 := [_; _; _])); reflexivity|].
  intros x Hx. cbn in Hx. rewrite !elem_of_cons, elem_of_nil in Hx. destruct Hx as [->|[->|[->|[]]]]; intros [].
Qed.
