(** Proofs for [PollReadyProps]. *)
From stdpp Require Import prelude list gmap.
From Verif Require Import Bits Types EventModel EventSpec EventProofs PollModel PollSpec PollProofs Pool PollConcModel PollConcSpec
  PollConcProofs PollConcTable PollReadySpec.
Local Open Scope nat_scope.

Definition holding (p : pc) : list (Z * event N) :=
  match p with WUnlock evs | WFlag evs | WRet evs => evs | _ => [] end.
Lemma holding_waiter p x : x ∈ holding p -> waiter p = true.
Proof. destruct p; cbn; intros H; try done; by apply elem_of_nil in H. Qed.
Lemma waiter_unique c n s i j p q : reachable c n s -> threads s !! i = Some p -> threads s !! j = Some q ->
  waiter p = true -> waiter q = true -> i = j.
Proof.
  intros Hr Hi Hj Hp Hq. destruct (decide (i = j)) as [|Hne]; [done|].
  pose proof (cnt_two waiter _ i j p q Hi Hj Hp Hq Hne). pose proof (base_lib _ (base_inv c n s Hr)). pose proof (n_opt_le (lib_lock s)). lia.
Qed.

(** What the request in the log amounts to in the table. *)
Definition once (m : poll_mode) : bool := match m with Oneshot => true | _ => false end.
Definition as_asked (e : event N) (m : poll_mode) : reg := Reg (ev_key e) (poll_events e) (once m).
Lemma once_iff m : once m = true <-> m = Oneshot.
Proof. by destruct m. Qed.

Lemma requested_snoc fd e m h o : requested fd e m (h ++ [o]) ->
  (exists i cl, o = OpEffect i cl (Ok tt) /\ (cl = CAdd fd e m \/ cl = CModify fd e m)) \/
  (requested fd e m h /\ ~ changes fd o /\ (m = Oneshot -> ~ tells fd o)).
Proof.
  intros (h1 & i & cl & h2 & E & Hc & H1 & H2). apply snoc_split in E as [(-> & -> & ->)|(b & -> & ->)].
  - left. eauto.
  - right. split.
    + exists h1, i, cl, b. split; [done|]. split; [done|]. split; [|intros Em]; intros o' Ho'; [apply H1|apply (H2 Em)]; set_solver.
    + split; [apply H1; set_solver|]. intros Em. apply (H2 Em). set_solver.
Qed.

Lemma wanted_asked cl fd e m r : cl = CAdd fd e m \/ cl = CModify fd e m -> wanted cl r <-> r = as_asked e m.
Proof.
  intros [-> | ->]; cbn; unfold as_asked; destruct r as [k f b]; cbn;
    (split; [intros (-> & -> & H); f_equal; rewrite <- once_iff in H; destruct b, (once m); intuition congruence
            |intros [= -> -> ->]; rewrite once_iff; done]).
Qed.

Lemma call_keeps o t cl fd e m i r : wf o t -> do_call o t cl = r ->
  ~ changes fd (OpEffect i cl r.1) -> ~ wrong_mode fd (OpEffect i cl r.1) ->
  registered t fd (as_asked e m) -> registered r.2 fd (as_asked e m).
Proof.
  intros Hw <- Hc Hm H. destruct (decide (call_fd cl = fd)) as [Hf|Hf].
  - destruct (do_call o t cl) as [[[]|er|] t'] eqn:E; cbn [fst snd] in *.
    + done.
    + destruct (call_error o t cl er t' Hw E) as [->|(f & ev & m' & -> & Hm' & _)]; [done|].
      cbn in Hf. subst f. destruct Hm' as [-> | ->]; by destruct Hm.
    + by destruct (call_wf o t cl _ t' Hw E).
  - by apply (call_other o t cl fd Hw Hf).
Qed.

Lemma turn_keeps o t rs num flag order r t' fd e m :
  wf o t -> wf_own o -> PollSpec.reachable o t -> posix_answer t (PollRet rs num) -> hash_order t order ->
  poll_turn t (PollRet rs num) flag order = (r, t') ->
  (m = Oneshot -> forall evs, r = TDone evs -> forall ev, (fd, ev) ∉ evs) ->
  registered t fd (as_asked e m) -> registered t' fd (as_asked e m).
Proof.
  intros Hw Ho Hr Ha Hh Ht Hn H. apply (turn_regs o t rs num flag order r t' Hw Ho Ha Hh Ht). exists (as_asked e m). split; [done|]. right. split; [|done].
  destruct (once m) eqn:Hm; [|by left]. apply once_iff in Hm as ->.
  right. pose proof Ha as [Hl _]. pose proof H as (d & pf & Hd & Hp & Hf & _).
  destruct (lookup_lt_is_Some_2 rs (fd_index d)) as [f Hrs]. { rewrite Hl. by eapply lookup_lt_Some. }
  assert (returned t rs fd f) as Hret by (by exists (fd_index d), pf).
  destruct (decide (f = 0%N)) as [->|Hz]; [done|]. exfalso.
  destruct (turn_wf o t _ flag order r t' Hw Ha Hh Ht) as [Hp' _].
  destruct r as [|evs| |]; [| | |done].
  - destruct (turn_again o t rs num flag order t' Ho Hr Ha Hh Ht) as (_ & _ & Hz' & _). by specialize (Hz' fd _ f H Hret).
  - destruct (turn_events o t rs num flag order evs t' Hw Ho Ha Hh Ht) as [_ He].
    apply (Hn eq_refl evs eq_refl (poll_to_event (reg_key (as_asked e Oneshot)) f)). apply He. by exists (as_asked e Oneshot), f.
  - by destruct (turn_cases o t rs num flag order _ t' Hw Ha Hh Ht) as [(? & _)|(? & _)].
Qed.

Definition none_held (fd : Z) (s : state) : Prop := forall j p ev, threads s !! j = Some p -> (fd, ev) ∉ holding p.
Lemma none_back c s i a s' fd : step c s (i, a) = Some s' -> none_held fd s' ->
  (forall evs, log s' = log s ++ [WaitOk i evs] -> forall ev, (fd, ev) ∉ evs) -> none_held fd s.
Proof.
  intros Hs H Ht j p ev Hj Hin. assert (holding p <> []) as Hne by (intros E; rewrite E in Hin; by apply elem_of_nil in Hin).
  unfold none_held in H. revert H Ht. step_cases Hs as Hp; intros H Ht.
  all: destruct (decide (i = j)) as [<-|Hij];
    [rewrite Hp in Hj; injection Hj as <-; cbn [holding] in Hin, Hne; try done
    |apply (H j p ev); [|exact Hin]; rewrite list_lookup_insert_ne by done; try exact Hj].
  all: try (apply (H i _ ev (lookup_self _ _ _ _ Hp)); exact Hin).
  all: try (by eapply Ht).
  all: rewrite list_lookup_insert_ne; [exact Hj|]; intros ->; rewrite Hj in *; simplify_eq; by cbn in Hne.
Qed.

Lemma asked_inv c n s fd e m : wf_own (own c) -> reachable c n s -> (forall o, o ∈ log s -> ~ wrong_mode fd o) ->
  requested fd e m (log s) -> (m = Oneshot -> none_held fd s) -> registered (table s) fd (as_asked e m).
Proof.
  intros Ho. induction 1 as [|s [i a] s' Hr IH Hl Hs].
  - intros _ (h1 & j & cl & h2 & E & _). cbn in E. by destruct h1.
  - destruct (tab_inv_ok c n s Hr) as [T1 T2]. pose proof (reachable_wf _ _ T1) as Hw.
    pose proof (none_back c s i a s' fd Hs) as Hb. intros Hm Hq Hh.
    assert (m = Oneshot -> (forall evs, log s' = log s ++ [WaitOk i evs] -> forall ev, (fd, ev) ∉ evs) -> none_held fd s) as Hb' by auto.
    assert (forall p, threads s' !! i = Some p -> m = Oneshot -> forall ev, (fd, ev) ∉ holding p) as Hi by (intros p Ep Em ev; by apply (Hh Em i)).
    clear Hr Hb Hh. unfold legal in Hl. step_cases Hs as Hp; cbn [snd fst] in *.
    all: repeat match type of Hq with requested _ _ _ (_ ++ [_]) =>
      apply requested_snoc in Hq as [(? & ? & Hq & ?)|(Hq & ? & ?)]; [try discriminate Hq; try (injection Hq as <- <- Hq)|] end.
    all: try (assert (forall o, o ∈ log s -> ~ wrong_mode fd o) as Hm' by (intros o Ho'; apply Hm; set_solver)).
    all: try (assert (m = Oneshot -> none_held fd s) as Hn by
      (intros Em; apply (Hb' Em); intros evs' E; first
        [ apply app_inv_head in E; simplify_eq; intros ev Hev; match goal with K : _ = Oneshot -> ~ tells _ _ |- _ => apply (K Em); cbn; eauto end
        | apply (f_equal length) in E; rewrite ?app_length in E; cbn in E; lia ])).
    all: try (specialize (IH Hm' Hq Hn); exact IH).
    + exfalso. destruct c0; cbn in Hq, Heqb; unfold poll_add, poll_modify, poll_delete in Hq; by rewrite Heqb in Hq.
    + match goal with H : do_call _ _ _ = _ |- _ => rename H into Hd end. subst.
      destruct (call_effect (own c) (table s) _ _ Hw Hd) as [He _].
      match goal with H : _ = CAdd fd e m \/ _ |- _ => rename H into Hcl end.
      apply (wanted_asked _ _ _ _ (as_asked e m)) in Hcl as Hwa.
      replace (call_fd _) with fd in He by (destruct Hcl as [-> | ->]; done). apply He. by apply Hwa.
    + match goal with H : do_call _ _ _ = _ |- _ => rename H into Hd end.
      specialize (IH Hm' Hq Hn).
      eapply (call_keeps _ _ _ _ _ _ i _ Hw Hd); [done| |exact IH]. apply Hm. set_solver.
    + specialize (IH Hm' Hq Hn). match goal with H : poll_turn _ _ _ _ = _ |- _ => rename H into Ht end.
      pose proof (proj1 (T2 _ _ _ Hp eq_refl)) as Ha.
      apply (turn_keeps _ _ _ _ _ _ _ _ _ _ _ Hw Ho T1 Ha Hl Ht); [|exact IH]. by intros.
    + specialize (IH Hm' Hq Hn). match goal with H : poll_turn _ _ _ _ = _ |- _ => rename H into Ht end.
      pose proof (proj1 (T2 _ _ _ Hp eq_refl)) as Ha.
      apply (turn_keeps _ _ _ _ _ _ _ _ _ _ _ Hw Ho T1 Ha Hl Ht); [|exact IH]. intros Em evs' [= <-]. exact (Hi _ (lookup_self _ _ _ _ Hp) Em).
    + specialize (IH Hm' Hq Hn). match goal with H : poll_turn _ _ _ _ = _ |- _ => rename H into Ht end.
      pose proof (proj1 (T2 _ _ _ Hp eq_refl)) as Ha.
      apply (turn_keeps _ _ _ _ _ _ _ _ _ _ _ Hw Ho T1 Ha Hl Ht); [|exact IH]. by intros.
    + specialize (IH Hm' Hq Hn). match goal with H : poll_turn _ _ _ _ = _ |- _ => rename H into Ht end.
      pose proof (proj1 (T2 _ _ _ Hp eq_refl)) as Ha.
      apply (turn_keeps _ _ _ _ _ _ _ _ _ _ _ Hw Ho T1 Ha Hl Ht); [|exact IH]. by intros.
    + apply (IH Hm' Hq). intros Em. apply (Hb' Em). intros evs0 E. apply app_inv_head in E as [= <-]. intros ev Hev. apply (H0 Em). cbn. eauto.
Qed.

Lemma asked_polling c n s fd e m i : wf_own (own c) -> reachable c n s -> (forall o, o ∈ log s -> ~ wrong_mode fd o) ->
  requested fd e m (log s) -> threads s !! i = Some WPoll -> registered (table s) fd (as_asked e m).
Proof.
  intros Ho Hr Hm Hq Hi. apply (asked_inv c n s fd e m Ho Hr Hm Hq). intros _ j p ev Hj Hin.
  pose proof (waiter_unique c n s i j _ _ Hr Hi Hj eq_refl (holding_waiter _ _ Hin)) as <-.
  rewrite Hi in Hj. injection Hj as <-. by apply elem_of_nil in Hin.
Qed.

(** ** From the answer of poll(2) to the return of wait *)
Definition good (x : Z * event N) (a : answer) (t0 : fds) (p : pc) (t : fds) : Prop :=
  match p with
  | WPopAll a' _ | WSwap3 a' => a' = a /\ t = t0
  | WUnlock evs | WFlag evs | WRet evs => x ∈ evs
  | _ => False
  end.

Lemma other_keeps c s j b s' i p : step c s (j, b) = Some s' -> j <> i -> threads s !! i = Some p -> p <> WSleep -> threads s' !! i = Some p.
Proof.
  intros Hs Hne Hi Hsl. step_cases Hs as Hp; rewrite list_lookup_insert_ne by done; try exact Hi.
  all: rewrite list_lookup_insert_ne; [exact Hi|]; intros ->; rewrite Hi in *; simplify_eq.
Qed.

Lemma good_step c n s j b s' i x a t0 r f p : wf_own (own c) -> reachable c n s -> legal s (j, b) -> step c s (j, b) = Some s' ->
  registered t0 x.1 r -> returned t0 a.1 x.1 f -> f <> 0%N -> x.2 = poll_to_event (reg_key r) f ->
  threads s !! i = Some p -> good x a t0 p (table s) ->
  exists k, log s' = log s ++ k /\
    ((exists p', threads s' !! i = Some p' /\ good x a t0 p' (table s') /\ forall o, o ∈ k -> ~ wait_returns i o) \/
     (exists evs, k = [WaitOk i evs] /\ x ∈ evs)).
Proof.
  intros Ho Hr Hl Hs Hreg Hret Hf Hx Hi Hg. destruct (decide (j = i)) as [->|Hne].
  - destruct (tab_inv_ok c n s Hr) as [T1 T2]. pose proof (reachable_wf _ _ T1) as Hw. clear Hr. unfold legal in Hl.
    step_cases Hs as Hp; try done; cbn [good fst snd] in *.
    1-3: exists []; rewrite app_nil_r; split; [done|]; left; eexists; split; [exact (lookup_self _ _ _ _ Hp)|]; split; [exact Hg|];
      by intros o Ho'%elem_of_nil.
    5-6: exists []; rewrite app_nil_r; split; [done|]; left; eexists; split; [exact (lookup_self _ _ _ _ Hp)|]; split; [exact Hg|];
      by intros o Ho'%elem_of_nil.
    5: eexists; split; [done|]; right; eauto.
    all: destruct Hg as [-> <-]; pose proof (proj1 (T2 _ _ _ Hp eq_refl)) as Ha; destruct x as [fd0 ev0]; cbn [fst snd] in *;
      match goal with H : poll_turn _ _ _ _ = _ |- _ => rename H into Ht end.
    + destruct (turn_again _ _ _ _ _ _ _ Ho T1 Ha Hl Ht) as (_ & _ & Hz & _). destruct Hf. exact (Hz fd0 r f Hreg Hret).
    + eexists. split; [done|]. left. eexists. split; [exact (lookup_self _ _ _ _ Hp)|]. split.
      * cbn [good]. destruct (turn_events _ _ _ _ _ _ _ _ Hw Ho Ha Hl Ht) as [_ He]. apply He. by exists r, f.
      * intros o ->%elem_of_list_singleton [].
    + by destruct (turn_cases _ _ _ _ _ _ _ _ Hw Ha Hl Ht) as [(? & _)|(? & _)].
    + by destruct (turn_wf _ _ _ _ _ _ _ Hw Ha Hl Ht) as [? _].
  - destruct (log_ext _ _ _ _ _ Hs) as (k & Ek & Hk). exists k. split; [done|]. left. exists p.
    split; [apply (other_keeps c s j b s'); [done|done|done|by intros ->]|]. split.
    + enough (crit p = true -> table s' = table s) as Hc.
      { destruct p; cbn [good] in *; try done; by rewrite (Hc eq_refl). }
      intros Hp. destruct (table_frame _ _ _ _ _ Hs) as [|[(cl & Hj)|(an & Hj)]]; [done| |];
        by destruct Hne; eapply (crit_unique c n s).
    + intros o Ho' Hw. apply Hne. rewrite <- (Hk o Ho'). by destruct o.
Qed.

Lemma later_reach c n s s' : reachable c n s -> later c s s' -> reachable c n s'.
Proof. intros Hr. induction 1; [done|]. by econstructor. Qed.
Lemma first_split {A} (P : A -> Prop) (h k h1 h2 : list A) o : h ++ k = h1 ++ o :: h2 ->
  (exists h2', h = h1 ++ o :: h2') \/ (exists k1, h1 = h ++ k1 /\ k = k1 ++ o :: h2).
Proof.
  intros E. apply app_eq_inv in E as [(q & E1 & E2)|(q & E1 & E2)].
  - destruct q as [|y q]; [|injection E2 as <- E2; left; eauto].
    right. exists []. cbn in E2. rewrite app_nil_r in E1. rewrite app_nil_r. subst. done.
  - right. eauto.
Qed.

Lemma good_later c n s0 s i x a t0 r f p : wf_own (own c) -> reachable c n s0 -> later c s0 s ->
  registered t0 x.1 r -> returned t0 a.1 x.1 f -> f <> 0%N -> x.2 = poll_to_event (reg_key r) f ->
  threads s0 !! i = Some p -> good x a t0 p (table s0) ->
  exists h, log s = log s0 ++ h /\
    ((forall o, o ∈ h -> ~ wait_returns i o) -> exists p', threads s !! i = Some p' /\ good x a t0 p' (table s)) /\
    (forall h1 o h2, h = h1 ++ o :: h2 -> wait_returns i o -> (forall o', o' ∈ h1 -> ~ wait_returns i o') ->
       exists evs, o = WaitOk i evs /\ x ∈ evs).
Proof.
  intros Ho Hr Hla Hreg Hret Hf Hx Hi Hg. induction Hla as [|s [j b] s' Hla IH Hl Hs].
  - exists []. rewrite app_nil_r. split; [done|]. split; [eauto|]. intros [|] ? ?; discriminate.
  - destruct IH as (h & E & I1 & I2). pose proof (later_reach c n _ _ Hr Hla) as Hr'.
    destruct (log_ext _ _ _ _ _ Hs) as (k & Ek & Hk). exists (h ++ k). split; [by rewrite Ek, E, app_assoc|]. split.
    + intros Hn. destruct I1 as (p' & Hp' & Hg'). { intros o Ho'. apply Hn. set_solver. }
      destruct (good_step c n s j b s' i x a t0 r f p' Ho Hr' Hl Hs Hreg Hret Hf Hx Hp' Hg') as (k' & Ek' & [(p2 & H2 & G2 & _)|(evs & -> & _)]); [eauto|].
      rewrite Ek in Ek'. apply app_inv_head in Ek' as ->. destruct (Hn (WaitOk i evs)); [set_solver|done].
    + intros h1 o h2 Es Hw Hn. apply (first_split (fun _ => True)) in Es as [(h2' & ->)|(k1 & -> & ->)]; [by eapply I2|].
      destruct I1 as (p' & Hp' & Hg'). { intros o' Ho'. apply Hn. set_solver. }
      destruct (good_step c n s j b s' i x a t0 r f p' Ho Hr' Hl Hs Hreg Hret Hf Hx Hp' Hg') as (k' & Ek' & [(p2 & H2 & G2 & Hk')|(evs & -> & Hin)]);
        rewrite Ek in Ek'; apply app_inv_head in Ek'; [subst; destruct (Hk' o); [set_solver|done]|].
      destruct k1 as [|? [|]]; try discriminate Ek'. injection Ek' as -> _. eauto.
Qed.
