(** C108: on the poll backend wait() does not sleep through a source that is ready, and reports it. *)
From stdpp Require Import prelude list gmap.
From Verif Require Import Bits Types EventModel EventSpec EventProofs PollModel PollSpec PollProofs PollProps PollConcModel PollConcSpec
  PollConcProofs PollConcProofs2 PollConcTable PollConcProps PollReadySpec PollReadyProofs.
Local Open Scope nat_scope.
Import PollConcModel PollConcSpec.

(** While wait() is in poll(2), the descriptor is watched for what was asked last.  Missing, here and below: modify with a
    mode that poll does not have (see the refutation). *)
Theorem C108_watched_partial c n s i fd e m :
  wf_own (own c) -> reachable c n s -> threads s !! i = Some WPoll ->
  requested fd e m (log s) -> (forall o, o ∈ log s -> ~ wrong_mode fd o) ->
  exists k pf, 0 < k /\ poll_fds (table s) !! k = Some pf /\ pfd_fd pf = fd /\
    forall b, asks e b <-> bit (pfd_events pf) b \/ b = b_err \/ b = b_hup \/ b = 5%N.
Proof.
  intros Ho Hr Hi Hq Hm. destruct (asked_polling c n s fd e m i Ho Hr Hm Hq Hi) as (d & pf & Hd & Hp & Hf & E).
  pose proof (reachable_wf _ _ (ti_reach _ _ (tab_inv_ok c n s Hr))) as Hw.
  destruct (wf_data _ _ Hw _ _ Hd) as (Hk & _). exists (fd_index d), pf. repeat (split; [done|]). intros b.
  injection E as _ <- _. rewrite poll_events_bits. unfold asks. tauto.
Qed.
Print Assumptions C108_watched_partial.

Lemma unmaskable_bits x : bit unmaskable x <-> x = b_err \/ x = b_hup \/ x = 5%N.
Proof.
  unfold bit. change unmaskable with (N.lor (N.lor (2^3) (2^4)) (2^5)). rewrite !N.lor_spec, !N.pow2_bits_eqb, !orb_true_iff, !N.eqb_eq.
  unfold b_err, b_hup. intuition congruence.
Qed.

Lemma truthful_flag c n s i fd e m w a b :
  wf_own (own c) -> reachable c n s -> threads s !! i = Some WPoll ->
  requested fd e m (log s) -> (forall o, o ∈ log s -> ~ wrong_mode fd o) -> truthful w (table s) a ->
  exists f, returned (table s) a.1 fd f /\ (forall b, bit f b <-> asks e b /\ bit (w fd) b) /\
    (asks e b -> bit (w fd) b -> f <> 0%N /\ 0 < a.2).
Proof.
  intros Ho Hr Hi Hq Hm [[Hl Hn] Ht]. destruct (C108_watched_partial c n s i fd e m Ho Hr Hi Hq Hm) as (k & pf & Hk & Hp & Hf & Hb).
  destruct (lookup_lt_is_Some_2 a.1 k) as [f Hrs]. { rewrite Hl. by eapply lookup_lt_Some. }
  exists f. split; [by exists k, pf|]. specialize (Ht k pf f Hk Hp Hrs). rewrite Hf in Ht. split.
  - intros x. rewrite Ht, Hb. tauto.
  - intros H1 H2. assert (bit f b) as Hbit by (apply Ht; split; [done|by apply Hb]).
    assert (f <> 0%N) as Hz. { intros ->. unfold bit in Hbit. by rewrite N.bits_0 in Hbit. }
    split; [done|]. rewrite Hn. apply elem_of_list_lookup_2 in Hrs. apply elem_of_list_In in Hrs.
    assert (In f (List.filter nonzero a.1)) as Hin by (apply filter_In; split; [done|]; unfold nonzero; by destruct (N.eqb_spec f 0)).
    destruct (List.filter nonzero a.1); [done|cbn; lia].
Qed.

(** A wait() that is in poll(2) while something asked for is true of the descriptor does not stay there: every truthful
    answer has something to report, and there is one. *)
Theorem C108_returns_partial c n s i fd e m w b :
  wf_own (own c) -> reachable c n s -> threads s !! i = Some WPoll ->
  requested fd e m (log s) -> (forall o, o ∈ log s -> ~ wrong_mode fd o) ->
  asks e b -> bit (w fd) b ->
  (forall a, truthful w (table s) a -> 0 < a.2) /\
  exists a s', truthful w (table s) a /\ step c s (i, KRet a) = Some s'.
Proof.
  intros Ho Hr Hi Hq Hm Hb Hw. split.
  - intros a Ha. destruct (truthful_flag c n s i fd e m w a b Ho Hr Hi Hq Hm Ha) as (f & _ & _ & H). by apply H.
  - pose proof (reachable_wf _ _ (ti_reach _ _ (tab_inv_ok c n s Hr))) as Hwf. destruct (wf_head _ _ Hwf) as (pf0 & Hp0 & _).
    destruct (poll_fds (table s)) as [|p0 rest] eqn:Et; [done|].
    set (fl := map (fun pf => N.land (w (pfd_fd pf)) (N.lor (pfd_events pf) unmaskable)) rest).
    set (rs := (if bool_decide (0 < bytes s) then 1%N else 0%N) :: fl).
    exists (rs, length (List.filter nonzero rs)).
    assert (truthful w (table s) (rs, length (List.filter nonzero rs))) as Ht.
    { split; [split; [rewrite Et; cbn [fst rs length]; unfold fl; by rewrite map_length|done]|]. intros [|k] pf f Hk Hp Hf x; [lia|].
      rewrite Et in Hp. change (rest !! k = Some pf) in Hp. change (fl !! k = Some f) in Hf. unfold fl in Hf.
      rewrite (list_lookup_fmap _ rest k), Hp in Hf. cbn in Hf. injection Hf as <-.
      unfold bit. rewrite N.land_spec, N.lor_spec, andb_true_iff, orb_true_iff.
      pose proof (unmaskable_bits x) as U. unfold bit in U. tauto. }
    eexists. split; [exact Ht|]. cbn [step]. rewrite Hi. rewrite bool_decide_true; [done|].
    unfold reports_notifier. cbn [fst rs]. by case_bool_decide.
Qed.
Print Assumptions C108_returns_partial.

(** And it returns with an event for the descriptor that has the key given, and says all that is true and was asked for. *)
Theorem C108_reported_partial c n s i fd e m w b a s1 s2 :
  wf_own (own c) -> reachable c n s -> threads s !! i = Some WPoll ->
  requested fd e m (log s) -> (forall o, o ∈ log s -> ~ wrong_mode fd o) ->
  asks e b -> bit (w fd) b ->
  truthful w (table s) a -> step c s (i, KRet a) = Some s1 -> later c s1 s2 ->
  exists h, log s2 = log s ++ h /\
    forall h1 o h2, h = h1 ++ o :: h2 -> wait_returns i o -> (forall o', o' ∈ h1 -> ~ wait_returns i o') ->
      exists evs ev, o = WaitOk i evs /\ (fd, ev) ∈ evs /\ ev_key ev = ev_key e /\
        (forall x, bit (ev_extra ev) x <-> asks e x /\ bit (w fd) x) /\
        (ev_readable e = true -> bit (w fd) b_in -> ev_readable ev = true) /\
        (ev_writable e = true -> bit (w fd) b_out -> ev_writable ev = true).
Proof.
  intros Ho Hr Hi Hq Hm Hb Hw Ha Hs Hla.
  destruct (truthful_flag c n s i fd e m w a b Ho Hr Hi Hq Hm Ha) as (f & Hret & Hbits & Hz). destruct (Hz Hb Hw) as [Hf _].
  pose proof (asked_polling c n s fd e m i Ho Hr Hm Hq Hi) as Hreg.
  assert (reachable c n s1) as Hr1. { eapply reach_step; [exact Hr| |exact Hs]. exact (proj1 Ha). }
  cbn [step] in Hs. rewrite Hi in Hs. case_bool_decide; [|done]. injection Hs as <-.
  pose (x := (fd, poll_to_event (ev_key e) f)).
  destruct (good_later c n _ s2 i x a (table s) _ f (if reports_notifier a then WPopAll a false else WSwap3 a) Ho Hr1 Hla Hreg Hret Hf eq_refl)
    as (h & E & _ & H2).
  { exact (lookup_self _ _ _ _ Hi). }
  { by destruct (reports_notifier a). }
  exists h. split; [exact E|]. intros h1 o h2 Eh Hwr Hn. destruct (H2 h1 o h2 Eh Hwr Hn) as (evs & -> & Hin).
  exists evs, (poll_to_event (ev_key e) f). do 3 (split; [done|]). split; [exact Hbits|].
  assert (forall x y, bit f x -> bit y x -> intersects f y = true) as Hint.
  { intros y z Y1 Y2. unfold intersects. destruct (N.eqb_spec (N.land f z) 0) as [E0|]; [|done].
    assert (bit (N.land f z) y) as H3 by (unfold bit in *; by rewrite N.land_spec, Y1, Y2). unfold bit in H3. by rewrite E0, N.bits_0 in H3. }
  split; intros H1' H2'; cbn; eapply Hint; [apply Hbits; split; [|exact H2']|reflexivity|apply Hbits; split; [|exact H2']|reflexivity]; unfold asks; tauto.
Qed.
Print Assumptions C108_reported_partial.

(** A modify with a mode that poll does not have fails, but its interest replaces the one asked for: wait() then sleeps
    although the descriptor is readable. *)
Definition op (cl : call) : list label := at0 [CallOp cl; Go; Go; Go; Go; Go; Go; SignalTo None; Go; Go].
Definition in_poll : list label := at0 [CallWait; Go; Go; Go; Go].
Theorem C108_refuted : exists c n s i fd e m w b a,
  wf_own (own c) /\ reachable c n s /\ threads s !! i = Some WPoll /\ requested fd e m (log s) /\
  asks e b /\ bit (w fd) b /\ truthful w (table s) a /\ a.2 = 0 /\ exists s', step c s (i, KRet a) = Some s'.
Proof.
  exists (cfg Pipe), 1.
  assert (exists s, run_if (cfg Pipe) (init (cfg Pipe) 1)
      (op (CAdd 10 (Ev 7 true false 0%N) Level) ++ op (CModify 10 (Ev 7 false false 0%N) Edge) ++ in_poll) = Some s /\
      threads s = [WPoll] /\ bytes s = 0 /\ poll_fds (table s) = [Pfd 3 64 0; Pfd 10 0 0] /\
      log s = [OpCall 0 (CAdd 10 (Ev 7 true false 0%N) Level); OpEffect 0 (CAdd 10 (Ev 7 true false 0%N) Level) (Ok tt); OpRet 0 (Ok tt);
               OpCall 0 (CModify 10 (Ev 7 false false 0%N) Edge)] ++ drop 4 (log s) /\
      forallb (fun o => match o with OpEffect _ _ (Ok _) | WaitOk _ _ => false | _ => true end) (drop 2 (log s)) = true) as (s & E & Ep & Eb & Et & El & Ef).
  { eexists. split; [vm_compute; reflexivity|]. repeat (split; [reflexivity|]). reflexivity. }
  exists s, 0, 10%Z, (Ev 7 true false 0%N), Level, (fun _ => 1%N), b_in, ([0%N; 0%N], 0).
  split; [exact o34_wf|]. split; [exact (reachable_w_reachable _ _ _ (run_if_w _ _ _ _ E))|]. rewrite Ep. split; [done|]. clear E.
  split.
  { exists [OpCall 0 (CAdd 10 (Ev 7 true false 0%N) Level)], 0, (CAdd 10 (Ev 7 true false 0%N) Level), (drop 2 (log s)).
    split; [rewrite El; reflexivity|]. split; [by left|]. split; [|done].
    intros o Hin. apply elem_of_list_In in Hin. rewrite forallb_forall in Ef. specialize (Ef o Hin).
    destruct o as [| | | |? ? [| |]| | | | | | |]; first [done|intros []]. }
  split; [left; split; [done|by left]|]. split; [reflexivity|]. split.
  { split; [cbn; rewrite Et; done|]. intros [|[|k]] pf f Hk Hp Hf x; [lia| |by rewrite Et in Hp].
    rewrite Et in Hp. cbn in Hp, Hf. injection Hp as <-. injection Hf as <-. cbn. unfold bit. rewrite N.bits_0.
    split; [done|]. intros [H [H'|[->|[->| ->]]]]; [done|vm_compute in H; done..]. }
  split; [done|]. eexists. cbn [step]. rewrite Ep. cbn. rewrite Eb. reflexivity.
Qed.
Print Assumptions C108_refuted.

(** The hypotheses are met: a one-shot source that has been reported is armed again by modify, while another one has been
    added and removed; the wait that follows is in poll(2) and the source is readable. *)
Definition one_wait (a : answer) (order : list Z) : list label := in_poll ++ at0 [KRet a; Store order; Go; Go; Go].
Example C108_case : exists c n s i fd e m w b,
  wf_own (own c) /\ reachable c n s /\ threads s !! i = Some WPoll /\ requested fd e m (log s) /\ m = Oneshot /\
  (forall o, o ∈ log s -> ~ wrong_mode fd o) /\ (exists o, o ∈ log s /\ tells fd o) /\ asks e b /\ bit (w fd) b.
Proof.
  exists (cfg Pipe), 1.
  assert (exists s, run_if (cfg Pipe) (init (cfg Pipe) 1)
      (op (CAdd 10 (Ev 7 true false 0%N) Oneshot) ++ op (CAdd 11 (Ev 8 false true 0%N) Level) ++ one_wait ([0%N; 1%N; 4%N], 2) [10%Z; 11%Z] ++
       op (CDelete 11) ++ op (CModify 10 (Ev 9 true false 0%N) Oneshot) ++ in_poll) = Some s /\
      threads s = [WPoll] /\
      log s !! 14 = Some (OpEffect 0 (CModify 10 (Ev 9 true false 0%N) Oneshot) (Ok tt)) /\
      forallb (fun o => match o with OpEffect _ _ (Ok _) | WaitOk _ _ => false | _ => true end) (drop 15 (log s)) = true /\
      forallb (fun o => match o with OpEffect _ (CModify _ _ (Edge | EdgeOneshot)) _ => false | _ => true end) (log s) = true /\
      log s !! 9 = Some (WaitOk 0 [(10%Z, Ev 7 true false 1%N); (11%Z, Ev 8 false true 4%N)])) as (s & E & Ep & El & Ef & Em & Ee).
  { eexists. split; [vm_compute; reflexivity|]. repeat (split; [reflexivity|]). reflexivity. }
  exists s, 0, 10%Z, (Ev 9 true false 0%N), Oneshot, (fun _ => 1%N), b_in.
  split; [exact o34_wf|]. split; [exact (reachable_w_reachable _ _ _ (run_if_w _ _ _ _ E))|]. rewrite Ep. split; [done|]. clear E.
  rewrite forallb_forall in Ef, Em. split.
  { exists (take 14 (log s)), 0, (CModify 10 (Ev 9 true false 0%N) Oneshot), (drop 15 (log s)).
    split; [symmetry; by apply take_drop_middle|]. split; [by right|].
    split; [|intros _]; intros o Hin; apply elem_of_list_In in Hin; specialize (Ef o Hin); destruct o as [| | | |? ? [| |]| | | | | | |]; first [done|intros []]. }
  split; [done|]. split.
  { intros o Hin. apply elem_of_list_In in Hin. specialize (Em o Hin). destruct o as [| | | |? [| |] ?| | | | | | |]; try (by intros []); try (intros []). destruct mode; first [done|intros []]. }
  split. { eexists. split; [exact (elem_of_list_lookup_2 _ _ _ Ee)|]. eexists. left. }
  split; [left; split; [done|by left]|reflexivity].
Qed.
