(** The event-port properties: C49, C50, C79 and C80.  [reachable s] ranges over all histories of
    calls by any threads, readiness changes, notifications, waits and failures. *)
From stdpp Require Import prelude list gmap.
From Verif Require Import Bits Types EventModel EventSpec EventProofs PortModel PortSpec PortProofs PortProofs2.
Local Open Scope nat_scope.

(** ** C49: registrations *)
Definition unsupported : res unit := Err (ESimple KUnsupported).

Theorem C49_only_oneshot s fd e m f s' :
  m <> Oneshot ->
  (step s (LAdd fd e m f) = Some s' -> kern s' = kern s /\ log s' = log s ++ [AddRet fd e m unsupported]) /\
  (step s (LModify fd e m f) = Some s' -> kern s' = kern s /\ log s' = log s ++ [ModifyRet fd e m unsupported]).
Proof. intros N. cbn [step]. unfold add, modify. split; destruct m; try done; by intros [= <-]. Qed.

(** The kernel watches exactly this interest under exactly this key. *)
Definition watches (k : kernel) (fd : Z) (e : event N) : Prop :=
  exists a, assocs k !! fd = Some a /\ as_user a = ev_key e /\
    forall b, bit (as_events a) b <->
      (ev_readable e = true /\ (b = b_in \/ b = b_pri \/ b = b_hup \/ b = b_err))
      \/ (ev_writable e = true /\ (b = b_out \/ b = b_hup \/ b = b_err)).

Lemma associate_result k fd e f r k' :
  key_ok e -> associate k fd (port_interest e) (key_to_u64 (ev_key e)) f = (r, k') ->
  r = match f with Some x => Err (EOs x) | None => Ok tt end
  /\ (f <> None -> k' = k)
  /\ (f = None -> watches k' fd e /\ forall g, g <> fd -> assocs k' !! g = assocs k !! g).
Proof.
  intros [_ K] H. unfold associate in H. destruct f; injection H as <- <-; (split; [done|]); split; try done.
  intros _. split.
  - eexists. rewrite fire_assoc, decide_True by done. cbn [assocs]. rewrite lookup_insert.
    split; [done|]. cbn [as_user as_events]. split; [by apply N.mod_small|]. apply port_interest_bits.
  - intros g N. rewrite fire_assoc, decide_False by done. cbn. by apply lookup_insert_ne.
Qed.

Theorem C49_add s fd e f s' :
  reachable s -> legal (LAdd fd e Oneshot f) -> step s (LAdd fd e Oneshot f) = Some s' ->
  exists r, log s' = log s ++ [AddRet fd e Oneshot r]
    /\ r = match f with Some x => Err (EOs x) | None => Ok tt end
    /\ (r <> Ok tt -> kern s' = kern s)
    /\ (r = Ok tt -> watches (kern s') fd e /\ forall g, g <> fd -> assocs (kern s') !! g = assocs (kern s) !! g).
Proof.
  intros _ Hl. cbn [step]. unfold add, modify. destruct (associate _ _ _ _ _) as [r k'] eqn:E. intros [= <-].
  destruct (associate_result _ _ _ _ _ _ Hl E) as (R & A & B). exists r. cbn [log kern].
  split; [done|]. split; [done|]. rewrite R. destruct f; split; auto; done.
Qed.
Theorem C49_modify s fd e f s' :
  reachable s -> legal (LModify fd e Oneshot f) -> step s (LModify fd e Oneshot f) = Some s' ->
  exists r, log s' = log s ++ [ModifyRet fd e Oneshot r]
    /\ r = match f with Some x => Err (EOs x) | None => Ok tt end
    /\ (r <> Ok tt -> kern s' = kern s)
    /\ (r = Ok tt -> watches (kern s') fd e /\ forall g, g <> fd -> assocs (kern s') !! g = assocs (kern s) !! g).
Proof.
  intros _ Hl. cbn [step]. unfold modify. destruct (associate _ _ _ _ _) as [r k'] eqn:E. intros [= <-].
  destruct (associate_result _ _ _ _ _ _ Hl E) as (R & A & B). exists r. cbn [log kern].
  split; [done|]. split; [done|]. rewrite R. destruct f; split; auto; done.
Qed.

Theorem C49_delete s fd f s' :
  reachable s -> legal (LDelete fd f) -> step s (LDelete fd f) = Some s' ->
  exists r, log s' = log s ++ [DeleteRet fd r]
    /\ r = match f with Some x => Err (EOs x) | None => Ok tt end
    /\ (r <> Ok tt -> kern s' = kern s)
    /\ (r = Ok tt -> assocs (kern s') = delete fd (assocs (kern s)) /\ IFd fd ∉ queue (kern s')).
Proof.
  intros Hr Hl. cbn [step legal] in *. unfold delete_fd, dissociate. destruct f as [x|].
  - intros [= <-]. exists (Err (EOs x)). cbn. split; [by destruct x|]. by split.
  - destruct (assocs (kern s) !! fd) eqn:E; intros [= <-]; exists (Ok tt); cbn [log kern forget assocs queue].
    + split; [done|]. split; [done|]. split; [done|]. intros _. split; [done|]. rewrite elem_unqueue. tauto.
    + split; [done|]. split; [done|]. split; [done|]. intros _. split; [by rewrite delete_notin|].
      rewrite (ki_queued _ (kinv_reach _ Hr)). intros (a & ? & _). congruence.
Qed.

(** What the kernel watches is, at any time, what the history of calls and deliveries says. *)
Theorem C49_watched_iff_registered s fd :
  reachable s ->
  match registered fd (log s) with
  | Some e => watches (kern s) fd e
  | None => assocs (kern s) !! fd = None
  end.
Proof.
  intros Hr. pose proof (li_assoc _ (linv_reach _ Hr) fd) as L. unfold entry in L.
  destruct (registered fd (log s)) as [e|] eqn:R; [|done]. eexists. split; [exact L|].
  cbn [as_user as_events]. split; [|apply port_interest_bits].
  apply N.mod_small. by destruct (registered_key _ _ _ Hr R).
Qed.

(** ** C50: one-shot delivery and timeouts *)
Theorem C50_one_delivery s h1 o1 h2 o2 h3 fd :
  reachable s -> log s = h1 ++ o1 :: h2 ++ o2 :: h3 -> delivers fd o1 -> delivers fd o2 ->
  exists o, o ∈ h2 /\ registers fd o <> None.
Proof. exact (one_delivery s h1 o1 h2 o2 h3 fd). Qed.

Theorem C50_once_per_batch s h1 o r b h2 fd i j :
  reachable s -> log s = h1 ++ WaitRet o r b :: h2 ->
  b.*1 !! i = Some (IFd fd) -> b.*1 !! j = Some (IFd fd) -> i = j.
Proof.
  intros Hr E. pose proof (once_per_batch _ _ _ _ _ _ Hr E) as N. revert i j N.
  generalize (b.*1) as l. intros l. induction l as [|x l IH]; intros [|i] [|j] N Hi Hj; try done.
  - cbn in Hi, Hj. injection Hi as ->. rewrite fds_cons in N. cbn in N. apply NoDup_cons in N as [N _].
    exfalso. apply N, elem_of_fds. by eapply elem_of_list_lookup_2.
  - cbn in Hi, Hj. injection Hj as ->. rewrite fds_cons in N. cbn in N. apply NoDup_cons in N as [N _].
    exfalso. apply N, elem_of_fds. by eapply elem_of_list_lookup_2.
  - f_equal. apply IH; try done. rewrite fds_cons in N. destruct (fd_of x); [|done].
    by apply NoDup_cons in N as [_ N].
Qed.

Theorem C50_answers s max o s' :
  reachable s -> legal (LWait max o) -> step s (LWait max o) = Some s' ->
  match o with
  | GFail ETIME => log s' = log s ++ [WaitRet o (Ok tt) []]
  | GFail e => log s' = log s ++ [WaitRet o (Err (EOs e)) []]
  | GEvents => exists b, b <> [] /\ log s' = log s ++ [WaitRet o (Ok tt) b]
  end.
Proof.
  intros _ Hl H. pose proof (wait_answers _ _ _ _ H) as W. destruct o; [|done].
  destruct W as (b & [?|?]); [by exists b|]. cbn in Hl. lia.
Qed.
Theorem C50_no_loss_without_events s max e s' :
  step s (LWait max (GFail e)) = Some s' -> kern s' = kern s.
Proof. exact (fail_unchanged s max e s'). Qed.

(** A report is about the current registration: its key, and exactly those conditions that the
    interest covers and that the descriptor has had since it was registered. *)
Theorem C50_reports_current s h1 o r b h2 fd ev :
  reachable s -> log s = h1 ++ WaitRet o r b :: h2 -> (IFd fd, ev) ∈ b ->
  exists e, registered fd h1 = Some e /\ ev_key ev = ev_key e
    /\ (forall x, bit (ev_extra ev) x <-> asked e x /\ bit (flags_since fd h1) x)
    /\ exists x, bit (ev_extra ev) x.
Proof.
  intros Hr E H. destruct (reports_current _ _ _ _ _ _ _ _ Hr E H) as (e & R & _ & K & X & N).
  exists e. split; [done|]. split; [done|]. rewrite X. split; [|by apply nonzero_bits].
  intros x. apply wanted_bits.
Qed.
(** It claims only the readiness that was asked for, except after an error or hang-up, which
    counts as both. *)
Theorem C50_claims s h1 o r b h2 fd ev e :
  reachable s -> log s = h1 ++ WaitRet o r b :: h2 -> (IFd fd, ev) ∈ b -> registered fd h1 = Some e ->
  let f := flags_since fd h1 in
  (ev_readable ev = true <->
     ev_readable e = true /\ (bit f b_in \/ bit f b_pri) \/ bit f b_hup \/ bit f b_err) /\
  (ev_writable ev = true <->
     ev_writable e = true /\ bit f b_out \/ bit f b_hup \/ bit f b_err).
Proof.
  intros Hr E H Re. destruct (reports_current _ _ _ _ _ _ _ _ Hr E H) as (e' & R & Hev & _).
  assert (e' = e) as -> by congruence. cbn zeta. rewrite Hev.
  destruct (port_report 64 (key_to_u64 (ev_key e)) (wanted e (flags_since fd h1))) as (Pr & Pw & _).
  rewrite Pr, Pw, !wanted_bits. unfold asked. unfold b_in, b_pri, b_out, b_hup, b_err, b_nval.
  split; intuition (try discriminate).
Qed.
Theorem C50_own_reports_have_reserved_key s h1 o r b h2 x y ev :
  reachable s -> log s = h1 ++ WaitRet o r b :: h2 -> (IUser x y, ev) ∈ b -> ev_key ev = NOTIFY_KEY.
Proof. exact (reports_own s h1 o r b h2 x y ev). Qed.

(** ** C79: ready sources are not forgotten *)
Theorem C79_wait_returns s max fd e x :
  reachable s -> registered fd (log s) = Some e -> asked e x -> bit (readiness fd (log s)) x ->
  exists s', step s (LWait max GEvents) = Some s'.
Proof.
  intros Hr R A B. apply wait_proceeds. pose proof (ready_queued _ _ _ _ Hr R A B) as Q.
  intros E. rewrite E in Q. by apply elem_of_nil in Q.
Qed.
Theorem C79_not_starved fd n s s' e x (regs : list Z) :
  reachable s -> ignored fd n s s' ->
  registered fd (log s) = Some e -> asked e x -> bit (readiness fd (log s)) x ->
  (forall g, registered g (log s) <> None -> g ∈ regs) ->
  n < length regs + (sent (log s) - told (log s)).
Proof.
  intros Hr I R A B Hregs. pose proof (notifications _ Hr).
  destruct (not_forgotten _ _ _ _ _ _ _ Hr I R A B Hregs) as [L _]. lia.
Qed.
(** With room for all of them it is reported by the next wait. *)
Theorem C79_next_wait s max fd e x (regs : list Z) s' :
  reachable s -> registered fd (log s) = Some e -> asked e x -> bit (readiness fd (log s)) x ->
  (forall g, registered g (log s) <> None -> g ∈ regs) ->
  length regs + (sent (log s) - told (log s)) <= max ->
  step s (LWait max GEvents) = Some s' ->
  exists b, log s' = log s ++ [WaitRet GEvents (Ok tt) b] /\ IFd fd ∈ b.*1.
Proof.
  intros Hr R A B Hregs M H. cbn [step] in H. unfold wait, getn in H. case_decide as D; [done|]. injection H as <-.
  eexists. split; [done|].
  change (IFd fd ∈ map fst (map to_event (map (report_of (kern s)) (take max (queue (kern s)))))).
  rewrite report_items, take_ge; [by eapply ready_queued|].
  pose proof (notifications _ Hr). rewrite length_split.
  assert (length (fds (queue (kern s))) <= length regs); [|lia].
  apply submseteq_length, NoDup_submseteq; [apply (kinv_reach _ Hr)|].
  intros g Hg%elem_of_fds. apply (ki_queued _ (kinv_reach _ Hr)) in Hg as (a & Hg & _).
  rewrite (li_assoc _ (linv_reach _ Hr)) in Hg. unfold entry in Hg. apply Hregs.
  by destruct (registered g (log s)).
Qed.

(** ** C80: notifications *)
Theorem C80_notification_ends_wait s max :
  reachable s -> told (log s) < sent (log s) -> exists s', step s (LWait max GEvents) = Some s'.
Proof.
  intros Hr L. apply wait_proceeds. pose proof (notifications _ Hr). intros E. rewrite E in *. cbn in *. lia.
Qed.
Theorem C80_no_more_than_sent s : reachable s -> told (log s) <= sent (log s).
Proof. intros Hr. pose proof (notifications _ Hr). lia. Qed.
(** A wait ends before its timeout only because of a notification or a registered source. *)
Theorem C80_no_spurious_wakeup s max s' :
  reachable s -> legal (LWait max GEvents) -> step s (LWait max GEvents) = Some s' ->
  told (log s) < sent (log s) \/
  exists fd e x, registered fd (log s) = Some e /\ asked e x /\ bit (flags_since fd (log s)) x.
Proof.
  intros Hr Hl H. cbn [step] in H. unfold wait in H. case_decide as D; [done|]. clear H.
  pose proof (notifications _ Hr) as Nt. destruct (queue (kern s)) as [|x q] eqn:Q; [done|].
  destruct x as [fd|ex u].
  - right. assert (Hq : IFd fd ∈ queue (kern s)) by (rewrite Q; by left).
    apply (ki_queued _ (kinv_reach _ Hr)) in Hq as (a & Ha & Hf).
    rewrite (li_assoc _ (linv_reach _ Hr)) in Ha. unfold entry in Ha.
    destruct (registered fd (log s)) as [e|] eqn:R; [|done]. injection Ha as <-. cbn in Hf.
    apply nonzero_bits in Hf as (b & Hb). apply wanted_bits in Hb as [A B]. by exists fd, e, b.
  - left. cbn in Nt. lia.
Qed.

(** ** A concrete history *)
Definition rd (k : N) : event N := Ev k true false 0%N.
Definition wr (k : N) : event N := Ev k false true 0%N.
(** Two sources; the first becomes readable, the second hangs up; a notification; a failed modify;
    a wait with room for two; the first is registered again (and is still ready); a wait with
    room for one; the second is deleted; a timeout. *)
Definition demo : list label :=
  [LAdd 5 (rd 7) Oneshot None; LAdd 6 (wr 8) Oneshot None; LHappen 5 POLLIN; LHappen 6 POLLHUP;
   LNotify None; LModify 5 (rd 9) Level None; LModify 5 (rd 9) Oneshot (Some EBADF);
   LWait 2 GEvents; LModify 5 (rd 9) Oneshot None; LWait 1 GEvents; LWait 1 GEvents; LDelete 6 None;
   LAdd 6 (rd 3) Oneshot None; LHappen 6 0%N; LClose 6; LWait 4 (GFail ETIME)].

Definition legalb (l : label) : bool :=
  match l with
  | LAdd _ e _ _ | LModify _ e _ _ => bool_decide (ev_key e <> NOTIFY_KEY) && (ev_key e <? 2 ^ 64)%N
  | LDelete _ f => match f with Some ENOENT => false | _ => true end
  | LHappen _ m => (truncate POLL_ALL m =? m)%N
  | LWait max _ => (0 <? max)%nat
  | _ => true
  end.
Lemma legalb_sound l : legalb l = true -> legal l.
Proof.
  destruct l; cbn [legalb legal]; try done.
  1,2: intros [H1 H2]%andb_true_iff; apply bool_decide_eq_true in H1; apply N.ltb_lt in H2; by split.
  - by destruct fault as [[]|].
  - by intros H%N.eqb_eq.
  - by intros H%Nat.ltb_lt.
Qed.
Lemma run_reach ls : forall s s', reachable s -> forallb legalb ls = true -> run s ls = Some s' -> reachable s'.
Proof.
  induction ls as [|l ls IH]; intros s s' Hr Hl H; cbn [run forallb] in *; [by injection H as <-|].
  apply andb_true_iff in Hl as [H1 H2]. destruct (step s l) as [s1|] eqn:E; [|done].
  eapply IH; [|done|done]. econstructor; [done| |done]. by apply legalb_sound.
Qed.
Definition result {A} (f : state -> A) (ls : list label) : option A := f <$> run init ls.
Lemma run_some ls x : result log ls = Some x -> forallb legalb ls = true ->
  exists s, run init ls = Some s /\ reachable s /\ log s = x.
Proof.
  unfold result. intros H Hl. destruct (run init ls) as [s|] eqn:E; [|done]. injection H as <-.
  exists s. split; [done|]. split; [|done]. eapply run_reach; [constructor|done|done].
Qed.
Lemma run_snoc ls l s : run init (ls ++ [l]) = Some s -> exists s0, run init ls = Some s0 /\ step s0 l = Some s.
Proof.
  generalize init. induction ls as [|x ls IH]; intros i; cbn [app run].
  - destruct (step i l) eqn:E; [|done]. intros [= <-]. eauto.
  - destruct (step i x); [|done]. apply IH.
Qed.
Ltac runs ls s H Hr Hl :=
  let x := eval vm_compute in (result log ls) in
  match x with Some ?h =>
    destruct (run_some ls h) as (s & H & Hr & Hl); [vm_compute; reflexivity|vm_compute; reflexivity|]
  end.

(** The whole history: the first wait reports the two sources, the second the notification (first
    in the queue), the third the source that was registered again under key 9. *)
Example C50_nonvacuous :
  exists s, reachable s /\ exists h1 h2 h3 h4,
    log s = h1 ++ WaitRet GEvents (Ok tt) [(IFd 5, Ev 7%N true false POLLIN); (IFd 6, Ev 8%N true true POLLHUP)]
      :: h2 ++ WaitRet GEvents (Ok tt) [(IUser 3 NOTIFY_KEY, Ev NOTIFY_KEY true false 3%N)]
      :: h3 ++ WaitRet GEvents (Ok tt) [(IFd 5, Ev 9%N true false POLLIN)]
      :: h4 ++ [WaitRet (GFail ETIME) (Ok tt) []].
Proof.
  runs demo s H Hr Hl. exists s. split; [done|].
  exists (take 7 (log s)), (take 1 (drop 8 (log s))), [], (take 4 (drop 11 (log s))).
  rewrite Hl. vm_compute. reflexivity.
Qed.

(** Before the first wait source 6 is registered, hung up and second in the queue; a wait with room
    for one does not report it yet. *)
Example C79_nonvacuous :
  exists s s', reachable s /\ registered 6 (log s) = Some (wr 8) /\ bit (readiness 6 (log s)) b_hup
    /\ asked (wr 8) b_hup /\ sent (log s) = 1 /\ told (log s) = 0 /\ ignored 6 1 s s'.
Proof.
  runs (take 7 demo ++ [LWait 1 GEvents]) s' H' Hr' Hl'.
  apply run_snoc in H' as (s & H & Hs).
  runs (take 7 demo) s0 H0 Hr Hl. assert (s0 = s) as -> by congruence.
  exists s, s'. split; [done|]. split; [rewrite Hl; vm_compute; reflexivity|].
  split; [rewrite Hl; vm_compute; reflexivity|]. split; [unfold asked; auto|].
  split; [rewrite Hl; vm_compute; reflexivity|]. split; [rewrite Hl; vm_compute; reflexivity|].
  apply (ig_wait 6 0 s s 1 GEvents s'); [constructor|cbn; lia|done|].
  intros b Hb. rewrite Hl, Hl' in Hb. cbn in Hb. injection Hb as <-.
  intros X. cbn in X. rewrite elem_of_list_singleton in X. discriminate.
Qed.

(** A failing modify of a registered source, and a delete of an unknown one. *)
Example C49_nonvacuous :
  exists s, reachable s /\ registered 5 (log s) = Some (rd 7) /\ registered 6 (log s) = Some (wr 8)
    /\ watches (kern s) 5 (rd 7)
    /\ exists s', step s (LModify 5 (rd 9) Oneshot (Some EBADF)) = Some s'
    /\ exists s'', step s (LDelete 77 None) = Some s'' /\ log s'' = log s ++ [DeleteRet 77 (Ok tt)].
Proof.
  runs (take 6 demo ++ [LModify 5 (rd 9) Oneshot (Some EBADF)]) s' H' Hr' Hl'.
  apply run_snoc in H' as (s & H & Hs).
  runs (take 6 demo) s0 H0 Hr Hl. assert (s0 = s) as -> by congruence.
  runs (take 6 demo ++ [LDelete 77 None]) s2 H2 Hr2 Hl2.
  apply run_snoc in H2 as (s3 & H3 & Hs3). assert (s3 = s) as -> by congruence.
  assert (R : registered 5 (log s) = Some (rd 7)) by (rewrite Hl; vm_compute; reflexivity).
  exists s. split; [done|]. split; [done|]. split; [rewrite Hl; vm_compute; reflexivity|].
  split. { pose proof (C49_watched_iff_registered s 5 Hr) as W. by rewrite R in W. }
  exists s'. split; [done|]. exists s2. split; [done|]. rewrite Hl, Hl2. reflexivity.
Qed.

Example C80_nonvacuous : exists s, reachable s /\ told (log s) < sent (log s).
Proof. runs (take 5 demo) s H Hr Hl. exists s. split; [done|]. rewrite Hl. vm_compute. lia. Qed.

Print Assumptions C49_only_oneshot.
Print Assumptions C49_add.
Print Assumptions C49_modify.
Print Assumptions C49_delete.
Print Assumptions C49_watched_iff_registered.
Print Assumptions C50_one_delivery.
Print Assumptions C50_once_per_batch.
Print Assumptions C50_answers.
Print Assumptions C50_no_loss_without_events.
Print Assumptions C50_reports_current.
Print Assumptions C50_claims.
Print Assumptions C50_own_reports_have_reserved_key.
Print Assumptions C79_wait_returns.
Print Assumptions C79_not_starved.
Print Assumptions C79_next_wait.
Print Assumptions C80_notification_ends_wait.
Print Assumptions C80_no_more_than_sent.
Print Assumptions C80_no_spurious_wakeup.
