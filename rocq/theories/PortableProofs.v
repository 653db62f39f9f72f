(** Proofs about the answers to add, modify and delete on the different platforms. *)
From stdpp Require Import prelude list gmap.
From Verif Require Import Types EventModel PortableSpec.
From Verif Require PollModel PollSpec PollProofs PollConcModel PollConcSpec PollConcProofs PollConcTable EpollModel EpollSpec EpollProofs
  EpollProofs2 KqueueModel KqueueSpec KqueueProofs5 KqueueProofs6.
Local Open Scope nat_scope.

Lemma registered_snoc x h d : registered x (h ++ [d]) = after x (registered x h) d.
Proof. unfold registered. by rewrite fold_left_app. Qed.
Lemma documented_nil : as_documented [].
Proof. intros h1 d h2 E. by destruct h1. Qed.
Lemma documented_snoc h d : as_documented h -> d_answer d = expected (registered (d_source d) h) (d_verb d) ->
  as_documented (h ++ [d]).
Proof.
  intros H Hd h1 d' h2 E. destruct h2 as [|y h2 _] using rev_ind.
  - apply app_inj_tail in E as [-> ->]. done.
  - rewrite app_comm_cons, app_assoc in E. apply app_inj_tail in E as [-> ->]. by eapply H.
Qed.
Lemma documented_prefix h h' : as_documented (h ++ h') -> as_documented h.
Proof. intros H h1 d h2 ->. eapply (H h1 d (h2 ++ h')). by rewrite <- app_assoc. Qed.

(** The answers are determined by the calls. *)
Lemma documented_same h h' : as_documented h -> as_documented h' ->
  (fun d => (d_verb d, d_source d)) <$> h = (fun d => (d_verb d, d_source d)) <$> h' -> h = h'.
Proof.
  revert h'. induction h as [|d h IH] using rev_ind; intros h' H H' E.
  - destruct h'; [done|discriminate].
  - destruct h' as [|d' h' _] using rev_ind; [rewrite fmap_app in E; by destruct (_ <$> h)|].
    rewrite !fmap_app in E. apply app_inj_tail in E as [E Ed].
    specialize (IH _ (documented_prefix _ _ H) (documented_prefix _ _ H') E). subst h'.
    specialize (H h d [] eq_refl). specialize (H' h d' [] eq_refl).
    destruct d as [v x a], d' as [v' x' a']. cbn in *. injection Ed as -> ->. by rewrite H, H'.
Qed.

(** What one more entry of the log does. *)
Definition holds_as (R : Z -> Prop) (h : list deed) : Prop :=
  as_documented h /\ forall x, registered x h = true <-> R x.
Lemma holds_accept R R' h v x r : holds_as R h ->
  match answer_of r with
  | None => forall y, R' y <-> R y
  | Some a => exists b, (b = true <-> R x) /\ a = expected b v /\
      (forall y, y <> x -> R' y <-> R y) /\
      (R' x <-> after x b (Deed v x a) = true)
  end -> holds_as R' (h ++ option_list (deed_of v x r)).
Proof.
  intros [H1 H2] H. unfold deed_of. destruct (answer_of r) as [a|].
  2:{ change (option_list _) with (@nil deed). rewrite app_nil_r. split; [done|]. intros y. by rewrite H2, H. }
  change (option_list _) with [Deed v x a]. destruct H as (b & Hb & Ha & Ho & Hx).
  assert (registered x h = b) as E.
  { specialize (H2 x). destruct (registered x h), b; try done; exfalso; intuition congruence. }
  split.
  - apply documented_snoc; [done|]. cbn [d_source d_verb d_answer]. by rewrite E.
  - intros y. rewrite registered_snoc. destruct (decide (y = x)) as [->|N].
    + by rewrite E, Hx.
    + unfold after. cbn [d_source]. rewrite decide_False by congruence. by rewrite H2, Ho.
Qed.
Lemma omap_snoc {A B} (f : A -> option B) h o : omap f (h ++ [o]) = omap f h ++ option_list (f o).
Proof. by rewrite omap_app. Qed.

(** ** poll *)
Section poll.
Import PollModel PollSpec PollProofs PollConcModel PollConcSpec PollConcProofs PollConcTable PortableSpec.

Lemma poll_call o t cl : wf o t -> forall h, holds_as (is_registered t) h ->
  holds_as (is_registered (do_call o t cl).2) (h ++ option_list (deed_of (poll_verb cl) (call_fd cl) (do_call o t cl).1)).
Proof.
  intros Hw h H. pose proof (outcome_ok o t cl Hw) as O. pose proof (call_other o t cl) as Q.
  assert (forall y, y <> call_fd cl -> is_registered (do_call o t cl).2 y <-> is_registered t y) as Ho.
  { intros y N. specialize (Q y Hw ltac:(congruence)). unfold is_registered. split; intros [r Hr]; exists r; by apply Q. }
  clear Q. eapply holds_accept; [exact H|]. destruct (do_call o t cl) as [r t'] eqn:E. cbn [fst snd] in *.
  destruct r as [[]|e|]; cbn [answer_of].
  - destruct (call_effect o t cl t' Hw E) as [He _].
    inversion O; subst; cbn [call_fd poll_verb] in *.
    + exists false. split; [done|]. split; [done|]. split; [done|]. unfold after. cbn. rewrite decide_True by done.
      split; [done|]. intros _. eexists (Reg _ _ (match m with Oneshot => true | _ => false end)). apply He. cbn.
      split; [reflexivity|]. split; [reflexivity|]. by destruct m.
    + exists true. split; [done|]. split; [done|]. split; [done|]. unfold after. cbn. rewrite decide_True by done.
      split; [done|]. intros _. eexists (Reg _ _ (match m with Oneshot => true | _ => false end)). apply He. cbn.
      split; [reflexivity|]. split; [reflexivity|]. by destruct m.
    + exists true. split; [done|]. split; [done|]. split; [done|]. unfold after. cbn. rewrite decide_True by done.
      split; [|done]. intros [r Hr]. by apply He in Hr.
  - assert (t' = t \/ e = ESimple KUnsupported) as [->| ->].
    { destruct (call_error o t cl e t' Hw E) as [->|(? & ? & ? & _ & _ & -> & _)]; auto. }
    + inversion O; subst; cbn [call_fd poll_verb kind] in *; try done.
      * exists true. split; [done|]. split; [done|]. split; [done|]. unfold after. cbn. rewrite decide_True by done. done.
      * exists false. split; [done|]. split; [done|]. split; [done|]. unfold after. cbn. rewrite decide_True by done. done.
      * exists false. split; [done|]. split; [done|]. split; [done|]. unfold after. cbn. rewrite decide_True by done. done.
    + cbn [kind]. intros y. destruct (decide (y = call_fd cl)) as [->|N]; [|by apply Ho].
      destruct (call_error o t cl _ t' Hw E) as [->|(fd & ev & m & -> & Hm & _ & _)]; [done|]. cbn [call_fd] in *.
      inversion O; subst. split; [done|]. intros _.
      cbn [do_call] in E. assert (has_fd o fd = false) as Hh by (unfold has_fd; by apply bool_decide_eq_false).
      destruct (fd_data t !! fd) as [d|] eqn:Ed.
      2:{ unfold poll_modify, modify_fds_entry in E. rewrite Hh, Ed in E. by simplify_eq. }
      destruct (modify_shape o t fd ev m Hw Hh d Ed) as (rm & E' & _). rewrite E' in E. injection E as _ <-.
      destruct (update_effect o t fd d (ev_key ev) rm (poll_events ev) Hw Ed) as [U _]. eexists. by apply U.
  - inversion O.
Qed.

Lemma poll_holds c n s : wf_own (own c) -> reachable c n s -> holds_as (is_registered (table s)) (omap poll_deed (log s)).
Proof.
  intros Ho. induction 1 as [|s [i a] s' Hr IH Hl Hs].
  - split; [apply documented_nil|]. intros x. split; [done|]. intros [r (d & pf & Hd & _)]. done.
  - destruct (tab_inv_ok c n s Hr) as [H1 H2]. pose proof (reachable_wf _ _ H1) as Hw. clear Hr H1. unfold legal in Hl. step_cases Hs as Hp;
      cbn [snd fst] in *; try (rewrite !omap_snoc; cbn [poll_deed option_list]; rewrite ?app_nil_r); try exact IH.
    all: try match goal with H : has_fd _ (call_fd ?cl) = true |- _ =>
      pose proof (poll_call (own c) (table s) cl Hw _ IH) as P; by rewrite own_call in P end.
    all: try match goal with H : do_call _ _ ?cl = _ |- _ =>
      pose proof (poll_call (own c) (table s) cl Hw _ IH) as P; by rewrite H in P end.
    all: destruct IH as [I1 I2]; split; [exact I1|]; intros x; rewrite I2; clear I1 I2.
    all: match goal with H : poll_turn _ _ _ _ = _ |- _ =>
      pose proof (turn_regs _ _ _ _ _ _ _ _ Hw Ho (proj1 (H2 _ _ _ Hp eq_refl)) Hl H x) as T end.
    all: split; [|intros [r' Hr']; apply T in Hr' as (r & Hr' & _); by exists r].
    all: intros [r Hr]; destruct (proj1 (H2 _ _ _ Hp eq_refl)) as [Hlen _]; clear H2.
    all: assert (exists g, returned (table s) a0.1 x g) as [g Hg] by
      (destruct Hr as (d & pf & _ & Hpf & Hfd & _); destruct (lookup_lt_is_Some_2 a0.1 (fd_index d)) as [g Hg];
       [rewrite Hlen; by eapply lookup_lt_Some|exists g, (fd_index d), pf; done]).
    all: destruct (reg_oneshot r) eqn:Eo; [|exists r; apply T; exists r; auto].
    all: destruct (decide (g = 0%N)) as [->|Ng]; [exists r; apply T; exists r; auto|].
    all: eexists; apply T; exists r; split; [done|]; left; eauto.
Qed.
End poll.

(** ** epoll *)
Lemma civil_reach c s : epoll_civil_run c s -> EpollSpec.reachable c s.
Proof. induction 1; by econstructor. Qed.

Lemma epoll_registered x h o : EpollSpec.registered x (h ++ [o]) = EpollSpec.after x (EpollSpec.registered x h) o.
Proof. apply EpollProofs.registered_snoc. Qed.

Section epoll.
Import EpollModel EpollSpec EpollProofs EpollProofs2.

Lemma epoll_holds c s : wf_config c -> epoll_civil_run c s ->
  holds_as (fun x => is_Some (EpollSpec.registered x (log s))) (omap epoll_deed (log s)).
Proof.
  intros Hc. induction 1 as [|s l s' Hr IH Hl Hv Hs].
  { split; [apply documented_nil|]. intros x. cbn. split; [done|by intros [? ?]]. }
  apply civil_reach in Hr.
  assert ((exists fd e m f, l = LAdd fd e m f) \/ (exists fd e m f, l = LModify fd e m f) \/ (exists fd f, l = LDelete fd f) \/
    log s' = log s \/ exists o, log s' = log s ++ [o] /\ epoll_deed o = None /\
      (forall x, EpollSpec.after x (EpollSpec.registered x (log s)) o = EpollSpec.registered x (log s))) as [H|[H|[H|H]]].
  { destruct l; [eauto 10..| | | | | ].
    all: do 3 right; cbn in Hs, Hv.
    all: repeat match type of Hs with context [match ?x with _ => _ end] =>
        lazymatch x with context [match _ with _ => _ end] => fail | _ => destruct x; try discriminate Hs end end;
      injection Hs as <-; first [by left | right; eexists; split; [reflexivity|split; [done|]]]; try done.
    all: intros x; cbn; case_decide; congruence. }
  - destruct H as (fd & e & m & f & ->). destruct (add_result _ _ _ _ _ _ _ Hc Hr Hl Hs) as (r & E & Er & _).
    rewrite E, omap_snoc. cbn [epoll_deed]. eapply holds_accept; [exact IH|]. destruct Hv as [V1 V2].
    destruct f as [x|]; [|destruct (EpollSpec.registered fd (log s)) eqn:Ef]; subst r; cbn [answer_of kind].
    + assert (forall y, is_Some (EpollSpec.registered y (log s ++ [AddRet fd e m (Err (EOs x))])) <-> is_Some (EpollSpec.registered y (log s)))
        as U by (intros y; by rewrite epoll_registered).
      destruct x; try done.
    + exists true. split; [done|]. split; [done|].
      split; [intros y _; by rewrite epoll_registered|]. rewrite epoll_registered. cbn. rewrite Ef. unfold PortableSpec.after. cbn. by rewrite decide_True.
    + exists false. split; [by split; [|intros [? ?]]|]. split; [done|].
      split; [intros y Hy; rewrite epoll_registered; cbn; by rewrite decide_False|].
      rewrite epoll_registered. cbn. rewrite decide_True by done. unfold PortableSpec.after. cbn. by rewrite decide_True.
  - destruct H as (fd & e & m & f & ->). destruct (modify_result _ _ _ _ _ _ _ Hc Hr Hl Hs) as (r & E & Er & _).
    rewrite E, omap_snoc. cbn [epoll_deed]. eapply holds_accept; [exact IH|]. destruct Hv as [V1 V2].
    destruct f as [x|]; [|destruct (EpollSpec.registered fd (log s)) eqn:Ef]; subst r; cbn [answer_of kind].
    + assert (forall y, is_Some (EpollSpec.registered y (log s ++ [ModifyRet fd e m (Err (EOs x))])) <-> is_Some (EpollSpec.registered y (log s)))
        as U by (intros y; by rewrite epoll_registered).
      destruct x; try done.
    + exists true. split; [done|]. split; [done|].
      split; [intros y Hy; rewrite epoll_registered; cbn; by rewrite decide_False|].
      rewrite epoll_registered. cbn. rewrite decide_True by done. unfold PortableSpec.after. cbn. by rewrite decide_True.
    + exists false. split; [by split; [|intros [? ?]]|]. split; [done|].
      split; [intros y Hy; by rewrite epoll_registered|].
      rewrite epoll_registered. cbn. rewrite Ef. unfold PortableSpec.after. cbn. rewrite decide_True by done. by split; [intros [? ?]|].
  - destruct H as (fd & f & ->). destruct (delete_result _ _ _ _ _ Hc Hr Hl Hs) as (r & E & Er & _).
    rewrite E, omap_snoc. cbn [epoll_deed]. eapply holds_accept; [exact IH|]. destruct Hv as [V1 V2].
    destruct f as [x|]; [|destruct (EpollSpec.registered fd (log s)) eqn:Ef]; subst r; cbn [answer_of kind].
    + assert (forall y, is_Some (EpollSpec.registered y (log s ++ [DeleteRet fd (Err (EOs x))])) <-> is_Some (EpollSpec.registered y (log s)))
        as U by (intros y; by rewrite epoll_registered).
      destruct x; try done.
    + exists true. split; [done|]. split; [done|].
      split; [intros y Hy; rewrite epoll_registered; cbn; by rewrite decide_False|].
      rewrite epoll_registered. cbn. rewrite decide_True by done. unfold PortableSpec.after. cbn. rewrite decide_True by done. by split; [intros [? ?]|].
    + exists false. split; [by split; [|intros [? ?]]|]. split; [done|].
      split; [intros y Hy; by rewrite epoll_registered|].
      rewrite epoll_registered. cbn. rewrite Ef. unfold PortableSpec.after. cbn. rewrite decide_True by done. by split; [intros [? ?]|].
  - destruct H as [->|(o & -> & D & U)]; [exact IH|]. rewrite omap_snoc, D. change (option_list _) with (@nil deed). rewrite app_nil_r.
    destruct IH as [I1 I2]. split; [exact I1|]. intros x. by rewrite I2, epoll_registered, U.
Qed.
End epoll.

(** ** kqueue *)
Section kqueue.
Import KqueueModel KqueueSpec KqueueProofs5 KqueueProofs6.

Lemma kqueue_entered x h : Forall kqueue_civil h -> registered (Z.of_N x) (omap kqueue_deed h) = entered (SFd x) h.
Proof.
  induction h as [|o h IH] using rev_ind; [done|]. intros [Hh Ho%Forall_inv]%Forall_app. specialize (IH Hh).
  rewrite entered_snoc, omap_snoc, <- IH. clear IH Hh. generalize (omap kqueue_deed h) as d. intros d.
  assert (kqueue_deed o = None -> (forall b, enter (SFd x) b o = b) ->
    registered (Z.of_N x) (d ++ option_list (kqueue_deed o)) = enter (SFd x) (registered (Z.of_N x) d) o) as No.
  { intros -> U. rewrite U. change (option_list _) with (@nil deed). by rewrite app_nil_r. }
  destruct o as [|i cl r| | | | | | | | | |]; try by apply No.
  destruct cl as [fd e m|fd e m|fd|u k m|u k m|u]; try (apply No; [done|]; intros b; cbn; rewrite decide_False by (by destruct u); done).
  all: cbn [kqueue_civil] in Ho; clear No; destruct Ho as [->| ->]; cbn [kqueue_deed].
  all: unfold deed_of; cbn [answer_of exists_err missing_err kind].
  all: match goal with |- context [option_list (Deed ?v ?x <$> Some ?a)] =>
    change (option_list (Deed v x <$> Some a)) with [Deed v x a] end.
  all: rewrite registered_snoc; unfold after; cbn [d_source d_verb d_answer enter call_source is_add deletes exists_err missing_err].
  all: destruct (decide (fd = x)) as [->|N];
    [rewrite !decide_True by done|rewrite !decide_False by (first [congruence|lia])]; try done.
Qed.

Lemma kqueue_holds c s : reachable c true s -> Forall kqueue_civil (log s) -> as_documented (omap kqueue_deed (log s)).
Proof.
  intros Hr. assert (forall h h', log s = h ++ h' -> Forall kqueue_civil h -> as_documented (omap kqueue_deed h)) as X.
  2:{ intros H. apply (X (log s) []); [by rewrite app_nil_r|done]. }
  induction h as [|o h IH] using rev_ind; intros h' E Hc; [apply documented_nil|].
  apply Forall_app in Hc as [Hh Ho%Forall_inv]. rewrite <- app_assoc in E. specialize (IH _ E Hh).
  rewrite omap_snoc.
  assert (kqueue_deed o = None -> as_documented (omap kqueue_deed h ++ option_list (kqueue_deed o))) as No.
  { intros ->. change (option_list _) with (@nil deed). by rewrite app_nil_r. }
  destruct o as [|i cl r| | | | | | | | | |]; try by apply No.
  destruct (return_at _ _ _ _ _ _ _ _ Hr E) as (s1 & Hr1 & Hl & Ht).
  destruct (xv_busy _ _ (xinv_reach _ _ Hr1) i _ _ Ht eq_refl) as [_ H]. cbn [rel] in H.
  unfold noted in H. rewrite Hl in H.
  destruct cl as [fd e m|fd e m|fd|u k m|u k m|u]; try by apply No.
  all: cbn [kqueue_civil call_source is_add is_modify] in *; clear No; rewrite <- (kqueue_entered fd h Hh) in H.
  all: cbn [kqueue_deed]; unfold deed_of.
  all: destruct Ho as [->| ->]; cbn [answer_of exists_err missing_err kind].
  all: match goal with |- context [option_list (Deed ?v ?x <$> Some ?a)] =>
    change (option_list (Deed v x <$> Some a)) with [Deed v x a] end.
  all: apply documented_snoc; [done|]; cbn [d_source d_verb d_answer].
  all: destruct (registered _ _); try done; exfalso; unfold other, exists_err, missing_err in H; intuition congruence.
Qed.
End kqueue.
