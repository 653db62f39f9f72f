(** C114 on kqueue: a source with no interest delivers nothing. *)
From stdpp Require Import prelude list gmap.
From Verif Require Import Bits Types EventModel KqueueModel KqueueSpec KqueueProofs KqueueProofs2 KqueueProofs3 KqueueProofs5 KqueueProps CurrentProps.
Local Open Scope nat_scope.

Lemma answered_all c s l s' i cl a : step c s l = Some s' -> log s' = log s ++ [Answered i cl a] ->
  threads s !! i = Some (PSubmit cl) /\ exists faults k, kevent (keeps c) (kern s) (default [] (call_changes c cl)) faults = (a, k).
Proof.
  intros Hs E2.
  assert (Hno : log s' = log s -> False).
  { intros E. rewrite E in E2. apply (f_equal length) in E2. rewrite app_length in E2. simpl in E2. lia. }
  assert (Hone : forall x, log s' = log s ++ [x] -> x = Answered i cl a).
  { intros x E. rewrite E in E2. by apply app_inj_tail in E2 as [_ E2]. }
  destruct l as [j x|f st w|fd|sl max|fs|e|fts]; cbn [step] in Hs.
  - destruct (threads s !! j) as [p|] eqn:Ep; [|done].
    destruct p as [|cl0|cl0|cl0|cl0|cl0 r0| |], x as [cl'| | |fts|n fts e]; cbn [thread_step] in Hs; try done.
    all: try (destruct (kevent _ _ _ _) eqn:Ek). all: try (destruct (decide _)).
    all: try (match goal with H : context [noti ?x] |- _ => destruct (noti x) end).
    all: simplify_eq; try (by destruct (Hno eq_refl)); pose proof (Hone _ eq_refl) as Hx; try discriminate Hx.
    injection Hx as -> -> ->. split; [done|]. eauto.
  - simplify_eq. by pose proof (Hone _ eq_refl).
  - simplify_eq. by pose proof (Hone _ eq_refl).
  - destruct (wait s); simplify_eq. by pose proof (Hone _ eq_refl).
  - destruct (wait s); try done. destruct (_ && _); simplify_eq. by pose proof (Hone _ eq_refl).
  - destruct (wait s), e; simplify_eq; try (by destruct (Hno eq_refl)); by pose proof (Hone _ eq_refl).
  - unfold wait_step in Hs. destruct (wait s); try done; try (destruct (noti c)); try done.
    all: try (destruct (decide _)). all: try (destruct (kevent _ _ _ _); destruct (check_receipts _)).
    all: simplify_eq; try (by destruct (Hno eq_refl)); by pose proof (Hone _ eq_refl).
Qed.

(** The kernel was asked not to watch [f] and granted it, or said that it watches nothing there. *)
Lemma unarmed_after c excl s h i cl a h' f : reachable c excl s -> log s = h ++ Answered i cl a :: h' -> ~ own_filter c f ->
  asks cl f = Some None -> Forall mild a -> armed (keeps c) f (h ++ [Answered i cl a]) = None.
Proof.
  intros Hr E Hf Ha Hm. destruct (log_step _ _ _ _ _ _ Hr E) as (s1 & l & s2 & Hr1 & Hl & Hs & L1 & E2).
  rewrite <- L1 in E2. destruct (answered_all _ _ _ _ _ _ _ Hs E2) as (Hp & faults & k & Hk).
  pose proof (inv_reach _ _ _ Hr1) as Hi. destruct (iv_call _ _ Hi i _ cl Hp eq_refl) as [Hu Hko].
  destruct (can_submit_reach _ _ _ Hr1 _ _ Hp) as [chs Hc].
  pose proof (call_slot c cl chs f Hc Hko) as Hsl. rewrite Ha in Hsl. destruct Hsl as (ch & Hch & _).
  rewrite Hc in Hk. cbn [default] in Hk.
  assert (is_Some (a !! slot f)) as [x Hx].
  { apply lookup_lt_is_Some. rewrite (kevent_length _ _ _ _ _ _ Hk). by apply lookup_lt_Some in Hch. }
  rewrite armed_snoc. unfold arm. cbn [granted]. rewrite Hx.
  destruct (Forall_lookup_1 _ _ _ _ Hm Hx) as [->|[->| ->]]; [by rewrite Ha| |];
    by rewrite (gone_unarmed _ _ _ _ _ _ f Hr E Hf) by (cbn; by rewrite Ha, Hx).
Qed.
Lemma stays_unarmed q f h h' : armed q f h = None -> (forall o, o ∈ h' -> ~ arms f o) -> armed q f (h ++ h') = None.
Proof.
  intros H. induction h' as [|o h' IH] using rev_ind; intros N; [by rewrite app_nil_r|].
  rewrite app_assoc, armed_snoc. unfold arm. rewrite IH by (intros x X; apply N; set_solver).
  destruct (granted f o) as [[[k m]|]|] eqn:G; [|done|by destruct o].
  destruct (N o); [set_solver|]. by exists k, m.
Qed.

Theorem C114_kqueue_partial c excl s h1 i cl fd e m a h2 b h3 f :
  reachable c excl s -> log s = h1 ++ Answered i cl a :: h2 ++ Reported b :: h3 ->
  cl = CAdd fd e m \/ cl = CModify fd e m -> ev_readable e = false -> ev_writable e = false -> Forall mild a ->
  f = FRead fd \/ f = FWrite fd -> ~ own_fd c fd -> (forall o, o ∈ h2 -> ~ arms f o) -> f ∉ b.*1.
Proof.
  intros Hr E C N1 N2 M F O N X.
  assert (Hf : ~ own_filter c f).
  { unfold own_filter, own_fd in *. destruct (noti c); [by destruct F as [->| ->]|].
    intros Y. apply O. f_equal. destruct F as [->| ->], Y as [Y|Y]; congruence. }
  assert (Ha : asks cl f = Some None).
  { destruct C as [->| ->], F as [->| ->]; cbn; rewrite N1, N2; by repeat case_decide. }
  apply elem_of_list_fmap in X as ([f' x] & -> & X). cbn in *.
  assert (E' : log s = (h1 ++ Answered i cl a :: h2) ++ Reported b :: h3) by (rewrite E, <- app_assoc; done).
  destruct (C70_reports_are_current _ _ _ _ _ _ _ _ Hr E' X Hf) as (k & m' & A & _).
  rewrite (app_assoc h1 [Answered i cl a] h2 : h1 ++ Answered i cl a :: h2 = _) in A.
  rewrite (stays_unarmed _ _ _ _ (unarmed_after _ _ _ _ _ _ _ _ _ Hr E Hf Ha M) N) in A. done.
Qed.
Print Assumptions C114_kqueue_partial.

(** The interest of 10 is switched off while it is readable; the wait that follows reports only 11. *)
Example C114_kqueue_nonvacuous : exists s h1 cl a h2 b h3,
  reachable freebsd true s /\ log s = h1 ++ Answered 0 cl a :: h2 ++ Reported b :: h3 /\
  cl = CModify 10 (ev 7 false false) Level /\ Forall mild a /\ ~ own_fd freebsd 10 /\
  armed (keeps freebsd) (FRead 10) h1 = Some (7%N, Level) /\ (exists fl, readiness (FRead 10) (h1 ++ Answered 0 cl a :: h2) = Some fl) /\
  (forall o, o ∈ h2 -> ~ arms (FRead 10) o) /\ b <> [].
Proof.
  runs freebsd true 1
    (do_add 0 10 (ev 7 true false) Level [] ++ do_add 0 11 (ev 8 true false) Level [] ++
     [LHappen (FRead 10) (Some 0%N) true; LHappen (FRead 11) (Some 0%N) true] ++
     do_modify 0 10 (ev 7 false false) Level [] ++ [LWait true 8; LReport [FRead 11]]) s Hr Hl E.
  exists s. rewrite Hl. eexists [_; _; _; _; _; _; _; _; _], _, _, [_; _], _, []. split; [done|]. split; [vm_compute; reflexivity|].
  split; [reflexivity|]. split; [repeat (constructor; [first [by left|by right; left]|]); constructor|]. split; [by intros [=]|].
  split; [vm_compute; reflexivity|]. split; [eexists; vm_compute; reflexivity|]. split; [|done].
  intros o H. repeat (apply elem_of_cons in H as [->|H]; [intros (? & ? & [=])|]). by apply elem_of_nil in H.
Qed.
