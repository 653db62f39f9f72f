(** Proofs about the kqueue model: the notes follow the log. *)
From stdpp Require Import prelude list gmap.
From Verif Require Import Bits Types EventModel EventSpec EventProofs KqueueModel KqueueSpec KqueueProofs.
Local Open Scope nat_scope.

(** *** Queueing *)
Definition act_ok (k : kernel) : Prop :=
  forall f n, notes k !! f = Some n -> intersects (kn_flags n) EV_CLEAR = false ->
    is_pending k f = true -> kn_active n = true.

Lemma is_pending_iff k f : is_pending k f = true <-> is_Some (pending k !! f).
Proof. unfold is_pending. apply bool_decide_eq_true. Qed.

Lemma register_act ks k ch ft a k' : act_ok k -> register ks k ch ft = (a, k') -> act_ok k'.
Proof.
  intros Hk H f n Hn Hc Hp. destruct (decide (f = ch_filter ch)) as [->|Hne].
  2:{ destruct (register_other _ _ _ _ _ _ _ H Hne) as [E1 E2].
      apply (Hk f n); [congruence|done|]. apply is_pending_iff. rewrite <- E2. by apply is_pending_iff. }
  destruct a as [e|]; [apply register_refused in H as ->; by apply (Hk (ch_filter ch) n)|].
  destruct (intersects (ch_flags ch) EV_DELETE) eqn:Ed.
  { pose proof (register_delete _ _ _ _ _ _ H Ed) as E. simpl in E. congruence. }
  destruct (intersects (ch_flags ch) EV_ADD) eqn:Ea.
  2:{ unfold register in H. destruct ft; [done|]. rewrite Ed, Ea in H.
      destruct (notes k !! ch_filter ch) as [n0|] eqn:E; [|done]. assert (k' = k) as -> by congruence. by eapply Hk. }
  destruct (register_add _ _ _ _ _ _ H Ed Ea) as (_ & n' & E1 & E2 & E3 & E4 & E5). simplify_eq. auto.
Qed.
Lemma kevent_act ks k chs fts a k' : act_ok k -> kevent ks k chs fts = (a, k') -> act_ok k'.
Proof.
  revert k fts a. induction chs as [|ch chs IH]; intros k fts a Hk H; [by simplify_eq/=|].
  cbn [kevent] in H. destruct (register ks k ch (default None (head fts))) as [x k1] eqn:E1.
  destruct (kevent ks k1 chs (tail fts)) as [l k2] eqn:E2. simplify_eq.
  eapply IH; [|exact E2]. by eapply register_act.
Qed.
Lemma happen_note k f st w g :
  notes (happen k f st w) !! g =
    if decide (g = f)
    then (fun n => Knote (kn_flags n) (kn_udata n) (kn_param n) (kn_active n || w)) <$> notes k !! f
    else notes k !! g.
Proof.
  unfold happen. simpl. case_decide as Hd.
  - subst g. destruct (notes k !! f) as [n|] eqn:E; [by rewrite lookup_insert|done].
  - destruct (notes k !! f) as [n|] eqn:E; [by rewrite lookup_insert_ne|done].
Qed.
Lemma happen_pending k f st w g :
  pending (happen k f st w) !! g = if decide (g = f) then st else pending k !! g.
Proof.
  unfold happen. simpl. case_decide as Hd; [subst; by rewrite lookup_partial_alter|].
  by rewrite lookup_partial_alter_ne.
Qed.
Lemma happen_act k f st w : act_ok k -> (is_Some st -> is_pending k f = false -> w = true) ->
  act_ok (happen k f st w).
Proof.
  intros Hk Hw g n Hn Hc Hp. rewrite happen_note in Hn. rewrite is_pending_iff, happen_pending in Hp.
  case_decide as Hd; [subst g|by apply (Hk g n Hn Hc), is_pending_iff].
  apply fmap_Some in Hn as (n0 & Hn0 & ->). simpl in *.
  destruct (is_pending k f) eqn:E; [by rewrite (Hk f n0)|]. rewrite Hw by done. apply orb_true_r.
Qed.
Lemma consume_act k f : act_ok k -> act_ok (consume k f).
Proof.
  intros Hk g n Hn Hc Hp. destruct (decide (g = f)) as [->|Hne].
  2:{ destruct (consume_other k f g Hne) as [E1 E2]. apply (Hk g n); [congruence|done|].
      apply is_pending_iff. rewrite <- E2. by apply is_pending_iff. }
  destruct (notes k !! f) as [n0|] eqn:E.
  2:{ unfold consume in Hn. rewrite E in Hn. congruence. }
  rewrite (consume_self k f n0 E) in Hn. unfold consumed in Hn.
  destruct (intersects (kn_flags n0) EV_ONESHOT) eqn:E1; [done|].
  destruct (intersects (kn_flags n0) EV_CLEAR) eqn:E2; simplify_eq/=; [congruence|].
  apply (Hk f n E Hc). unfold consume in Hp. by rewrite E, E1, E2 in Hp.
Qed.
Lemma consumes_act k fs : act_ok k -> act_ok (foldl consume k fs).
Proof. revert k. induction fs as [|f fs IH]; intros k H; [done|]. simpl. by apply IH, consume_act. Qed.
Lemma close_note k fd f : notes (close_fd k fd) !! f =
  if decide (f = FRead fd \/ f = FWrite fd) then None else notes k !! f.
Proof.
  unfold close_fd. simpl. destruct (decide (f = FRead fd)) as [->|H1].
  - rewrite lookup_delete. by rewrite decide_True by auto.
  - rewrite lookup_delete_ne by done. destruct (decide (f = FWrite fd)) as [->|H2].
    + rewrite lookup_delete. by rewrite decide_True by auto.
    + rewrite lookup_delete_ne by done. rewrite decide_False; [done|tauto].
Qed.
Lemma close_pending k fd f : pending (close_fd k fd) !! f =
  if decide (f = FRead fd \/ f = FWrite fd) then None else pending k !! f.
Proof.
  unfold close_fd. simpl. destruct (decide (f = FRead fd)) as [->|H1].
  - rewrite lookup_delete. by rewrite decide_True by auto.
  - rewrite lookup_delete_ne by done. destruct (decide (f = FWrite fd)) as [->|H2].
    + rewrite lookup_delete. by rewrite decide_True by auto.
    + rewrite lookup_delete_ne by done. rewrite decide_False; [done|tauto].
Qed.
Lemma close_act k fd : act_ok k -> act_ok (close_fd k fd).
Proof.
  intros Hk f n Hn Hc Hp. rewrite close_note in Hn. rewrite is_pending_iff, close_pending in Hp.
  case_decide; [done|]. by apply (Hk f n Hn Hc), is_pending_iff.
Qed.

(** *** The invariant *)
Definition note_ok (f : kq_filter) (st : option (N * poll_mode)) (on : option knote) : Prop :=
  match st with
  | Some (k, m) => exists n, on = Some n /\ kn_udata n = k /\ kn_flags n = nflags f m
  | None => on = None
  end.
Definition call_of (p : pc) : option call :=
  match p with
  | PInsert cl | PHas cl | PSubmit cl | PRemove cl | PRet cl _ => Some cl
  | _ => None
  end.
Record inv (c : config) (s : state) : Prop := Inv {
  iv_note : forall f, ~ own_filter c f -> note_ok f (armed (keeps c) f (log s)) (notes (kern s) !! f);
  iv_pend : forall f, ~ own_filter c f -> is_fd_filter f -> pending (kern s) !! f = readiness f (log s);
  iv_act : act_ok (kern s);
  iv_call : forall i p cl, threads s !! i = Some p -> call_of p = Some cl -> user_call c cl /\ key_ok cl
}.

Lemma armed_snoc ks f h o : armed ks f (h ++ [o]) = arm ks f (armed ks f h) o.
Proof. unfold armed. by rewrite fold_left_app. Qed.
Lemma readiness_snoc f h o : readiness f (h ++ [o]) = became f (readiness f h) o.
Proof. unfold readiness. by rewrite fold_left_app. Qed.

(** Steps whose log entry says nothing about [f]. *)
Definition silent (f : kq_filter) (o : obs) : Prop :=
  granted f o = None /\ (forall b, o <> Reported b).
Lemma armed_silent ks f h o : silent f o -> armed ks f (h ++ [o]) = armed ks f h.
Proof.
  intros [H1 H2]. rewrite armed_snoc. unfold arm. rewrite H1. destruct o; try done.
  by destruct (H2 b).
Qed.

Lemma note_ok_ext f st n n' : note_ok f st (Some n) -> kn_udata n' = kn_udata n -> kn_flags n' = kn_flags n ->
  note_ok f st (Some n').
Proof.
  unfold note_ok. destruct st as [[k m]|]; [|done]. intros (x & [= <-] & H1 & H2) E1 E2.
  exists n'. split; [done|]. split; congruence.
Qed.

Lemma own_changes c f fd ks k fts : noti c = SocketPair fd -> ~ own_filter c f ->
  notes (kevent ks k (pair_changes fd) fts).2 !! f = notes k !! f /\
  pending (kevent ks k (pair_changes fd) fts).2 !! f = pending k !! f.
Proof.
  intros Hn Hf. unfold own_filter in Hf. rewrite Hn in Hf.
  destruct (kevent ks k (pair_changes fd) fts) as [a k'] eqn:E. simpl.
  eapply kevent_other; [exact E|]. simpl.
  intros [?|[?|?%elem_of_nil]%elem_of_cons]%elem_of_cons; tauto.
Qed.
Lemma own_trigger c f ks k ch fts : noti c = UserEvent -> ~ own_filter c f -> ch_filter ch = FUser 0 ->
  notes (kevent ks k [ch] fts).2 !! f = notes k !! f /\
  pending (kevent ks k [ch] fts).2 !! f = pending k !! f.
Proof.
  intros Hn Hf Hch. unfold own_filter in Hf. rewrite Hn in Hf.
  destruct (kevent ks k [ch] fts) as [a k'] eqn:E. simpl.
  eapply kevent_other; [exact E|]. simpl. rewrite Hch. by intros ?%elem_of_list_singleton.
Qed.

(** The threads' calls. *)
Lemma calls_pc c s i p : (forall j p cl, threads s !! j = Some p -> call_of p = Some cl -> user_call c cl /\ key_ok cl) ->
  (forall cl, call_of p = Some cl -> user_call c cl /\ key_ok cl) ->
  forall j q cl, <[i:=p]> (threads s) !! j = Some q -> call_of q = Some cl -> user_call c cl /\ key_ok cl.
Proof.
  intros H1 H2 j q cl Hj Hq. apply list_lookup_insert_Some in Hj as [(-> & -> & _)|[_ Hj]]; eauto.
Qed.

Lemma inv_same c s s' : inv c s -> kern s' = kern s ->
  (log s' = log s \/ exists o, log s' = log s ++ [o] /\ (forall f, silent f o) /\
     (forall f st, became f st o = st)) ->
  (forall i p cl, threads s' !! i = Some p -> call_of p = Some cl -> user_call c cl /\ key_ok cl) ->
  inv c s'.
Proof.
  intros [H1 H2 H3 H4] Ek Hl Hc. split; rewrite ?Ek; [| |done|done].
  - intros f Hf. destruct Hl as [->|(o & -> & Ho & _)]; [by apply H1|]. rewrite armed_silent by done. by apply H1.
  - intros f Hf Hfd. destruct Hl as [->|(o & -> & _ & Ho)]; [by apply H2|].
    rewrite readiness_snoc, Ho. by apply H2.
Qed.

Lemma submit_inv c s i cl n fts a k' p o :
  inv c s -> user_call c cl -> key_ok cl ->
  kevent (keeps c) (kern s) (take n (default [] (call_changes c cl))) fts = (a, k') ->
  (call_of p = Some cl) -> (forall f, granted f o = grant f cl a) -> (forall f st, became f st o = st) ->
  (forall b, o <> Reported b) ->
  inv c (emit (set_pc (set_kern s k') i p) o).
Proof.
  intros [H1 H2 H3 H4] Hu Hk Hke Hp Ho Hb Hr. split; simpl.
  - intros f Hf. rewrite armed_snoc. specialize (H1 f Hf).
    pose proof (submit_effect c (kern s) cl n fts a k' f Hk Hke) as He.
    unfold arm. rewrite Ho. destruct (grant f cl a) as [[[key m]|]|].
    + destruct He as (nt & E1 & E2 & E3 & E4). destruct (armed (keeps c) f (log s)) as [[k0 m0]|].
      * destruct H1 as (n0 & E5 & E6 & E7). rewrite E5 in E3.
        destruct (keeps c); (exists nt; split; [done|]; split; [done|]); congruence.
      * simpl in H1. rewrite H1 in E3. exists nt. done.
    + done.
    + destruct He as [-> _]. destruct o; try done. by destruct (Hr b).
  - intros f Hf Hfd. rewrite readiness_snoc, Hb, <- (H2 f Hf Hfd).
    eapply kevent_pending_fd; [exact Hke|done|]. destruct (call_changes c cl) as [chs|] eqn:E; simpl.
    + apply Forall_take. by apply (call_untriggered c cl).
    + rewrite take_nil. by apply Forall_nil.
  - by eapply kevent_act.
  - intros j q cl' Hj Hq. eapply (calls_pc c s i p); eauto. intros cl0. rewrite Hp. by intros [= <-].
Qed.

Lemma own_inv c s k' w p o :
  inv c s -> (forall f, ~ own_filter c f -> notes k' !! f = notes (kern s) !! f /\ pending k' !! f = pending (kern s) !! f) ->
  act_ok k' ->
  (o = None \/ exists x, o = Some x /\ (forall f, silent f x) /\ (forall f st, became f st x = st)) ->
  (forall j q cl, p !! j = Some q -> call_of q = Some cl -> user_call c cl /\ key_ok cl) ->
  inv c (State (sources s) k' w p (match o with Some x => log s ++ [x] | None => log s end)).
Proof.
  intros [H1 H2 H3 H4] Hk Ha Ho Hp. split; simpl; [| |done|done].
  - intros f Hf. destruct (Hk f Hf) as [-> _]. destruct Ho as [->|(x & -> & Ho & _)]; [by apply H1|].
    rewrite armed_silent by done. by apply H1.
  - intros f Hf Hfd. destruct (Hk f Hf) as [_ ->]. destruct Ho as [->|(x & -> & _ & Ho)]; [by apply H2|].
    rewrite readiness_snoc, Ho. by apply H2.
Qed.

Lemma reports_fst k fs : (map (fun f => to_event (report_of k f)) fs).*1 = fs.
Proof. induction fs as [|f fs IH]; [done|]. rewrite map_cons, fmap_cons, IH. done. Qed.

Lemma report_inv c s max fs w :
  inv c s -> may_report (kern s) max fs = true ->
  inv c (emit (set_wait (set_kern s (foldl consume (kern s) fs)) w)
           (Reported (map (fun f => to_event (report_of (kern s) f)) fs))).
Proof.
  intros [H1 H2 H3 H4] Hm. apply may_report_spec in Hm as (Hnd & Hrep & _ & _). split; simpl.
  - intros f Hf. rewrite armed_snoc. unfold arm. cbn [granted]. rewrite reports_fst. specialize (H1 f Hf).
    destruct (decide (f ∈ fs)) as [Hin|Hni].
    + destruct (consumes_in (kern s) fs f Hnd Hin) as [-> _].
      pose proof (Hrep f Hin) as (n & E & _ & _)%reportable_spec.
      rewrite (consume_self _ _ _ E). rewrite E in H1. unfold consumed.
      destruct (armed (keeps c) f (log s)) as [[k m]|]; [|done].
      destruct H1 as (n' & [= <-] & Eu & Ef). rewrite Ef.
      pose proof (nflags_oneshot f m) as Hos.
      destruct (intersects (nflags f m) EV_ONESHOT).
      * destruct (proj1 Hos eq_refl) as [->| ->]; done.
      * assert (match m with Oneshot | EdgeOneshot => None | _ => Some (k, m) end = Some (k, m)) as ->.
        { destruct m; try done; exfalso; (assert (false = true) by (apply Hos; unfold mode_oneshot; auto)); done. }
        destruct (intersects (nflags f m) EV_CLEAR); simpl; eexists; split; eauto.
    + destruct (consumes_other (kern s) fs f Hni) as [-> _].
      destruct (armed (keeps c) f (log s)) as [[k m]|]; done.
  - intros f Hf Hfd. rewrite readiness_snoc. cbn [became]. rewrite <- (H2 f Hf Hfd).
    destruct (decide (f ∈ fs)) as [Hin|Hni].
    + destruct (consumes_in (kern s) fs f Hnd Hin) as [_ ->]. by apply consume_pending_fd.
    + by destruct (consumes_other (kern s) fs f Hni) as [_ ->].
  - by apply consumes_act.
  - done.
Qed.

Lemma close_inv c s fd : inv c s -> ~ own_fd c fd ->
  inv c (emit (set_kern s (close_fd (kern s) fd)) (Closed fd)).
Proof.
  intros [H1 H2 H3 H4] Hfd. split; cbn [kern log threads emit set_kern]; [| |by apply close_act|done].
  - intros f Hf. rewrite armed_snoc, close_note. unfold arm. cbn [granted].
    case_decide as Hd; [done|]. specialize (H1 f Hf).
    destruct (armed (keeps c) f (log s)) as [[k m]|]; done.
  - intros f Hf Hff. rewrite readiness_snoc, close_pending. cbn [became].
    case_decide as Hd; [done|]. auto.
Qed.

Lemma happen_inv c s f st w : inv c s -> ~ own_filter c f ->
  (is_Some st -> is_pending (kern s) f = false -> w = true) ->
  inv c (emit (set_kern s (happen (kern s) f st w)) (Happened f st w)).
Proof.
  intros [H1 H2 H3 H4] Hf Hw. split; cbn [kern log threads emit set_kern]; [| |by apply happen_act|done].
  - intros g Hg. rewrite armed_silent by (by split). rewrite happen_note. specialize (H1 g Hg).
    case_decide as Hd; [subst g|done]. destruct (notes (kern s) !! f) as [n|]; [|done].
    by eapply note_ok_ext.
  - intros g Hg Hgf. rewrite readiness_snoc, happen_pending. cbn [became].
    destruct (decide (g = f)) as [->|Hne]; [by rewrite decide_True|].
    rewrite decide_False by done. auto.
Qed.

Lemma entry_call c cl : call_of (entry c cl) = Some cl.
Proof. destruct cl; simpl; try done. by destruct (filter_change _ _ _ _). Qed.
Lemma after_call cl r : call_of (after_submit cl r) = Some cl.
Proof. destruct r; simpl; try done. by destruct (deletes cl). Qed.

Lemma silent_called i cl f : silent f (Called i cl). Proof. by split. Qed.

Lemma inv_step c excl s l s' : inv c s -> legal c excl s l -> step c s l = Some s' -> inv c s'.
Proof.
  intros Hi Hl Hs. pose proof (iv_call c s Hi) as Hcalls.
  destruct l as [i a|f st w|fd|sl max|fs|e|fts]; cbn [step] in Hs.
  - destruct (threads s !! i) as [p|] eqn:Ep; [|done].
    assert (Hself : forall cl, call_of p = Some cl -> user_call c cl /\ key_ok cl) by eauto.
    destruct p as [|cl|cl|cl|cl|cl r| |], a as [cl'| | |fts|n fts e]; cbn [thread_step] in Hs; try done.
    + (* call *) simplify_eq. simpl in Hl. destruct Hl as (Hu & Hk & _).
      apply (inv_same c s); [done|done|right|].
      { eexists. split; [done|]. split; [by split|done]. }
      intros j q cl Hj Hq. eapply (calls_pc c s i); [exact Hcalls| |exact Hj|exact Hq].
      intros cl0. rewrite entry_call. by intros [= <-].
    + (* notify *) simplify_eq. apply (inv_same c s); [done|done|by left|].
      intros j q cl Hj Hq. refine (calls_pc c s i _ Hcalls _ j q cl Hj Hq). done.
    + (* insert *) destruct (decide (call_source cl ∈ sources s)); simplify_eq;
        (apply (inv_same c s); [done|done|by left|]); intros j q cl0 Hj Hq; refine (calls_pc c s i _ Hcalls _ j q cl0 Hj Hq); exact Hself.
    + destruct (decide (call_source cl ∈ sources s)); simplify_eq;
        (apply (inv_same c s); [done|done|by left|]); intros j q cl0 Hj Hq;
        (refine (calls_pc c s i _ Hcalls _ j q cl0 Hj Hq); intros cl1;
         try destruct (call_changes c cl); apply Hself).
    + (* submit *)
      destruct (kevent (keeps c) (kern s) (default [] (call_changes c cl)) fts) as [a k] eqn:Ek. simplify_eq.
      destruct (Hself cl eq_refl) as [Hu Hk].
      eapply (submit_inv c s i cl (length (default [] (call_changes c cl))) fts a k); eauto.
      * by rewrite firstn_all.
      * apply after_call.
    + destruct (kevent (keeps c) (kern s) (take n (default [] (call_changes c cl))) fts) as [a k] eqn:Ek. simplify_eq.
      destruct (Hself cl eq_refl) as [Hu Hk].
      by eapply (submit_inv c s i cl n fts a k); eauto.
    + (* remove *) simplify_eq. apply (inv_same c s); [done|done|by left|].
      intros j q cl0 Hj Hq; refine (calls_pc c s i _ Hcalls _ j q cl0 Hj Hq); exact Hself.
    + (* return *) simplify_eq. apply (inv_same c s); [done|done|right|].
      { eexists. split; [done|]. split; [by split|done]. }
      intros j q cl0 Hj Hq. refine (calls_pc c s i _ Hcalls _ j q cl0 Hj Hq). done.
    + (* notify fails *) simplify_eq. apply (inv_same c s); [done|done|by left|].
      intros j q cl Hj Hq. refine (calls_pc c s i _ Hcalls _ j q cl Hj Hq). done.
    + destruct (noti c) as [|fd] eqn:En; simplify_eq.
      * apply (own_inv c s _ _ _ (Some Notified)); [done| | |right|].
        -- intros f Hf. by apply (own_trigger c).
        -- destruct (kevent (keeps c) (kern s) [user_trigger] []) as [a k] eqn:Ek. eapply kevent_act; [|exact Ek]. apply Hi.
        -- eexists. split; [done|]. split; [by split|done].
        -- intros j q cl Hj Hq. refine (calls_pc c s i _ Hcalls _ j q cl Hj Hq). done.
      * apply (own_inv c s _ _ _ (Some Notified)); [done| | |right|].
        -- intros f Hf. cbn [kern set_kern set_pc emit set_wait]. rewrite happen_note, happen_pending. rewrite !decide_False; [done| |].
           all: intros ->; apply Hf; unfold own_filter; rewrite En; by left.
        -- apply happen_act; [apply Hi|done].
        -- eexists. split; [done|]. split; [by split|done].
        -- intros j q cl Hj Hq. refine (calls_pc c s i _ Hcalls _ j q cl Hj Hq). done.
    + simplify_eq. apply (inv_same c s); [done|done|by left|].
      intros j q cl Hj Hq. refine (calls_pc c s i _ Hcalls _ j q cl Hj Hq). done.
  - simplify_eq. destruct Hl. by apply happen_inv.
  - simplify_eq. by apply close_inv.
  - destruct (wait s); try done. simplify_eq. apply (inv_same c s); [done|done|right|done].
    eexists. split; [done|]. split; [by split|done].
  - destruct (wait s) as [|sl max| | | |x|]; try done.
    destruct (may_report (kern s) max fs) eqn:Em; [|done]. simpl in Hs.
    destruct (negb (sl && bool_decide (fs = []))); [|done]. simplify_eq. by eapply report_inv.
  - assert (s' = s \/ exists e, s' = emit (set_wait s Out) (WaitErr e)) as [->|[x ->]]; [|done|].
    { destruct (wait s); try done; destruct e; simplify_eq; eauto. }
    apply (inv_same c s); [done|done|right|done]. eexists. split; [done|]. split; [by split|done].
  - unfold wait_step in Hs. destruct (wait s); try done.
    + destruct (noti c) as [|fd] eqn:En; [done|]. simplify_eq.
      apply (own_inv c s _ _ _ None); [done| | |by left|done].
      * intros f Hf. cbn [kern set_kern set_pc emit set_wait]. rewrite happen_note, happen_pending. rewrite !decide_False; [done| |].
           all: intros ->; apply Hf; unfold own_filter; rewrite En; by left.
      * apply happen_act; [apply Hi|]. by intros [? ?].
    + destruct (noti c) as [|fd] eqn:En; [done|]. destruct (decide (SFd fd ∈ sources s)); simplify_eq.
      * apply (inv_same c s); [done|done|by left|done].
      * apply (inv_same c s); [done|done|right|done]. eexists. split; [done|]. split; [by split|done].
    + destruct (noti c) as [|fd] eqn:En; [done|].
      pose proof (fun f (H : ~ own_filter c f) => own_changes c f fd (keeps c) (kern s) fts En H) as Hoc.
      destruct (kevent (keeps c) (kern s) (pair_changes fd) fts) as [a k] eqn:Ek. simpl in Hoc.
      assert (Ha : act_ok k) by (eapply kevent_act; [apply Hi|exact Ek]).
      destruct (check_receipts (receipts a)); simplify_eq;
        match goal with |- inv c (emit _ ?x) => apply (own_inv c s _ _ _ (Some x)); [done|exact Hoc|done|right|done] end;
        (eexists; split; [done|]; split; [by split|done]).
    + simplify_eq. apply (inv_same c s); [done|done|right|done]. eexists. split; [done|]. split; [by split|done].
    + simplify_eq. apply (inv_same c s); [done|done|right|done]. eexists. split; [done|]. split; [by split|done].
Qed.

Lemma act_empty : act_ok (Kernel ∅ ∅).
Proof. intros f n Hn. simpl in Hn. by rewrite lookup_empty in Hn. Qed.

Lemma inv_reach c excl s : reachable c excl s -> inv c s.
Proof.
  induction 1 as [n|s l s' Hr IH Hl Hs]; [|by eapply inv_step].
  unfold init. destruct (noti c) as [|fd] eqn:En.
  - split; cbn [kern log threads].
    + intros f Hf. by destruct (own_trigger c f (keeps c) (Kernel ∅ ∅) user_register [] En Hf eq_refl) as [-> _].
    + intros f Hf _. by destruct (own_trigger c f (keeps c) (Kernel ∅ ∅) user_register [] En Hf eq_refl) as [_ ->].
    + destruct (kevent (keeps c) (Kernel ∅ ∅) [user_register] []) as [a k] eqn:Ek.
      eapply kevent_act; [apply act_empty|exact Ek].
    + intros i p cl [-> _]%lookup_replicate. done.
  - split; cbn [kern log threads].
    + intros f Hf. by destruct (own_changes c f fd (keeps c) (Kernel ∅ ∅) [] En Hf) as [-> _].
    + intros f Hf _. by destruct (own_changes c f fd (keeps c) (Kernel ∅ ∅) [] En Hf) as [_ ->].
    + destruct (kevent (keeps c) (Kernel ∅ ∅) (pair_changes fd) []) as [a k] eqn:Ek.
      eapply kevent_act; [apply act_empty|exact Ek].
    + intros i p cl [-> _]%lookup_replicate. done.
Qed.
