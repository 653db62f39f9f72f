(** Proofs about the kqueue model: the set of sources under exclusive use. *)
From stdpp Require Import prelude list gmap.
From Verif Require Import Bits Types EventModel EventSpec EventProofs KqueueModel KqueueSpec KqueueProofs
  KqueueProofs2 KqueueProofs3 KqueueProofs4.
Local Open Scope nat_scope.

Definition other (r : res unit) : Prop := r <> exists_err /\ r <> missing_err /\ r <> Ok tt.

(** How the set of sources ([ins]), the log ([ent]) and the kernel ([clean]: no filter of the
    source is there) relate while a call on the source is at [p]. *)
Definition rel (ins ent : Prop) (clean : Prop) (p : pc) : Prop :=
  match p with
  | PInsert cl => is_add cl = true /\ (ins <-> ent)
  | PHas cl => if is_add cl then ins /\ ~ ent else (ins <-> ent) /\ (forall u, cl <> CDeleteFilter u)
  | PSubmit cl =>
      if is_add cl then ins /\ ~ ent
      else match cl with CDeleteFilter _ => ins <-> ent | _ => ins /\ ent end
  | PRemove cl =>
      clean /\ match cl with CDelete _ => ins /\ ent | CDeleteFilter _ => ins <-> ent | _ => False end
  | PRet cl r =>
      if is_add cl then (r = exists_err /\ ins /\ ent) \/ (r <> exists_err /\ r <> missing_err /\ ins /\ ~ ent)
      else if is_modify cl then (ins <-> ent) /\ (r = missing_err <-> ~ ent) /\ r <> exists_err
      else (r = Ok tt /\ ~ ins /\ ent) \/ (r = missing_err /\ ~ ins /\ ~ ent) \/
           (other r /\ match cl with CDelete _ => ins /\ ent | _ => ins <-> ent end)
  | _ => True
  end.

Definition inside (s : state) (src : source) : Prop := src ∈ sources s.
Definition noted (s : state) (src : source) : Prop := entered src (log s) = true.
Definition cleared (s : state) (src : source) : Prop :=
  forall f, source_filter src f -> notes (kern s) !! f = None.

Lemma rel_mono ins ins' ent ent' (cn cn' : Prop) p :
  (ins <-> ins') -> (ent <-> ent') -> (cn -> cn') -> rel ins ent cn p -> rel ins' ent' cn' p.
Proof.
  intros H1 H2 H3. destruct p as [|cl|cl|cl|cl|cl r| |]; cbn [rel]; try done.
  - tauto.
  - destruct (is_add cl); tauto.
  - destruct (is_add cl); [tauto|]. destruct cl; tauto.
  - destruct cl; tauto.
  - destruct (is_add cl); [tauto|]. destruct (is_modify cl); [tauto|]. destruct cl; tauto.
Qed.

Record xinv (c : config) (s : state) : Prop := Xinv {
  xv_excl : forall i j p q src, threads s !! i = Some p -> threads s !! j = Some q ->
    busy p = Some src -> busy q = Some src -> i = j;
  xv_free : forall src, user_source c src -> unused s src -> (inside s src <-> noted s src);
  xv_busy : forall i p src, threads s !! i = Some p -> busy p = Some src ->
    user_source c src /\ rel (inside s src) (noted s src) (cleared s src) p;
  xv_clean : forall src, user_source c src -> ~ inside s src -> cleared s src;
  xv_own : forall fd, noti c = SocketPair fd -> SFd fd ∈ sources s
}.

Lemma user_source_filter c src f : user_source c src -> source_filter src f -> ~ own_filter c f.
Proof.
  unfold user_source, own_filter. destruct (noti c) as [|fd].
  - intros _ H ->. destruct src; simpl in H; try done. by destruct H.
  - intros H1 H2 [->| ->]; destruct src; simpl in H2; try done; destruct H2 as [H2|H2]; simplify_eq.
Qed.

(** A step that is about no source. *)
Lemma xinv_env c s s' : xinv c s ->
  (forall j q, threads s' !! j = Some q -> is_Some (busy q) -> threads s !! j = Some q) ->
  (forall j q, threads s !! j = Some q -> is_Some (busy q) -> threads s' !! j = Some q) ->
  sources s' = sources s -> (forall src, entered src (log s') = entered src (log s)) ->
  (forall f, ~ own_filter c f -> notes (kern s) !! f = None -> notes (kern s') !! f = None) ->
  xinv c s'.
Proof.
  intros [H1 H2 H3 H4 H5] T1 T2 Es El En.
  assert (Hin : forall src, inside s src <-> inside s' src) by (intros src; unfold inside; by rewrite Es).
  assert (Hno : forall src, noted s src <-> noted s' src) by (intros src; unfold noted; by rewrite El).
  assert (Hcl : forall src, user_source c src -> cleared s src -> cleared s' src).
  { intros src Hu Hc f Hf. apply En; [by eapply user_source_filter|]. by apply Hc. }
  split.
  - intros i j p q src Hp Hq Bp Bq. eapply H1; [apply T1|apply T1| |]; eauto.
  - intros src Hu Hun. rewrite <- Hin, <- Hno. apply H2; [done|]. intros i p Hp Bp.
    apply (Hun i p); [|done]. apply T2; eauto.
  - intros i p src Hp Bp. destruct (H3 i p src) as [Hu Hr]; [apply T1; eauto|done|].
    split; [done|]. eapply rel_mono; [apply Hin|apply Hno|by apply Hcl|done].
  - intros src Hu Hni. apply Hcl; [done|]. apply H4; [done|]. by rewrite Hin.
  - rewrite Es. done.
Qed.

(** A step of the thread that works on [src0]. *)
Lemma xinv_local c s s' i p p' src0 :
  xinv c s -> threads s !! i = Some p -> threads s' = <[i:=p']> (threads s) ->
  user_source c src0 ->
  (busy p = Some src0 \/ (busy p = None /\ unused s src0)) ->
  (busy p' = Some src0 \/ (busy p' = None /\ (inside s' src0 <-> noted s' src0))) ->
  (forall src, src <> src0 -> (inside s src <-> inside s' src)) ->
  (forall src, src <> src0 -> (noted s src <-> noted s' src)) ->
  (forall src, src <> src0 -> user_source c src -> cleared s src -> cleared s' src) ->
  rel (inside s' src0) (noted s' src0) (cleared s' src0) p' ->
  (~ inside s' src0 -> cleared s' src0) ->
  xinv c s'.
Proof.
  intros [H1 H2 H3 H4 H5] Hp Et Hu0 Hb Hb' Hin Hno Hcl Hrel Hclean.
  assert (Hme : forall j q, j <> i -> threads s !! j = Some q -> busy q <> Some src0).
  { intros j q Hne Hq Bq. destruct Hb as [Hb|[_ Hb]]; [|by apply (Hb j q)]. apply Hne. by eapply H1. }
  assert (Hlt : i < length (threads s)) by (by eapply lookup_lt_Some).
  assert (Hp' : forall src, src <> src0 -> busy p' <> Some src).
  { intros src Hne. destruct Hb' as [->|[-> _]]; congruence. }
  assert (Hpn : forall src, src <> src0 -> busy p <> Some src).
  { intros src Hne. destruct Hb as [->|[-> _]]; congruence. }
  split.
  - intros j k q r src Hq Hr Bq Br. rewrite Et in Hq, Hr.
    apply list_lookup_insert_Some in Hq as [(<- & <- & _)|[Hj Hq]];
    apply list_lookup_insert_Some in Hr as [(<- & <- & _)|[Hk Hr]]; [done| | |by eapply H1].
    + exfalso. destruct (decide (src = src0)) as [->|Hne]; [by apply (Hme k r)|by apply (Hp' src)].
    + exfalso. destruct (decide (src = src0)) as [->|Hne]; [by apply (Hme j q)|by apply (Hp' src)].
  - intros src Hu Hun. destruct (decide (src = src0)) as [->|Hne].
    + destruct Hb' as [Hb'|[_ Hb']]; [|done]. exfalso. apply (Hun i p'); [|done].
      rewrite Et. by apply list_lookup_insert.
    + rewrite <- Hin, <- Hno by done. apply H2; [done|]. intros j q Hq Bq.
      destruct (decide (j = i)) as [->|Hji].
      * rewrite Hp in Hq. injection Hq as <-. by apply (Hpn src).
      * apply (Hun j q); [|done]. rewrite Et. by rewrite list_lookup_insert_ne.
  - intros j q src Hq Bq. rewrite Et in Hq. apply list_lookup_insert_Some in Hq as [(<- & <- & _)|[Hj Hq]].
    + destruct (decide (src = src0)) as [->|Hne]; [done|]. by destruct (Hp' src Hne).
    + assert (src <> src0) as Hne by (intros ->; by eapply (Hme j q)).
      destruct (H3 j q src Hq Bq) as [Hu Hr]. split; [done|].
      eapply rel_mono; [by apply Hin|by apply Hno|by apply Hcl|done].
  - intros src Hu Hni. destruct (decide (src = src0)) as [->|Hne]; [by apply Hclean|].
    apply Hcl; [done|done|]. apply H4; [done|]. by rewrite Hin.
  - intros fd Hfd. assert (SFd fd <> src0) as Hne.
    { intros <-. unfold user_source in Hu0. by rewrite Hfd in Hu0. }
    apply (Hin _ Hne). by apply H5.
Qed.

(** The kernel changes of a call are about its source. *)
Lemma asks_source cl f w : asks cl f = Some w -> source_filter (call_source cl) f.
Proof.
  destruct cl as [fd e m|fd e m|fd|u k m|u k m|u]; cbn [asks call_source source_filter].
  1-2: destruct (decide (f = FRead fd)); [auto|]; destruct (decide (f = FWrite fd)); auto; done.
  - destruct (decide (f = FRead fd \/ f = FWrite fd)); done.
  - destruct (decide (f = filter_of u)); [|done]. subst. by destruct u.
  - destruct (decide (f = filter_of u)); [|done]. subst. by destruct u.
  - destruct (decide (f = filter_of u)); [|done]. subst. by destruct u.
Qed.
Lemma source_filter_inj src src' f : source_filter src f -> source_filter src' f -> src = src'.
Proof.
  destruct src, src'; simpl; intros H1 H2; try (destruct H1 as [H1|H1]); try (destruct H2 as [H2|H2]); by simplify_eq.
Qed.
Lemma submit_elsewhere c k cl n fts a k' f src :
  key_ok cl -> kevent (keeps c) k (take n (default [] (call_changes c cl))) fts = (a, k') ->
  src <> call_source cl -> source_filter src f -> notes k' !! f = notes k !! f.
Proof.
  intros Hk Hke Hne Hf. pose proof (submit_effect c k cl n fts a k' f Hk Hke) as He.
  destruct (grant f cl a) as [w|] eqn:Eg; [|by destruct He]. exfalso. apply Hne.
  unfold grant in Eg. destruct (a !! slot f) as [[|]|]; try done.
  eapply source_filter_inj; [exact Hf|]. by eapply asks_source.
Qed.

Lemma delete_asks cl f : deletes cl = true -> source_filter (call_source cl) f -> asks cl f = Some None.
Proof.
  destruct cl as [fd e m|fd e m|fd|u k m|u k m|u]; try done; intros _ H; cbn [asks].
  - by rewrite decide_True.
  - assert (f = filter_of u) as -> by (destruct u; exact H). by rewrite decide_True.
Qed.
Lemma delete_clears c k cl fts a k' f :
  key_ok cl -> kevent (keeps c) k (default [] (call_changes c cl)) fts = (a, k') ->
  honest c cl fts -> is_Some (call_changes c cl) ->
  deletes cl = true -> Forall mild a -> source_filter (call_source cl) f -> notes k' !! f = None.
Proof.
  intros Hk Hke Hh [chs Hc] Hd Hm Hf. unfold honest in Hh. rewrite Hc in Hke, Hh. simpl in Hke, Hh.
  pose proof (call_slot c cl chs f Hc Hk) as Hs. rewrite (delete_asks _ _ Hd Hf) in Hs.
  destruct Hs as (ch & Hch & Ef & Hdel).
  destruct (kevent_lookup _ _ _ _ _ _ _ _ Hke (call_nodup _ _ _ Hc) Hch) as (k1 & x & k2 & Hreg & Ha & E1 & _ & E2 & _).
  rewrite Ef in *. rewrite E2. pose proof (register_delete _ _ _ _ _ _ Hreg Hdel) as Hr. rewrite Ef in Hr.
  destruct x as [e|]; [|done]. destruct Hr as [-> Hr].
  destruct (fts !! slot f) as [[e'|]|] eqn:Eft.
  - exfalso. destruct (Hh _ _ _ Hch Hdel Eft) as [Hn1 Hn2]. simpl in Hreg. injection Hreg as ->.
    rewrite Forall_lookup in Hm. destruct (Hm _ _ Ha) as [?|[?|?]]; congruence.
  - by destruct (Hr eq_refl).
  - by destruct (Hr eq_refl).
Qed.

Lemma entered_snoc src h o : entered src (h ++ [o]) = enter src (entered src h) o.
Proof. unfold entered. by rewrite fold_left_app. Qed.
Lemma noted_same s s' src : log s' = log s -> (noted s src <-> noted s' src).
Proof. unfold noted. by intros ->. Qed.

Lemma busy_call p cl : call_of p = Some cl -> busy p = Some (call_source cl).
Proof. by destruct p; intros [= ->]. Qed.
Lemma user_call_source c cl : user_call c cl -> user_source c (call_source cl).
Proof. done. Qed.

Definition can_submit (c : config) (s : state) : Prop :=
  forall i cl, threads s !! i = Some (PSubmit cl) -> is_Some (call_changes c cl).
Lemma can_submit_reach c excl s : reachable c excl s -> can_submit c s.
Proof.
  induction 1 as [n|s l s' Hr IH Hl Hs].
  { intros i cl H. assert (threads (init c n) = replicate n Idle) as E by (unfold init; by destruct (noti c)).
    rewrite E in H. by apply lookup_replicate in H as [? _]. }
  assert (Hsame : threads s' = threads s -> can_submit c s') by (unfold can_submit; by intros ->).
  assert (Hins : forall i p, threads s' = <[i:=p]> (threads s) ->
            (forall cl, p = PSubmit cl -> is_Some (call_changes c cl)) -> can_submit c s').
  { intros i p E Hp j cl Hj. rewrite E in Hj. apply list_lookup_insert_Some in Hj as [(-> & -> & _)|[_ Hj]]; eauto. }
  destruct l as [i a|f st w|fd|sl max|fs|e|fts]; cbn [step] in Hs.
  - destruct (threads s !! i) as [p|]; [|done].
    destruct p as [|cl|cl|cl|cl|cl r| |], a as [cl'| | |fts|n fts e]; cbn [thread_step] in Hs; try done.
    all: try (destruct (kevent _ _ _ _)). all: try (destruct (decide _)). all: try (match goal with H : context [noti ?x] |- _ => destruct (noti x) end).
    all: simplify_eq; try (by eapply Hins).
    + eapply Hins; [done|]. intros cl E. destruct cl' as [fd e m|fd e m|fd|u k m|u k m|u]; try done.
      cbn [entry] in E. destruct (call_changes c (CDeleteFilter u)) eqn:Ec; [|done]. injection E as <-. by rewrite Ec.
    + eapply Hins; [done|]. intros cl0 E. destruct (call_changes c cl) eqn:Ec; [|done]. injection E as <-. by rewrite Ec.
    + eapply Hins; [done|]. intros cl0 E. destruct (check_receipts _); try done. simpl in E. by destruct (deletes cl).
  - by simplify_eq; apply Hsame.
  - by simplify_eq; apply Hsame.
  - by destruct (wait s); simplify_eq; apply Hsame.
  - by destruct (wait s); try done; destruct (_ && _); simplify_eq; apply Hsame.
  - by destruct (wait s), e; simplify_eq; apply Hsame.
  - unfold wait_step in Hs. destruct (wait s); try done; try (destruct (noti c)); try done.
    all: try (destruct (decide _)). all: try (destruct (kevent _ _ _ _); destruct (check_receipts _)).
    all: by simplify_eq; apply Hsame.
Qed.

Lemma xinv_step c s l s' : inv c s -> can_submit c s -> xinv c s -> legal c true s l -> step c s l = Some s' -> xinv c s'.
Proof.
  intros Hi Hch Hx Hl Hs.
  assert (Hforeign : forall (f : kq_filter), ~ own_filter c f -> forall fd, noti c = SocketPair fd -> f <> FRead fd).
  { intros f Hf fd En ->. apply Hf. unfold own_filter. rewrite En. by left. }
  destruct l as [i a|g st w|fd|sl max|fs|e|fts]; cbn [step] in Hs.
  - destruct (threads s !! i) as [p|] eqn:Ep; [|done].
    assert (Hthr1 : forall p', busy p = None -> busy p' = None -> forall j q, <[i:=p']> (threads s) !! j = Some q ->
      is_Some (busy q) -> threads s !! j = Some q).
    { intros p' B B' j q Hq Bq. apply list_lookup_insert_Some in Hq as [(<- & <- & _)|[_ Hq]]; [|done].
      rewrite B' in Bq. by destruct Bq. }
    assert (Hthr2 : forall p', busy p = None -> busy p' = None -> forall j q, threads s !! j = Some q ->
      is_Some (busy q) -> <[i:=p']> (threads s) !! j = Some q).
    { intros p' B B' j q Hq Bq. destruct (decide (j = i)) as [->|Hne]; [|by rewrite list_lookup_insert_ne].
      rewrite Ep in Hq. injection Hq as <-. rewrite B in Bq. by destruct Bq. }
    assert (Hcall : forall cl, call_of p = Some cl -> user_source c (call_source cl) /\ key_ok cl /\
              rel (inside s (call_source cl)) (noted s (call_source cl)) (cleared s (call_source cl)) p).
    { intros cl E. destruct (iv_call _ _ Hi i p cl Ep E) as [Hu Hk].
      destruct (xv_busy _ _ Hx i p (call_source cl) Ep (busy_call _ _ E)). done. }
    destruct p as [|cl|cl|cl|cl|cl r| |], a as [cl'| | |fts|n fts e]; cbn [thread_step] in Hs; try done.
    + (* call *) simplify_eq. destruct Hl as (Hu & Hk & Hun). specialize (Hun eq_refl).
      assert (Hfree := xv_free _ _ Hx _ (user_call_source _ _ Hu) Hun).
      assert (Hno : forall src, noted s src <-> noted (emit (set_pc s i (entry c cl')) (Called i cl')) src).
      { intros src. unfold noted. cbn [log emit set_pc]. by rewrite entered_snoc. }
      eapply (xinv_local c s _ i Idle (entry c cl') (call_source cl')); try done.
      * by right.
      * left. apply busy_call, entry_call.
      * eapply rel_mono; [reflexivity|apply Hno|by intros H; exact H|].
        destruct cl' as [fd e m|fd e m|fd|u k m|u k m|u]; cbn [entry rel is_add]; try done.
        destruct (call_changes c (CDeleteFilter u)); cbn [rel is_add is_modify]; [done|].
        right. right. by split.
      * apply (xv_clean _ _ Hx). done.
    + (* notify *) simplify_eq. by apply (xinv_env c s); [|apply Hthr1|apply Hthr2|..].
    + (* insert *) destruct (Hcall cl eq_refl) as (Hu & Hk & [Ha Hr]).
      destruct (decide (call_source cl ∈ sources s)) as [Hin|Hni]; simplify_eq.
      * eapply (xinv_local c s _ i (PInsert cl) _ (call_source cl)); try done; try (by left); try (exact (xv_clean _ _ Hx _ Hu)).
        cbn [rel]. rewrite Ha. left. split; [done|]. split; [exact Hin|]. by apply Hr.
      * eapply (xinv_local c s _ i (PInsert cl) _ (call_source cl)); try done; try (by left).
        -- intros src Hne. unfold inside. cbn [sources set_sources set_pc]. set_solver.
        -- cbn [rel]. rewrite Ha. split; [unfold inside; simpl; set_solver|]. intros Hn. apply Hni. by apply Hr.
        -- intros Hni'. exfalso. apply Hni'. unfold inside. simpl. set_solver.
    + (* has *) destruct (Hcall cl eq_refl) as (Hu & Hk & Hr). cbn [rel] in Hr.
      destruct (decide (call_source cl ∈ sources s)) as [Hin|Hni]; simplify_eq.
      * destruct (call_changes c cl) as [chs|] eqn:Ec.
        -- eapply (xinv_local c s _ i (PHas cl) _ (call_source cl)); try done; try (by left); try (exact (xv_clean _ _ Hx _ Hu)).
           cbn [rel]. destruct (is_add cl) eqn:Ea; [done|]. destruct Hr as [Hr Hnf].
           destruct cl; try done; split; try exact Hin; try (by apply Hr); try (by destruct (Hnf u)).
        -- eapply (xinv_local c s _ i (PHas cl) _ (call_source cl)); try done; try (by left); try (exact (xv_clean _ _ Hx _ Hu)).
           cbn [rel]. destruct (is_add cl) eqn:Ea; [right; by split|]. destruct Hr as [Hr Hnf].
           destruct cl; try done; cbn [is_modify]; [|by destruct (Hnf u)].
           split; [done|]. split; [|done]. split; [done|]. intros Hn. exfalso. apply Hn, Hr. exact Hin.
      * eapply (xinv_local c s _ i (PHas cl) _ (call_source cl)); try done; try (by left); try (exact (xv_clean _ _ Hx _ Hu)).
        cbn [rel]. destruct (is_add cl) eqn:Ea; [by destruct Hr|]. destruct Hr as [Hr Hnf].
        assert (Hne : ~ noted s (call_source cl)) by (intros Hn; by apply Hni, Hr).
        destruct (is_modify cl); [by split|]. right. left. done.
    + (* submit *)
      destruct (Hcall cl eq_refl) as (Hu & Hk & Hr). cbn [rel] in Hr. specialize (Hl cl Ep).
      destruct (kevent (keeps c) (kern s) (default [] (call_changes c cl)) fts) as [a k] eqn:Ek. simplify_eq.
      assert (Ek' : kevent (keeps c) (kern s) (take (length (default [] (call_changes c cl))) (default [] (call_changes c cl))) fts = (a, k))
        by (by rewrite firstn_all).
      set (s' := emit _ _).
      assert (Hno : forall src, noted s src <-> noted s' src).
      { intros src. unfold noted, s'. cbn [log emit set_pc set_kern]. by rewrite entered_snoc. }
      eapply (xinv_local c s s' i (PSubmit cl) (after_submit cl (check_receipts (receipts a))) (call_source cl)); try done.
      * by left.
      * left. apply busy_call, after_call.
      * intros src Hne Hus Hc f Hf. unfold s'. cbn [kern emit set_pc set_kern].
        rewrite (submit_elsewhere c _ _ _ _ _ _ _ src Hk Ek' Hne Hf). by apply Hc.
      * eapply (rel_mono (inside s (call_source cl)) _ (noted s (call_source cl)) _ (cleared s' (call_source cl))); [reflexivity|apply Hno|by intros H; exact H|].
        assert (check_receipts (receipts a) = Ok tt \/ check_receipts (receipts a) <> Ok tt) as [Eok|Enok].
        { destruct (check_receipts (receipts a)) as [[]| |]; auto. }
        -- rewrite Eok. unfold after_submit. destruct (deletes cl) eqn:Ed.
           ++ cbn [rel]. split.
              ** intros f Hf. unfold s'. cbn [kern emit set_pc set_kern].
                 apply (delete_clears c (kern s) cl fts a k f); try done; [by eapply Hch|by apply receipts_ok].
              ** by destruct cl.
           ++ cbn [rel]. destruct (is_add cl) eqn:Ea; [right; by destruct Hr|].
              destruct cl; try done; cbn [is_modify]; (split; [tauto|]); (split; [|done]); split; try done; tauto.
        -- destruct (receipts_err a _ eq_refl Enok) as (pre & e & post & -> & _). cbn [after_submit rel].
           destruct (is_add cl) eqn:Ea; [right; by destruct Hr|].
           destruct cl; try done; cbn [is_modify].
           1,3: (split; [tauto|]); (split; [|done]); split; try done; tauto.
           all: right; right; split; [done|]; tauto.
      * intros Hni f Hf. unfold s'. cbn [kern emit set_pc set_kern].
        destruct (is_add cl) eqn:Ea; [by destruct Hr|].
        destruct cl as [fd e m|fd e m|fd|u ky m|u ky m|u]; try (by destruct Hr).
        pose proof (xv_clean _ _ Hx _ Hu Hni f Hf) as Hc0.
        pose proof (submit_effect c _ _ _ _ _ _ f Hk Ek') as He. unfold grant in He.
        rewrite (delete_asks (CDeleteFilter u) f eq_refl Hf) in He.
        destruct (a !! slot f) as [[|]|]; [destruct He; congruence|done|destruct He; congruence].
    + (* submit fails *)
      destruct (Hcall cl eq_refl) as (Hu & Hk & Hr). cbn [rel] in Hr. specialize (Hl cl Ep).
      destruct (kevent (keeps c) (kern s) (take n (default [] (call_changes c cl))) fts) as [a k] eqn:Ek. simplify_eq.
      set (s' := emit _ _).
      assert (Hno : forall src, noted s src <-> noted s' src).
      { intros src. unfold noted, s'. cbn [log emit set_pc set_kern]. by rewrite entered_snoc. }
      eapply (xinv_local c s s' i (PSubmit cl) _ (call_source cl)); try done.
      * by left.
      * by left.
      * intros src Hne Hus Hc f Hf. unfold s'. cbn [kern emit set_pc set_kern].
        rewrite (submit_elsewhere c _ _ _ _ _ _ _ src Hk Ek Hne Hf). by apply Hc.
      * eapply (rel_mono (inside s (call_source cl)) _ (noted s (call_source cl)) _ (cleared s' (call_source cl))); [reflexivity|apply Hno|by intros H; exact H|].
        cbn [rel]. destruct (is_add cl) eqn:Ea; [right; by destruct Hr|].
        destruct cl; try done; cbn [is_modify].
        1,3: (split; [tauto|]); (split; [|done]); split; try done; tauto.
        all: right; right; split; [done|]; tauto.
      * intros Hni f Hf. unfold s'. cbn [kern emit set_pc set_kern].
        destruct (is_add cl) eqn:Ea; [by destruct Hr|].
        destruct cl as [fd e0 m|fd e0 m|fd|u ky m|u ky m|u]; try (by destruct Hr).
        pose proof (xv_clean _ _ Hx _ Hu Hni f Hf) as Hc0.
        pose proof (submit_effect c _ _ _ _ _ _ f Hk Ek) as He. unfold grant in He.
        rewrite (delete_asks (CDeleteFilter u) f eq_refl Hf) in He.
        destruct (a !! slot f) as [[|]|]; [destruct He; congruence|done|destruct He; congruence].
    + (* remove *)
      destruct (Hcall cl eq_refl) as (Hu & Hk & [Hc Hr]). simplify_eq.
      eapply (xinv_local c s _ i (PRemove cl) _ (call_source cl)); try done; try (by left).
      * intros src Hne. unfold inside. cbn [sources set_sources set_pc]. set_solver.
      * assert (Hout : call_source cl ∉ sources s ∖ {[call_source cl]}) by set_solver.
        cbn [rel]. destruct (is_add cl) eqn:Ea; [by destruct cl|]. destruct (is_modify cl) eqn:Em; [by destruct cl|].
        destruct (decide (call_source cl ∈ sources s)) as [Hin|Hni].
        -- left. split; [done|]. split; [done|]. change (noted s (call_source cl)).
           destruct cl; try done; [by destruct Hr|by apply Hr].
        -- right. left. split; [done|]. split; [done|]. change (~ noted s (call_source cl)).
           destruct cl; try done; [by destruct Hr|]. intros Hn. apply Hni. by apply Hr.
    + (* return *)
      destruct (Hcall cl eq_refl) as (Hu & Hk & Hr). simplify_eq. set (s' := emit _ _).
      assert (Hent : forall src, entered src (log s') = enter src (entered src (log s)) (Returned i cl r)).
      { intros src. unfold s'. cbn [log emit set_pc]. by rewrite entered_snoc. }
      eapply (xinv_local c s s' i (PRet cl r) Idle (call_source cl)); try done; try (by left).
      * right. split; [done|]. change (inside s' (call_source cl)) with (inside s (call_source cl)).
        unfold noted in *. rewrite Hent. cbn [enter]. rewrite decide_True by done. cbn [rel] in Hr.
        destruct (is_add cl) eqn:Ea.
        { destruct Hr as [(-> & Hin & Hen)|(Hr1 & _ & Hin & Hen)]; [by simpl|].
          destruct r as [?|[[]|]|]; simpl; try done. }
        destruct (is_modify cl) eqn:Em.
        { assert (deletes cl = false) as -> by (by destruct cl). by destruct Hr. }
        assert (deletes cl = true) as -> by (by destruct cl).
        destruct Hr as [(-> & Hin & Hen)|[(-> & Hin & Hen)|((_ & _ & Hnok) & Hr)]].
        -- done.
        -- done.
        -- assert (match r with Ok _ => false | _ => entered (call_source cl) (log s) end =
                   entered (call_source cl) (log s)) as ->.
           { destruct r as [[]| |]; done. }
           destruct cl; try done; tauto.
      * intros src Hne. unfold noted. rewrite Hent. cbn [enter]. by rewrite decide_False.
      * apply (xv_clean _ _ Hx). done.
    + simplify_eq. by apply (xinv_env c s); [|apply Hthr1|apply Hthr2|..].
    + apply (xinv_env c s); try done.
      * destruct (noti c); simplify_eq; by apply Hthr1.
      * destruct (noti c); simplify_eq; by apply Hthr2.
      * by destruct (noti c); simplify_eq.
      * intros src. destruct (noti c); simplify_eq; cbn [log emit set_pc set_kern]; by rewrite entered_snoc.
      * intros f Hf Hn. destruct (noti c) as [|fd] eqn:En; simplify_eq; cbn [kern emit set_pc set_kern].
        -- by destruct (own_trigger c f (keeps c) (kern s) user_trigger [] En Hf eq_refl) as [-> _].
        -- rewrite happen_note, decide_False; [done|]. by eapply Hforeign.
    + simplify_eq. by apply (xinv_env c s); [|apply Hthr1|apply Hthr2|..].
  - simplify_eq. apply (xinv_env c s); try done.
    + intros src. cbn [log emit set_kern]. by rewrite entered_snoc.
    + intros f Hf Hn. cbn [kern emit set_kern]. rewrite happen_note. case_decide; [subst|done]. by rewrite Hn.
  - simplify_eq. apply (xinv_env c s); try done.
    + intros src. cbn [log emit set_kern]. by rewrite entered_snoc.
    + intros f Hf Hn. cbn [kern emit set_kern]. rewrite close_note. by case_decide.
  - destruct (wait s); try done. simplify_eq. apply (xinv_env c s); try done.
    intros src. cbn [log emit set_wait]. by rewrite entered_snoc.
  - destruct (wait s) as [|sl max| | | |x|]; try done.
    destruct (may_report (kern s) max fs) eqn:Em; [|done]. simpl in Hs.
    destruct (negb (sl && bool_decide (fs = []))); [|done]. simplify_eq. apply (xinv_env c s); try done.
    + intros src. cbn [log emit set_wait set_kern]. by rewrite entered_snoc.
    + intros f Hf Hn. cbn [kern emit set_wait set_kern].
      apply may_report_spec in Em as (Hnd & Hrep & _). destruct (decide (f ∈ fs)) as [Hin|Hni].
      * apply Hrep, reportable_spec in Hin as (n & ? & _). congruence.
      * by destruct (consumes_other (kern s) fs f Hni) as [-> _].
  - assert (s' = s \/ exists e, s' = emit (set_wait s Out) (WaitErr e)) as [->|[x ->]]; [|done|].
    { destruct (wait s); try done; destruct e; simplify_eq; eauto. }
    apply (xinv_env c s); try done. intros src. cbn [log emit set_wait]. by rewrite entered_snoc.
  - unfold wait_step in Hs. destruct (wait s); try done.
    + destruct (noti c) as [|fd] eqn:En; [done|]. simplify_eq. apply (xinv_env c s); try done.
      intros f Hf Hn. cbn [kern set_wait set_kern]. rewrite happen_note, decide_False; [done|]. by eapply Hforeign.
    + destruct (noti c) as [|fd] eqn:En; [done|]. destruct (decide (SFd fd ∈ sources s)); simplify_eq.
      * by apply (xinv_env c s).
      * apply (xinv_env c s); try done. intros src. cbn [log emit set_wait]. by rewrite entered_snoc.
    + destruct (noti c) as [|fd] eqn:En; [done|].
      pose proof (fun f (H : ~ own_filter c f) => own_changes c f fd (keeps c) (kern s) fts En H) as Hoc.
      destruct (kevent (keeps c) (kern s) (pair_changes fd) fts) as [a k] eqn:Ek. simpl in Hoc.
      destruct (check_receipts (receipts a)); simplify_eq; (apply (xinv_env c s); [done|done|done|done| |]).
      all: try (intros src; cbn [log emit set_wait set_kern]; by rewrite entered_snoc).
      all: intros f Hf Hn; cbn [kern emit set_wait set_kern]; destruct (Hoc f Hf) as [-> _]; done.
    + simplify_eq. apply (xinv_env c s); try done. intros src. cbn [log emit set_wait]. by rewrite entered_snoc.
    + simplify_eq. apply (xinv_env c s); try done. intros src. cbn [log emit set_wait]. by rewrite entered_snoc.
Qed.

Lemma xinv_reach c s : reachable c true s -> xinv c s.
Proof.
  induction 1 as [n|s l s' Hr IH Hl Hs]; [|eapply xinv_step; [by eapply inv_reach|by eapply can_submit_reach|done|done|done]].
  assert (Ht : threads (init c n) = replicate n Idle) by (unfold init; by destruct (noti c)).
  assert (Hl : log (init c n) = []) by (unfold init; by destruct (noti c)).
  assert (Hn : forall f, ~ own_filter c f -> notes (kern (init c n)) !! f = None).
  { intros f Hf. pose proof (iv_note _ _ (inv_reach _ true _ (reach_init c true n)) f Hf) as H.
    by rewrite Hl in H. }
  split.
  - intros i j p q src Hp. rewrite Ht in Hp. by apply lookup_replicate in Hp as [-> _].
  - intros src Hu _. unfold inside, noted. rewrite Hl. split; [|done]. unfold init, user_source in *.
    destruct (noti c); simpl; set_solver.
  - intros i p src Hp. rewrite Ht in Hp. by apply lookup_replicate in Hp as [-> _].
  - intros src Hu _ f Hf. apply Hn. by eapply user_source_filter.
  - intros fd Hfd. unfold init. rewrite Hfd. simpl. set_solver.
Qed.
