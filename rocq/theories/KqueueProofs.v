(** Proofs about the kqueue model: the kernel's notes. *)
From stdpp Require Import prelude list gmap.
From Verif Require Import Bits Types EventModel EventSpec EventProofs KqueueModel KqueueSpec.
Local Open Scope nat_scope.

(** *** One change *)
Lemma register_other ks k ch ft a k' f :
  register ks k ch ft = (a, k') -> f <> ch_filter ch ->
  notes k' !! f = notes k !! f /\ pending k' !! f = pending k !! f.
Proof.
  unfold register. intros H Hne. destruct ft; [by simplify_eq|].
  destruct (intersects (ch_flags ch) EV_DELETE).
  { destruct (notes k !! ch_filter ch); simplify_eq/=; [|done].
    rewrite lookup_delete_ne by done. split; [done|]. destruct (counting _); [|done].
    by rewrite lookup_delete_ne. }
  destruct (intersects (ch_flags ch) EV_ADD).
  2:{ by destruct (notes k !! ch_filter ch); simplify_eq/=. }
  destruct (notes k !! ch_filter ch); simplify_eq/=; rewrite lookup_insert_ne by done;
    (split; [done|]); destruct (ch_trigger ch); try done; by rewrite lookup_insert_ne.
Qed.

Lemma register_refused ks k ch ft e k' : register ks k ch ft = (Some e, k') -> k' = k.
Proof.
  unfold register. intros H. destruct ft; [by simplify_eq|].
  destruct (intersects (ch_flags ch) EV_DELETE); [by destruct (notes k !! _); simplify_eq|].
  destruct (intersects (ch_flags ch) EV_ADD); by destruct (notes k !! _); simplify_eq.
Qed.

Lemma register_delete ks k ch ft a k' :
  register ks k ch ft = (a, k') -> intersects (ch_flags ch) EV_DELETE = true ->
  match a with
  | None => notes k' !! ch_filter ch = None
  | Some e => k' = k /\ (ft = None -> e = ENOENT /\ notes k !! ch_filter ch = None)
  end.
Proof.
  unfold register. intros H Hd. destruct ft as [x|]; [by simplify_eq|].
  rewrite Hd in H. destruct (notes k !! ch_filter ch) eqn:E; simplify_eq/=; [by rewrite lookup_delete|done].
Qed.

Lemma register_add ks k ch ft a k' :
  register ks k ch ft = (a, k') -> intersects (ch_flags ch) EV_DELETE = false ->
  intersects (ch_flags ch) EV_ADD = true ->
  a = ft /\
  match a with
  | None => exists n, notes k' !! ch_filter ch = Some n /\ kn_udata n = ch_udata ch /\
      kn_param n = ch_param ch /\
      kn_flags n = match notes k !! ch_filter ch with
                   | Some n0 => if ks then kn_flags n0 else stored_flags (ch_filter ch) (ch_flags ch)
                   | None => stored_flags (ch_filter ch) (ch_flags ch)
                   end /\
      (is_pending k' (ch_filter ch) = true -> kn_active n = true)
  | Some e => k' = k
  end.
Proof.
  unfold register. intros H Hd Ha. destruct ft as [x|]; [by simplify_eq|].
  rewrite Hd, Ha in H. destruct (notes k !! ch_filter ch) as [n0|] eqn:E; simplify_eq/=; split; try done.
  - eexists. rewrite lookup_insert. split; [done|]. simpl. do 3 (split; [done|]).
    unfold is_pending. simpl. intros ->. apply orb_true_r.
  - eexists. rewrite lookup_insert. split; [done|]. simpl. do 3 (split; [done|]).
    unfold is_pending. simpl. by intros ->.
Qed.

Lemma register_pending_fd ks k ch ft a k' f :
  register ks k ch ft = (a, k') -> is_fd_filter f -> ch_trigger ch = false ->
  pending k' !! f = pending k !! f.
Proof.
  intros H [fd Hf] Ht. unfold register in H. destruct ft; [by simplify_eq|].
  rewrite Ht in H.
  destruct (intersects (ch_flags ch) EV_DELETE).
  { destruct (notes k !! ch_filter ch); simplify_eq/=; [|done].
    destruct (counting (ch_filter ch)) eqn:Ec; [|done]. rewrite lookup_delete_ne; [done|].
    intros E. rewrite E in Ec. by destruct Hf as [->| ->]. }
  destruct (intersects (ch_flags ch) EV_ADD); by destruct (notes k !! ch_filter ch); simplify_eq/=.
Qed.

(** *** A change list *)
Lemma kevent_other ks k chs fts a k' f :
  kevent ks k chs fts = (a, k') -> f ∉ map ch_filter chs ->
  notes k' !! f = notes k !! f /\ pending k' !! f = pending k !! f.
Proof.
  revert k fts a. induction chs as [|ch chs IH]; intros k fts a H Hf; [by simplify_eq/=|].
  cbn [kevent] in H. destruct (register ks k ch (default None (head fts))) as [x k1] eqn:E1.
  destruct (kevent ks k1 chs (tail fts)) as [l k2] eqn:E2. simplify_eq.
  rewrite map_cons in Hf. apply not_elem_of_cons in Hf as [Hne Hf].
  destruct (IH _ _ _ E2 Hf) as [-> ->]. by apply (register_other _ _ _ _ _ _ _ E1).
Qed.

Lemma kevent_length ks k chs fts a k' :
  kevent ks k chs fts = (a, k') -> length a = length chs.
Proof.
  revert k fts a. induction chs as [|ch chs IH]; intros k fts a H; [by simplify_eq/=|].
  cbn [kevent] in H. destruct (register ks k ch (default None (head fts))) as [x k1] eqn:E1.
  destruct (kevent ks k1 chs (tail fts)) as [l k2] eqn:E2. simplify_eq. simpl. by rewrite (IH _ _ _ E2).
Qed.

Lemma kevent_lookup ks k chs fts a k' j ch :
  kevent ks k chs fts = (a, k') -> NoDup (map ch_filter chs) -> chs !! j = Some ch ->
  exists k1 x k2, register ks k1 ch (default None (fts !! j)) = (x, k2) /\ a !! j = Some x /\
    notes k1 !! ch_filter ch = notes k !! ch_filter ch /\
    pending k1 !! ch_filter ch = pending k !! ch_filter ch /\
    notes k' !! ch_filter ch = notes k2 !! ch_filter ch /\
    pending k' !! ch_filter ch = pending k2 !! ch_filter ch.
Proof.
  revert k fts a j. induction chs as [|ch0 chs IH]; intros k fts a j H Hnd Hj; [done|].
  cbn [kevent] in H. destruct (register ks k ch0 (default None (head fts))) as [x k1] eqn:E1.
  destruct (kevent ks k1 chs (tail fts)) as [l k2] eqn:E2. simplify_eq.
  rewrite map_cons in Hnd. apply NoDup_cons in Hnd as [Hni Hnd]. destruct j as [|j].
  - simpl in Hj. simplify_eq. exists k, x, k1. split.
    { rewrite <- E1. f_equal. by destruct fts. }
    split; [done|]. split; [done|]. split; [done|].
    by apply (kevent_other _ _ _ _ _ _ _ E2).
  - simpl in Hj. destruct (IH _ _ _ _ E2 Hnd Hj) as (k3 & y & k4 & H1 & H2 & H3 & H4 & H5 & H6).
    assert (Hne : ch_filter ch <> ch_filter ch0).
    { intros E. apply Hni. rewrite <- E. apply elem_of_list_fmap. exists ch. split; [done|].
      by eapply elem_of_list_lookup_2. }
    destruct (register_other _ _ _ _ _ _ _ E1 Hne) as [E3 E4].
    exists k3, y, k4. split.
    { rewrite <- H1. f_equal. by destruct fts. }
    split; [done|]. split; [congruence|]. split; [congruence|]. done.
Qed.

Lemma kevent_pending_fd ks k chs fts a k' f :
  kevent ks k chs fts = (a, k') -> is_fd_filter f -> Forall (fun ch => ch_trigger ch = false) chs ->
  pending k' !! f = pending k !! f.
Proof.
  revert k fts a. induction chs as [|ch chs IH]; intros k fts a H Hf Ht; [by simplify_eq/=|].
  cbn [kevent] in H. destruct (register ks k ch (default None (head fts))) as [x k1] eqn:E1.
  destruct (kevent ks k1 chs (tail fts)) as [l k2] eqn:E2. simplify_eq.
  apply Forall_cons in Ht as [Ht Ht']. rewrite (IH _ _ _ E2 Hf Ht').
  by apply (register_pending_fd _ _ _ _ _ _ _ E1).
Qed.

(** *** The flags of the changes *)
Definition nflags (f : kq_filter) (m : poll_mode) : N := stored_flags f (kqueue_change_flags true m).

Lemma nflags_oneshot f m : intersects (nflags f m) EV_ONESHOT = true <-> mode_oneshot m.
Proof. unfold mode_oneshot. destruct f, m; vm_compute; split; intros H; try done; try (by left); try (by right); by destruct H. Qed.
Lemma nflags_clear f m :
  intersects (nflags f m) EV_CLEAR = true <-> mode_edge m \/ forced_flags f <> 0%N.
Proof. unfold mode_edge. destruct f, m; vm_compute; split; intros H; try done; try (by auto); try (by right); by destruct H as [[]|H]. Qed.

Lemma change_add m : intersects (kqueue_change_flags true m) EV_DELETE = false /\
  intersects (kqueue_change_flags true m) EV_ADD = true.
Proof. by destruct m. Qed.
Lemma change_delete m : intersects (kqueue_change_flags false m) EV_DELETE = true.
Proof. by destruct m. Qed.

Lemma small_key k : (k < 2 ^ 64)%N -> key_to_u64 k = k.
Proof. intros H. unfold key_to_u64. by apply N.mod_small. Qed.

Lemma call_nodup c cl chs : call_changes c cl = Some chs -> NoDup (map ch_filter chs).
Proof.
  destruct cl as [fd e m|fd e m|fd|u k m|u k m|u]; cbn [call_changes]; intros H; simplify_eq; simpl.
  1-3: apply NoDup_cons; split; [by intros ?%elem_of_list_singleton|apply NoDup_singleton].
  all: apply fmap_Some in H as (ch & _ & ->); apply NoDup_singleton.
Qed.
Lemma call_untriggered c cl chs : call_changes c cl = Some chs -> Forall (fun ch => ch_trigger ch = false) chs.
Proof.
  destruct cl as [fd e m|fd e m|fd|u k m|u k m|u]; cbn [call_changes]; intros H; simplify_eq.
  1-3: repeat (apply Forall_cons; split; [done|]); by apply Forall_nil.
  all: apply fmap_Some in H as (ch & Hch & ->); apply Forall_cons; split; [|by apply Forall_nil];
    destruct u; simpl in Hch; try (destruct (signal_ok _ _)); simplify_eq; done.
Qed.

(** The change of a call about [f], at its slot. *)
Lemma call_slot c cl chs f : call_changes c cl = Some chs -> key_ok cl ->
  match asks cl f with
  | None => f ∉ map ch_filter chs
  | Some w => exists ch, chs !! slot f = Some ch /\ ch_filter ch = f /\
      match w with
      | Some (k, m) => ch_udata ch = k /\ ch_flags ch = kqueue_change_flags true m
      | None => intersects (ch_flags ch) EV_DELETE = true
      end
  end.
Proof.
  intros H Hk.
  assert (Hfd : forall fd e m, (ev_key e < 2 ^ 64)%N -> chs = fd_changes fd e m ->
    match (if decide (f = FRead fd) then Some (wants (ev_readable e) (ev_key e) m)
      else if decide (f = FWrite fd) then Some (wants (ev_writable e) (ev_key e) m)
      else None) with
    | None => f ∉ map ch_filter chs
    | Some w => exists ch, chs !! slot f = Some ch /\ ch_filter ch = f /\
      match w with
      | Some (k, m) => ch_udata ch = k /\ ch_flags ch = kqueue_change_flags true m
      | None => intersects (ch_flags ch) EV_DELETE = true
      end end).
  { intros fd e m He ->. case_decide as H1; [subst f|case_decide as H2; [subst f|]].
    - eexists. split; [done|]. split; [done|]. unfold wants. simpl.
      destruct (ev_readable e); [split; [by apply small_key|done]|apply change_delete].
    - eexists. split; [done|]. split; [done|]. unfold wants. simpl.
      destruct (ev_writable e); [split; [by apply small_key|done]|apply change_delete].
    - simpl. intros [?|[?|?%elem_of_nil]%elem_of_cons]%elem_of_cons; done. }
  destruct cl as [fd e m|fd e m|fd|u k m|u k m|u]; cbn [call_changes asks key_ok] in *.
  - simplify_eq. apply Hfd; [apply Hk|done].
  - simplify_eq. apply Hfd; [apply Hk|done].
  - simplify_eq. case_decide as Hd.
    + destruct Hd as [->| ->]; eexists; (split; [done|]); done.
    + simpl. intros [?|[?|?%elem_of_nil]%elem_of_cons]%elem_of_cons; tauto.
  - apply fmap_Some in H as (ch & Hch & ->).
    assert (ch_filter ch = filter_of u /\ ch_udata ch = k /\ ch_flags ch = kqueue_change_flags true m) as (E1 & E2 & E3).
    { destruct u; simpl in Hch; try (destruct (signal_ok _ _)); simplify_eq; simpl;
        rewrite small_key by done; done. }
    case_decide as Hd; [|simpl; intros ?%elem_of_list_singleton; congruence].
    exists ch. split; [|split; [congruence|done]]. subst f. by destruct u.
  - apply fmap_Some in H as (ch & Hch & ->).
    assert (ch_filter ch = filter_of u /\ ch_udata ch = k /\ ch_flags ch = kqueue_change_flags true m) as (E1 & E2 & E3).
    { destruct u; simpl in Hch; try (destruct (signal_ok _ _)); simplify_eq; simpl;
        rewrite small_key by done; done. }
    case_decide as Hd; [|simpl; intros ?%elem_of_list_singleton; congruence].
    exists ch. split; [|split; [congruence|done]]. subst f. by destruct u.
  - apply fmap_Some in H as (ch & Hch & ->).
    assert (ch_filter ch = filter_of u /\ intersects (ch_flags ch) EV_DELETE = true) as (E1 & E2).
    { destruct u; simpl in Hch; try (destruct (signal_ok _ _)); simplify_eq; simpl; done. }
    case_decide as Hd; [|simpl; intros ?%elem_of_list_singleton; congruence].
    exists ch. split; [|split; [congruence|done]]. subst f. by destruct u.
Qed.

(** *** What submitting the changes of a call does to the note of [f] *)
Definition grant (f : kq_filter) (cl : call) (a : list (option errno)) : option (option (N * poll_mode)) :=
  match a !! slot f with Some None => asks cl f | _ => None end.

Lemma submit_effect c k cl n fts a k' f :
  key_ok cl -> kevent (keeps c) k (take n (default [] (call_changes c cl))) fts = (a, k') ->
  match grant f cl a with
  | Some (Some (key, m)) => exists nt, notes k' !! f = Some nt /\ kn_udata nt = key /\
      kn_flags nt = match notes k !! f with
                    | Some n0 => if keeps c then kn_flags n0 else nflags f m
                    | None => nflags f m
                    end /\
      (is_pending k' f = true -> kn_active nt = true)
  | Some None => notes k' !! f = None
  | None => notes k' !! f = notes k !! f /\ pending k' !! f = pending k !! f
  end.
Proof.
  intros Hk Hke. unfold grant. destruct (call_changes c cl) as [chs|] eqn:Ec; simpl in Hke.
  2:{ rewrite take_nil in Hke. simplify_eq/=. done. }
  pose proof (call_slot c cl chs f Ec Hk) as Hs. pose proof (call_nodup _ _ _ Ec) as Hnd.
  destruct (asks cl f) as [w|] eqn:Ea.
  2:{ assert (Hni : f ∉ map ch_filter (take n chs)).
      { intros Hin. apply Hs. apply elem_of_list_fmap in Hin as (ch & -> & Hin).
        apply elem_of_list_fmap. exists ch. split; [done|].
        rewrite <- (take_drop n chs). apply elem_of_app. by left. }
      destruct (kevent_other _ _ _ _ _ _ _ Hke Hni) as [E1 E2]. destruct (a !! slot f) as [[|]|]; done. }
  destruct Hs as (ch & Hch & Hf & Hw).
  destruct (decide (slot f < n)) as [Hlt|Hge].
  2:{ assert (Hni : f ∉ map ch_filter (take n chs)).
      { intros Hin. apply elem_of_list_fmap in Hin as (ch' & E & Hin).
        apply elem_of_list_lookup in Hin as (j & Hj).
        assert (Hjn : j < n). { apply lookup_lt_Some in Hj. rewrite take_length in Hj. lia. }
        rewrite lookup_take in Hj by done.
        assert (j = slot f); [|lia].
        eapply (NoDup_lookup _ _ _ f Hnd); rewrite list_lookup_fmap; [rewrite Hj|rewrite Hch]; simpl; by f_equal. }
      destruct (kevent_other _ _ _ _ _ _ _ Hke Hni) as [E1 E2].
      assert (a !! slot f = None) as ->; [|done].
      apply lookup_ge_None_2. rewrite (kevent_length _ _ _ _ _ _ Hke), take_length. lia. }
  assert (Hnd' : NoDup (map ch_filter (take n chs))).
  { rewrite <- (take_drop n chs), map_app in Hnd. by apply NoDup_app in Hnd as [? _]. }
  assert (Hch' : take n chs !! slot f = Some ch) by (by rewrite lookup_take).
  destruct (kevent_lookup _ _ _ _ _ _ _ _ Hke Hnd' Hch') as (k1 & x & k2 & H1 & H2 & H3 & H4 & H5 & H6).
  rewrite Hf in *. rewrite H2. destruct x as [e|].
  { apply register_refused in H1 as ->. split; congruence. }
  destruct w as [[key m]|].
  - destruct Hw as [Hu Hfl]. destruct (change_add m) as [Hd Ha]. rewrite <- Hfl in Hd, Ha.
    destruct (register_add _ _ _ _ _ _ H1 Hd Ha) as (_ & nt & E1 & E2 & E3 & E4 & E5).
    rewrite Hf in *. exists nt. split; [congruence|]. split; [congruence|].
    split; [rewrite E4, H3, Hfl; done|].
    unfold is_pending in *. by rewrite H6.
  - pose proof (register_delete _ _ _ _ _ _ H1 Hw) as E. rewrite Hf in E. simpl in E. congruence.
Qed.

(** *** Reports *)
Lemma consume_other k f g : g <> f -> notes (consume k f) !! g = notes k !! g /\ pending (consume k f) !! g = pending k !! g.
Proof.
  intros Hne. unfold consume. destruct (notes k !! f) as [n|]; [|done].
  destruct (intersects (kn_flags n) EV_ONESHOT), (intersects (kn_flags n) EV_CLEAR), (counting f); simpl;
    rewrite ?lookup_delete_ne, ?lookup_insert_ne by done; done.
Qed.
Definition consumed (f : kq_filter) (n : knote) : option knote :=
  if intersects (kn_flags n) EV_ONESHOT then None
  else if intersects (kn_flags n) EV_CLEAR then Some (Knote (kn_flags n) (kn_udata n) (kn_param n) false)
  else Some n.
Lemma consume_self k f n : notes k !! f = Some n -> notes (consume k f) !! f = consumed f n.
Proof.
  intros H. unfold consume, consumed. rewrite H.
  destruct (intersects (kn_flags n) EV_ONESHOT); [simpl; by rewrite lookup_delete|].
  destruct (intersects (kn_flags n) EV_CLEAR); simpl; [by rewrite lookup_insert|done].
Qed.
Lemma consume_pending_fd k f : is_fd_filter f -> pending (consume k f) !! f = pending k !! f.
Proof.
  intros [fd Hf]. unfold consume. destruct (notes k !! f) as [n|]; [|done].
  assert (counting f = false) as -> by (by destruct Hf as [->| ->]). rewrite andb_false_r.
  by destruct (intersects (kn_flags n) EV_ONESHOT), (intersects (kn_flags n) EV_CLEAR).
Qed.
Lemma consumes_other k fs g : g ∉ fs ->
  notes (foldl consume k fs) !! g = notes k !! g /\ pending (foldl consume k fs) !! g = pending k !! g.
Proof.
  revert k. induction fs as [|f fs IH]; intros k H; [done|]. apply not_elem_of_cons in H as [H1 H2].
  simpl. destruct (IH (consume k f) H2) as [-> ->]. by apply consume_other.
Qed.
Lemma consume_local k k' f : notes k !! f = notes k' !! f -> pending k !! f = pending k' !! f ->
  notes (consume k f) !! f = notes (consume k' f) !! f /\
  pending (consume k f) !! f = pending (consume k' f) !! f.
Proof.
  intros E1 E2. unfold consume. rewrite <- E1. destruct (notes k !! f) as [n|] eqn:E; [|by rewrite E, E1].
  destruct (intersects (kn_flags n) EV_ONESHOT), (intersects (kn_flags n) EV_CLEAR), (counting f); simpl;
    rewrite ?lookup_delete, ?lookup_insert, ?E, ?E1; auto.
Qed.
Lemma consumes_in k fs f : NoDup fs -> f ∈ fs ->
  notes (foldl consume k fs) !! f = notes (consume k f) !! f /\
  pending (foldl consume k fs) !! f = pending (consume k f) !! f.
Proof.
  revert k. induction fs as [|g fs IH]; intros k Hnd H; [by apply elem_of_nil in H|].
  apply NoDup_cons in Hnd as [Hni Hnd]. simpl. apply elem_of_cons in H as [->|H].
  - by apply consumes_other.
  - destruct (IH (consume k g) Hnd H) as [-> ->].
    assert (Hne : f <> g) by (by intros ->). destruct (consume_other k g f Hne) as [E1 E2].
    by apply consume_local.
Qed.

Lemma may_report_spec k max fs : may_report k max fs = true <->
  NoDup fs /\ (forall f, f ∈ fs -> reportable k f = true) /\ length fs <= max /\
  (length fs = max \/ forall f, reportable k f = true -> f ∈ fs).
Proof.
  unfold may_report. rewrite !andb_true_iff, orb_true_iff, !bool_decide_eq_true, forallb_forall.
  setoid_rewrite <- elem_of_list_In.
  assert (map_Forall (fun f _ => reportable k f = true -> f ∈ fs) (notes k) <->
          forall f, reportable k f = true -> f ∈ fs) as ->; [|tauto].
  split.
  - intros H f Hf. unfold reportable in Hf. destruct (notes k !! f) as [n|] eqn:E; [|done].
    apply (H f n E). unfold reportable. by rewrite E.
  - intros H f n E Hf. auto.
Qed.
Lemma reportable_spec k f : reportable k f = true <->
  exists n, notes k !! f = Some n /\ kn_active n = true /\ is_pending k f = true.
Proof.
  unfold reportable. destruct (notes k !! f) as [n|].
  - rewrite andb_true_iff. split; [eauto|]. intros (? & ? & ?). by simplify_eq.
  - split; [done|]. by intros (? & ? & ?).
Qed.
