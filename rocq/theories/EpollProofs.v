(** Proofs about the epoll model. *)
From stdpp Require Import prelude list gmap.
From Verif Require Import Bits Types EventModel EventSpec EventProofs EpollModel EpollSpec.
Local Open Scope nat_scope.

(** *** Bits *)
Lemma private_bit n : bit EP_PRIVATE n <-> (28 <= n < 32)%N.
Proof.
  unfold bit. replace EP_PRIVATE with (N.shiftl (N.ones 4) 28) by reflexivity.
  destruct (N.lt_ge_cases n 28) as [H|H].
  - rewrite N.shiftl_spec_low by done. split; [done|lia].
  - rewrite N.shiftl_spec_high by lia.
    destruct (N.lt_ge_cases (n - 28) 4) as [H'|H'].
    + rewrite N.ones_spec_low by done. split; [lia|done].
    + rewrite N.ones_spec_high by done. split; [done|lia].
Qed.

Lemma bit_lor a b n : bit (N.lor a b) n <-> bit a n \/ bit b n.
Proof. unfold bit. rewrite N.lor_spec, orb_true_iff. done. Qed.
Lemma bit_land a b n : bit (N.land a b) n <-> bit a n /\ bit b n.
Proof. unfold bit. rewrite N.land_spec, andb_true_iff. done. Qed.
Lemma bit_ldiff a b n : bit (N.ldiff a b) n <-> bit a n /\ ~ bit b n.
Proof.
  unfold bit. rewrite N.ldiff_spec, andb_true_iff, negb_true_iff. destruct (N.testbit b n); naive_solver.
Qed.
Lemma bit_0 n : ~ bit 0 n.
Proof. unfold bit. by rewrite N.bits_0. Qed.
Lemma bit_pow2 m n : bit (2 ^ m) n <-> n = m.
Proof. unfold bit. rewrite N.pow2_bits_eqb, N.eqb_eq. split; congruence. Qed.

Lemma nonempty_iff w : is_empty w = false <-> exists n, bit w n.
Proof.
  unfold is_empty. split.
  - intros H. exists (N.log2 w). apply N.bit_log2. intros ->. done.
  - intros [n Hn]. apply N.eqb_neq. intros ->. by apply bit_0 in Hn.
Qed.
Lemma empty_iff w : is_empty w = true <-> forall n, ~ bit w n.
Proof.
  split.
  - intros H n Hn. assert (is_empty w = false) by (apply nonempty_iff; eauto). congruence.
  - intros H. destruct (is_empty w) eqn:E; [done|]. apply nonempty_iff in E as [n Hn]. by destruct (H n).
Qed.
Lemma intersects_iff a b : intersects a b = true <-> exists n, bit a n /\ bit b n.
Proof.
  unfold intersects. change (N.land a b =? 0)%N with (is_empty (N.land a b)).
  rewrite negb_true_iff, nonempty_iff. by setoid_rewrite bit_land.
Qed.

Lemma ctl_word_bit e m n :
  bit (ctl_word (epoll_interest e m)) n <->
  watched e n \/ (mode_oneshot m /\ n = b_oneshot) \/ (mode_edge m /\ n = b_et).
Proof.
  unfold ctl_word. rewrite !bit_lor, epoll_interest_bits, p2_EPOLLERR, p2_EPOLLHUP, !bit_pow2.
  unfold watched, b_err, b_hup. tauto.
Qed.

Lemma watched_plain e n : plain (ev_extra e) -> watched e n -> (n < 28)%N.
Proof.
  unfold watched, b_in, b_pri, b_out, b_err, b_hup. intros Hp H.
  destruct H as [[_ [->| ->]]|[[_ ->]|[->|[->|H]]]]; try lia. by apply Hp.
Qed.

Lemma word_oneshot e m : plain (ev_extra e) ->
  intersects (ctl_word (epoll_interest e m)) EPOLLONESHOT = true <-> mode_oneshot m.
Proof.
  intros Hp. rewrite intersects_iff, p2_EPOLLONESHOT. setoid_rewrite bit_pow2. split.
  - intros (n & Hn & ->). apply ctl_word_bit in Hn as [Hn|[[? _]|[_ Hn]]]; [|done|by unfold b_et in Hn].
    apply watched_plain in Hn; [lia|done].
  - intros Hm. exists 30%N. split; [|done]. apply ctl_word_bit. right; left. done.
Qed.
Lemma word_edge e m : plain (ev_extra e) ->
  intersects (ctl_word (epoll_interest e m)) EPOLLET = true <-> mode_edge m.
Proof.
  intros Hp. rewrite intersects_iff, p2_EPOLLET. setoid_rewrite bit_pow2. split.
  - intros (n & Hn & ->). apply ctl_word_bit in Hn as [Hn|[[_ Hn]|[? _]]]; [|by unfold b_oneshot in Hn|done].
    apply watched_plain in Hn; [lia|done].
  - intros Hm. exists 31%N. split; [|done]. apply ctl_word_bit. right; right. done.
Qed.

(** A word reduced to its private bits. *)
Lemma disarmed_poll w mask : plain mask -> N.land mask (N.land w EP_PRIVATE) = 0%N.
Proof.
  intros Hp. apply N.eqb_eq. change (is_empty (N.land mask (N.land w EP_PRIVATE)) = true).
  apply empty_iff. intros n. rewrite !bit_land, private_bit. intros [H [_ H']]. apply Hp in H. lia.
Qed.
Lemma disarmed_disabled w : is_empty (N.ldiff (N.land w EP_PRIVATE) EP_PRIVATE) = true.
Proof. apply empty_iff. intros n. rewrite bit_ldiff, bit_land. tauto. Qed.
Lemma armed_enabled e m : plain (ev_extra e) ->
  is_empty (N.ldiff (ctl_word (epoll_interest e m)) EP_PRIVATE) = false.
Proof.
  intros _. apply nonempty_iff. exists b_err. rewrite bit_ldiff, ctl_word_bit, private_bit. split.
  - left. unfold watched. auto.
  - unfold b_err. lia.
Qed.

(** *** Interests *)
Lemma fset_plain f n v : plain f -> (n < 28)%N -> plain (fset f (2 ^ n) v).
Proof.
  intros Hp Hn m Hm. unfold bit in Hm. rewrite fset_pow2 in Hm.
  destruct (N.eqb_spec n m); [by subst|by apply Hp].
Qed.
Lemma plain_0 : plain 0.
Proof. intros n H. by apply bit_0 in H. Qed.
Lemma plain_land m w : plain m -> plain (N.land m w).
Proof. intros H n [Hn _]%bit_land. by apply H. Qed.

Lemma obtainable_plain h e :
  (forall b fd e', Reported b ∈ h -> (fd, e') ∈ b -> plain (ev_extra e')) ->
  obtainable h e -> plain (ev_extra e).
Proof.
  intros Hr. induction 1; simpl; eauto using plain_0.
  - rewrite p2_EPOLLHUP. by apply fset_plain.
  - rewrite p2_EPOLLPRI. by apply fset_plain.
Qed.

(** *** The ready list *)
Definition rep (k : kernel) (its : gmap Z item) (fd : Z) : option report :=
  it ← its !! fd;
  if is_empty (item_poll k fd it) then None
  else Some (Report fd (item_poll k fd it) (it_data it)).
Definition oneshot_item (it : item) : bool := intersects (it_events it) EPOLLONESHOT.
Definition level_item (it : item) : bool :=
  negb (oneshot_item it) && negb (intersects (it_events it) EPOLLET).
Definition back (k : kernel) (its : gmap Z item) (fd : Z) : bool :=
  match its !! fd with
  | Some it => negb (is_empty (item_poll k fd it)) && level_item it
  | None => false
  end.
Definition disarm (it : item) : item := Item (N.land (it_events it) EP_PRIVATE) (it_data it).
Definition item_after (k : kernel) (fd : Z) (it : item) : item :=
  if negb (is_empty (item_poll k fd it)) && oneshot_item it then disarm it else it.

Lemma send_spec k l max its b rest req its' :
  NoDup l -> send k l max its = (b, rest, req, its') ->
  exists done, l = done ++ rest /\
    b = omap (rep k its) done /\
    req = List.filter (back k its) done /\
    (forall fd, its' !! fd = if decide (fd ∈ done) then item_after k fd <$> its !! fd else its !! fd) /\
    (rest = [] \/ length b = max).
Proof.
  revert max its b rest req its'. induction l as [|fd l IH]; intros max its b rest req its' Hnd H.
  { simpl in H. simplify_eq. exists []. do 3 (split; [done|]). split; [|by left].
    intros fd. by rewrite decide_False by apply not_elem_of_nil. }
  apply NoDup_cons in Hnd as [Hfd Hnd]. cbn [send] in H. destruct max as [|m].
  { simplify_eq. exists []. do 3 (split; [done|]). split; [|by right].
    intros fd'. by rewrite decide_False by apply not_elem_of_nil. }
  assert (Hskip : rep k its fd = None -> back k its fd = false ->
    (forall it, its !! fd = Some it -> item_after k fd it = it) ->
    send k l (S m) its = (b, rest, req, its') ->
    exists done, fd :: l = done ++ rest /\ b = omap (rep k its) done /\
      req = List.filter (back k its) done /\
      (forall fd, its' !! fd = if decide (fd ∈ done) then item_after k fd <$> its !! fd else its !! fd) /\
      (rest = [] \/ length b = S m)).
  { intros Hr Hb Hia Hs. destruct (IH _ _ _ _ _ _ Hnd Hs) as (dn & E1 & E2 & E3 & E4 & E5).
    exists (fd :: dn). split; [by rewrite E1|]. split; [cbn [omap list_omap]; by rewrite Hr|].
    split; [cbn [List.filter]; by rewrite Hb|]. split; [|done].
    intros fd'. rewrite E4. destruct (decide (fd' = fd)) as [->|Hne].
    - rewrite (decide_True (P := fd ∈ fd :: dn)) by left.
      assert (item_after k fd <$> its !! fd = its !! fd) as ->.
      { destruct (its !! fd) eqn:E; [|done]. simpl. by rewrite Hia. }
      by case_decide.
    - destruct (decide (fd' ∈ dn)) as [Hin|Hin].
      + by rewrite decide_True by (by right).
      + rewrite decide_False; [done|]. rewrite elem_of_cons. naive_solver. }
  destruct (its !! fd) as [it|] eqn:Hit.
  2:{ apply Hskip; [unfold rep; by rewrite Hit|unfold back; by rewrite Hit|by intros|done]. }
  destruct (is_empty (item_poll k fd it)) eqn:Hp.
  { apply Hskip; [unfold rep; rewrite Hit; simpl; by rewrite Hp|unfold back; by rewrite Hit, Hp| |done].
    intros it' [= <-]. unfold item_after. by rewrite Hp. }
  clear Hskip.
  set (its1 := if intersects (it_events it) EPOLLONESHOT then <[fd := disarm it]> its else its) in *.
  change (Item (N.land (it_events it) EP_PRIVATE) (it_data it)) with (disarm it) in H. fold its1 in H.
  destruct (send k l m its1) as [[[b1 rest1] req1] its2] eqn:Es.
  injection H as <- <- <- <-.
  destruct (IH _ _ _ _ _ _ Hnd Es) as (dn & E1 & E2 & E3 & E4 & E5).
  assert (Hoth : forall g, g <> fd -> its1 !! g = its !! g).
  { intros g Hg. unfold its1. destruct (intersects _ _); [|done]. by rewrite lookup_insert_ne. }
  assert (Hdn : forall g, g ∈ dn -> g <> fd).
  { intros g Hg ->. apply Hfd. rewrite E1. set_solver. }
  exists (fd :: dn). split; [by rewrite E1|]. split.
  { cbn [omap list_omap]. unfold rep at 1. rewrite Hit. simpl. rewrite Hp. f_equal.
    rewrite E2. clear -Hoth Hdn. induction dn as [|g dn IH]; [done|]. cbn [omap list_omap].
    assert (rep k its1 g = rep k its g) as ->.
    { unfold rep. rewrite Hoth; [done|]. apply Hdn. left. }
    destruct (rep k its g); [f_equal|]; apply IH; intros; apply Hdn; by right. }
  split.
  { cbn [List.filter]. unfold back at 1. rewrite Hit, Hp. simpl.
    assert (Hreq : req1 = List.filter (back k its) dn).
    { rewrite E3. clear -Hoth Hdn. induction dn as [|g dn IH]; [done|]. cbn [List.filter].
      assert (back k its1 g = back k its g) as ->.
      { unfold back. rewrite Hoth; [done|]. apply Hdn. left. }
      destruct (back k its g); [f_equal|]; apply IH; intros; apply Hdn; by right. }
    rewrite Hreq. unfold level_item, oneshot_item. done. }
  split.
  { intros g. rewrite E4. destruct (decide (g = fd)) as [->|Hne].
    - rewrite (decide_True (P := fd ∈ fd :: dn)) by left.
      rewrite decide_False by (intros Hin; by apply (Hdn fd)).
      rewrite Hit. simpl. unfold item_after. rewrite Hp. simpl. unfold its1, oneshot_item.
      destruct (intersects _ _); [by rewrite lookup_insert|done].
    - rewrite Hoth by done. destruct (decide (g ∈ dn)) as [Hin|Hin].
      + by rewrite decide_True by (by right).
      + rewrite decide_False; [done|]. rewrite elem_of_cons. naive_solver. }
  destruct E5 as [->|E5]; [by left|right]. simpl. by rewrite E5.
Qed.

Lemma enqueue_in l fd g : g ∈ enqueue l fd <-> g ∈ l \/ g = fd.
Proof. unfold enqueue. case_decide; set_solver. Qed.
Lemma enqueue_nodup l fd : NoDup l -> NoDup (enqueue l fd).
Proof.
  intros H. unfold enqueue. case_decide; [done|]. apply NoDup_app. split; [done|].
  split; [set_solver|apply NoDup_singleton].
Qed.
Lemma filter_in (f : Z -> bool) l x : x ∈ List.filter f l <-> x ∈ l /\ f x = true.
Proof. rewrite !elem_of_list_In, filter_In. done. Qed.
Lemma filter_nodup (f : Z -> bool) l : NoDup l -> NoDup (List.filter f l).
Proof. rewrite !NoDup_ListNoDup. apply List.NoDup_filter. Qed.

(** *** Kernel invariant *)
Record kinv (k : kernel) : Prop := KInv {
  kv_nodup : NoDup (rdl k);
  kv_sub : forall fd, fd ∈ rdl k -> is_Some (items k !! fd);
  kv_plain : forall fd, plain (ready k fd);
  (* a registration that is not edge-triggered and has something to report is queued *)
  kv_queue : forall fd it, items k !! fd = Some it -> intersects (it_events it) EPOLLET = false ->
    is_empty (item_poll k fd it) = false -> fd ∈ rdl k
}.

Lemma ready_set k fd m g : ready (set_ready k fd m) g = if decide (g = fd) then m else ready k g.
Proof.
  unfold ready, set_ready. simpl. case_decide; subst; [by rewrite lookup_insert|].
  by rewrite lookup_insert_ne.
Qed.

Lemma kinv_empty : kinv (Kernel ∅ [] ∅).
Proof.
  split; simpl.
  - apply NoDup_nil_2.
  - intros fd Hin. by apply elem_of_nil in Hin.
  - intros fd. unfold ready. simpl. rewrite lookup_empty. apply plain_0.
  - intros fd it Hit. by rewrite lookup_empty in Hit.
Qed.

Lemma kinv_install k fd ev data : kinv k -> kinv (install k fd ev data).
Proof.
  intros [H1 H2 H3 H4]. unfold install. split; simpl.
  - destruct (is_empty _); [done|by apply enqueue_nodup].
  - intros g Hg. destruct (decide (g = fd)) as [->|Hne]; [rewrite lookup_insert; eauto|].
    rewrite lookup_insert_ne by done. apply H2.
    destruct (is_empty _); [done|]. apply enqueue_in in Hg as [|]; done.
  - done.
  - intros g it Hit He Hp.
    change (item_poll _ g it) with (item_poll k g it) in Hp.
    destruct (decide (g = fd)) as [->|Hne].
    + rewrite lookup_insert in Hit. simplify_eq. rewrite Hp. apply enqueue_in. by right.
    + rewrite lookup_insert_ne in Hit by done. specialize (H4 g it Hit He Hp). clear Hp.
      destruct (is_empty _); [done|]. apply enqueue_in. by left.
Qed.

Lemma kinv_forget k fd : kinv k -> kinv (forget k fd).
Proof.
  intros [H1 H2 H3 H4]. unfold forget. split; simpl.
  - by apply filter_nodup.
  - intros g [Hg Hb]%filter_in. apply bool_decide_eq_true in Hb. rewrite lookup_delete_ne by done. auto.
  - done.
  - intros g it [Hne Hit]%lookup_delete_Some He Hp. apply filter_in.
    split; [by eapply H4|]. by apply bool_decide_eq_true.
Qed.

Lemma kinv_quiet k fd m : kinv k -> (forall n, bit m n -> bit (ready k fd) n) -> kinv (set_ready k fd m).
Proof.
  intros [H1 H2 H3 H4] Hm. split; simpl; [done|done| |].
  - intros g. rewrite ready_set. case_decide; [subst|done]. intros n Hn. by apply (H3 fd), Hm.
  - intros g it Hit He Hp. apply (H4 g it Hit He).
    apply nonempty_iff in Hp as [n Hn]. apply nonempty_iff. exists n.
    unfold item_poll in *. rewrite bit_land in *. rewrite ready_set in Hn.
    case_decide; subst; [|done]. destruct Hn as [Hn ?]. auto.
Qed.

Lemma wake_items k fd key : items (wake k fd key) = items k.
Proof. unfold wake. repeat case_match; done. Qed.
Lemma wake_masks k fd key : masks (wake k fd key) = masks k.
Proof. unfold wake. repeat case_match; done. Qed.
Lemma wake_mono k fd key g : g ∈ rdl k -> g ∈ rdl (wake k fd key).
Proof. intros H. unfold wake. repeat case_match; simpl; try done. apply enqueue_in. by left. Qed.

Lemma kinv_happen k fd m key :
  kinv k -> plain m -> (forall n, bit m n -> ~ bit (ready k fd) n -> bit key n) ->
  kinv (wake (set_ready k fd m) fd key).
Proof.
  intros [H1 H2 H3 H4] Hm Hk. split.
  - unfold wake. repeat case_match; simpl; try done. by apply enqueue_nodup.
  - intros g. rewrite wake_items. unfold wake. repeat case_match; simpl; try apply H2.
    intros [Hg| ->]%enqueue_in; [by apply H2|]. eauto.
  - intros g. unfold ready. rewrite wake_masks. fold (ready (set_ready k fd m) g).
    rewrite ready_set. case_decide; [done|apply H3].
  - intros g it. rewrite wake_items. intros Hit He Hp. simpl in Hit.
    assert (Hp' : is_empty (item_poll (set_ready k fd m) g it) = false).
    { unfold item_poll, ready in *. by rewrite wake_masks in Hp. }
    clear Hp. apply nonempty_iff in Hp' as [n Hn].
    unfold item_poll in Hn. rewrite bit_land, ready_set in Hn. destruct Hn as [Hn Hw].
    destruct (decide (g = fd)) as [->|Hne].
    + destruct (N.testbit (ready k fd) n) eqn:Ho.
      * apply wake_mono. simpl. apply (H4 fd it Hit He). apply nonempty_iff. exists n.
        by apply bit_land.
      * assert (Ho' : ~ bit (ready k fd) n) by (unfold bit; congruence).
        unfold wake. simpl. rewrite Hit.
        assert (disabled it = false) as ->.
        { apply nonempty_iff. exists n. rewrite bit_ldiff, private_bit. split; [done|].
          apply Hm in Hn. lia. }
        assert (is_empty (N.land key (it_events it)) = false) as ->.
        { apply nonempty_iff. exists n. apply bit_land. auto. }
        simpl. apply enqueue_in. by right.
    + apply wake_mono. simpl. apply (H4 g it Hit He). apply nonempty_iff. exists n. by apply bit_land.
Qed.

Lemma wait_spec k max b k' :
  kinv k -> epoll_wait k max = (b, k') ->
  exists done rest, rdl k = done ++ rest /\ b = omap (rep k (items k)) done /\
    rdl k' = rest ++ List.filter (back k (items k)) done /\ masks k' = masks k /\
    (forall fd, items k' !! fd =
       if decide (fd ∈ done) then item_after k fd <$> items k !! fd else items k !! fd) /\
    (rest = [] \/ length b = max).
Proof.
  intros Hk. unfold epoll_wait.
  destruct (send k (rdl k) max (items k)) as [[[b1 rest] req] its] eqn:E. intros [= <- <-].
  destruct (send_spec _ _ _ _ _ _ _ _ (kv_nodup k Hk) E) as (dn & E1 & E2 & E3 & E4 & E5).
  exists dn, rest. simpl. by rewrite E3.
Qed.

Lemma disarm_poll k fd it : plain (ready k fd) -> is_empty (item_poll k fd (disarm it)) = true.
Proof. intros Hp. unfold item_poll, disarm. simpl. by rewrite disarmed_poll. Qed.

Lemma kinv_wait k max b k' : kinv k -> epoll_wait k max = (b, k') -> kinv k'.
Proof.
  intros Hk Hw. destruct (wait_spec k max b k' Hk Hw) as (dn & rest & E1 & _ & E3 & Em & E4 & _).
  destruct Hk as [H1 H2 H3 H4]. rewrite E1 in H1.
  assert (Hready : forall fd, ready k' fd = ready k fd) by (intros fd; unfold ready; by rewrite Em).
  split.
  - rewrite E3. apply NoDup_app in H1 as (D1 & D2 & D3). apply NoDup_app.
    split; [done|]. split; [|by apply filter_nodup].
    intros x Hx [Hx' _]%filter_in. by apply (D2 x).
  - intros fd. rewrite E3, E4. intros Hin.
    assert (is_Some (items k !! fd)) as [it Hit].
    { apply H2. rewrite E1. apply elem_of_app in Hin as [|[? _]%filter_in]; apply elem_of_app; auto. }
    rewrite Hit. case_decide; simpl; eauto.
  - intros fd. rewrite Hready. apply H3.
  - intros fd it Hit He Hp.
    assert (Hp' : is_empty (item_poll k fd it) = false).
    { unfold item_poll in *. by rewrite Hready in Hp. }
    clear Hp. rewrite E4 in Hit. rewrite E3. case_decide as Hd.
    + destruct (items k !! fd) as [it0|] eqn:Hit0; simpl in Hit; [|done]. injection Hit as <-.
      unfold item_after in He, Hp'. destruct (negb _ && oneshot_item it0) eqn:Eb.
      * by rewrite disarm_poll in Hp' by done.
      * apply elem_of_app. right. apply filter_in. split; [done|]. unfold back. rewrite Hit0, Hp'. simpl.
        rewrite Hp' in Eb. simpl in Eb. unfold level_item. by rewrite Eb, He.
    + specialize (H4 fd it Hit He Hp'). rewrite E1 in H4. apply elem_of_app. left.
      apply elem_of_app in H4 as [|]; done.
Qed.

(** *** Registrations *)
Definition word (e : event N) (m : poll_mode) : N := ctl_word (epoll_interest e m).
Definition shape (e : event N) (m : poll_mode) (it : item) : Prop :=
  it_data it = key_to_u64 (ev_key e) /\ plain (ev_extra e) /\
  (it_events it = word e m \/ (mode_oneshot m /\ it_events it = N.land (word e m) EP_PRIVATE)).
Definition good_key (e : event N) : Prop := ev_key e <> NOTIFY_KEY /\ (ev_key e < 2 ^ 64)%N.
Definition matches (oi : option item) (r : option registration) : Prop :=
  match oi, r with
  | Some it, Some (e, m) => shape e m it /\ good_key e
  | None, None => True
  | _, _ => False
  end.

Record inv (c : config) (s : state) : Prop := Inv {
  iv_kern : kinv (kern s);
  iv_user : forall fd, user_fd c fd -> matches (items (kern s) !! fd) (registered fd (log s));
  iv_notifier : exists it, items (kern s) !! notifier c = Some it /\ shape own_readable Oneshot it;
  iv_timer : forall t, timer c = Some t -> exists it e, items (kern s) !! t = Some it /\
    shape e Oneshot it /\ (e = own_none \/ e = own_readable);
  iv_rep : forall b fd e, Reported b ∈ log s -> (fd, e) ∈ b -> plain (ev_extra e)
}.

Lemma registered_snoc fd h o : registered fd (h ++ [o]) = after fd (registered fd h) o.
Proof. unfold registered. by rewrite fold_left_app. Qed.

Lemma plain_own e : e = own_none \/ e = own_readable -> plain (ev_extra e).
Proof. intros [-> | ->]; apply plain_0. Qed.
Lemma shape_new e m data :
  plain (ev_extra e) -> data = key_to_u64 (ev_key e) -> shape e m (Item (ctl_word (epoll_interest e m)) data).
Proof. intros Hp ->. split; [done|]. split; [done|by left]. Qed.
Lemma shape_after k fd e m it : shape e m it -> shape e m (item_after k fd it).
Proof.
  intros (H1 & H2 & H3). unfold item_after, disarm. destruct (negb _ && oneshot_item it) eqn:E; [|done].
  split; [done|]. split; [done|]. simpl. apply andb_prop in E as [_ E]. destruct H3 as [H3|[H3 H4]].
  - right. unfold oneshot_item in E. rewrite H3 in E. apply (word_oneshot e m H2) in E. by rewrite H3.
  - right. split; [done|]. rewrite H4. rewrite <-N.land_assoc. by rewrite N.land_diag.
Qed.
Lemma matches_after k fd oi r : matches oi r -> matches (item_after k fd <$> oi) r.
Proof.
  destruct oi as [it|], r as [[e m]|]; simpl; try done. intros [? ?]. split; [by apply shape_after|done].
Qed.

Lemma add_cases k fd e m f r k' : sys_add k fd e m f = (r, k') ->
  (r = Ok tt /\ f = None /\ items k !! fd = None /\ k' = install k fd (epoll_interest e m) (key_to_u64 (ev_key e))) \/
  (exists x, r = Err (EOs x) /\ k' = k /\ (f = Some x \/ (f = None /\ x = EEXIST /\ is_Some (items k !! fd)))).
Proof.
  unfold sys_add, ctl_add. destruct f as [x|]; [intros [= <- <-]; right; eauto|].
  destruct (items k !! fd) eqn:E; intros [= <- <-]; [|by left]. right. exists EEXIST.
  split; [done|]. split; [done|]. right. eauto.
Qed.
Lemma modify_cases k fd e m f r k' : sys_modify k fd e m f = (r, k') ->
  (r = Ok tt /\ f = None /\ is_Some (items k !! fd) /\ k' = install k fd (epoll_interest e m) (key_to_u64 (ev_key e))) \/
  (exists x, r = Err (EOs x) /\ k' = k /\ (f = Some x \/ (f = None /\ x = ENOENT /\ items k !! fd = None))).
Proof.
  unfold sys_modify, ctl_mod. destruct f as [x|]; [intros [= <- <-]; right; eauto|].
  destruct (items k !! fd) eqn:E; intros [= <- <-]; [left; eauto|]. right. exists ENOENT.
  split; [done|]. split; [done|]. right. eauto.
Qed.
Lemma delete_cases k fd f r k' : sys_delete k fd f = (r, k') ->
  (r = Ok tt /\ f = None /\ is_Some (items k !! fd) /\ k' = forget k fd) \/
  (exists x, r = Err (EOs x) /\ k' = k /\ (f = Some x \/ (f = None /\ x = ENOENT /\ items k !! fd = None))).
Proof.
  unfold sys_delete, ctl_del. destruct f as [x|]; [intros [= <- <-]; right; eauto|].
  destruct (items k !! fd) eqn:E; intros [= <- <-]; [left; eauto|]. right. exists ENOENT.
  split; [done|]. split; [done|]. right. eauto.
Qed.

(** Changes of the poller's own registrations do not touch the user's, and vice versa. *)
Lemma inv_install_user c s fd e m o :
  inv c s -> user_fd c fd -> plain (ev_extra e) -> good_key e ->
  o = AddRet fd e m (Ok tt) \/ o = ModifyRet fd e m (Ok tt) ->
  inv c (emit (set_kern s (install (kern s) fd (epoll_interest e m) (key_to_u64 (ev_key e)))) o).
Proof.
  intros [H1 H2 H3 H4 H5] Hu Hp Hg Ho. split; simpl.
  - by apply kinv_install.
  - intros g Hug. rewrite registered_snoc. destruct (decide (g = fd)) as [->|Hne].
    + rewrite lookup_insert.
      assert (after fd (registered fd (log s)) o = Some (e, m)) as ->.
      { destruct Ho as [-> | ->]; simpl; by rewrite decide_True. }
      split; [by apply shape_new|done].
    + rewrite lookup_insert_ne by done.
      assert (after g (registered g (log s)) o = registered g (log s)) as ->.
      { destruct Ho as [-> | ->]; simpl; by rewrite decide_False by done. }
      by apply H2.
  - destruct H3 as (it & Hit & Hs). exists it. rewrite lookup_insert_ne by (by destruct Hu).
    done.
  - intros t Ht. destruct (H4 t Ht) as (it & e' & Hit & Hs). exists it, e'.
    rewrite lookup_insert_ne; [done|]. intros <-. by destruct Hu.
  - intros b g e' [Hin|Hin]%elem_of_app; [eauto|]. apply elem_of_list_singleton in Hin.
    destruct Ho as [-> | ->]; done.
Qed.
Lemma inv_keep c s k o :
  inv c s -> kinv k -> (forall fd, items k !! fd = items (kern s) !! fd) ->
  (forall fd r, after fd r o = r) -> (forall b, o <> Reported b) ->
  inv c (emit (set_kern s k) o).
Proof.
  intros [H1 H2 H3 H4 H5] Hk Hi Ho Hr. split; simpl.
  - done.
  - intros fd Hu. rewrite Hi, registered_snoc, Ho. by apply H2.
  - setoid_rewrite Hi. done.
  - intros t Ht. setoid_rewrite Hi. auto.
  - intros b g e [Hin|Hin%elem_of_list_singleton]%elem_of_app; [eauto|]. by destruct (Hr b).
Qed.
Lemma inv_quiet c s s' :
  inv c s -> kinv (kern s') -> (forall fd, items (kern s') !! fd = items (kern s) !! fd) ->
  (log s' = log s \/ exists o, log s' = log s ++ [o] /\ (forall fd r, after fd r o = r) /\ (forall b, o <> Reported b)) ->
  inv c s'.
Proof.
  intros H Hk Hi [Hl|(o & Hl & Ho & Hr)].
  - destruct H as [H1 H2 H3 H4 H5]. split; rewrite ?Hl; try setoid_rewrite Hi; auto.
  - destruct (inv_keep c s (kern s') o H Hk Hi Ho Hr) as [I1 I2 I3 I4 I5].
    split; rewrite ?Hl; auto.
Qed.

Lemma rep_some k its fd r : rep k its fd = Some r ->
  exists it, its !! fd = Some it /\ is_empty (item_poll k fd it) = false /\
    r = Report fd (item_poll k fd it) (it_data it).
Proof.
  unfold rep. destruct (its !! fd) as [it|]; simpl; [|done]. destruct (is_empty _) eqn:E; [done|].
  intros [= <-]. eauto.
Qed.
Lemma wait_reports k max b k' fd e :
  kinv k -> epoll_wait k max = (b, k') -> (fd, e) ∈ map to_event b ->
  exists it, fd ∈ rdl k /\ items k !! fd = Some it /\ is_empty (item_poll k fd it) = false /\
    e = epoll_to_event 64 (it_data it) (item_poll k fd it) /\
    items k' !! fd = Some (item_after k fd it).
Proof.
  intros Hk Hw Hin. destruct (wait_spec _ _ _ _ Hk Hw) as (dn & rest & E1 & E2 & _ & _ & E4 & _).
  apply elem_of_list_fmap in Hin as (r & Hr & Hin). rewrite E2 in Hin.
  apply elem_of_list_omap in Hin as (g & Hg & Hrep).
  apply rep_some in Hrep as (it & Hit & Hp & ->). unfold to_event in Hr. simpl in Hr. injection Hr as -> ->.
  exists it. split; [rewrite E1; set_solver|]. split; [done|]. split; [done|]. split; [done|].
  rewrite E4. rewrite decide_True by done. by rewrite Hit.
Qed.

Lemma inv_own c s fd e s' :
  inv c s -> (fd = notifier c /\ e = own_readable /\ timer c <> Some fd \/
              timer c = Some fd /\ e = own_readable /\ fd <> notifier c) ->
  kern s' = install (kern s) fd (epoll_interest e Oneshot) (key_to_u64 (ev_key e)) ->
  (log s' = log s \/ exists o, log s' = log s ++ [o] /\ (forall fd r, after fd r o = r) /\ (forall b, o <> Reported b)) ->
  inv c s'.
Proof.
  intros [H1 H2 H3 H4 H5] Hfd Hk Hl.
  assert (He : e = own_readable) by tauto.
  assert (Hreg : forall g, registered g (log s') = registered g (log s)).
  { intros g. destruct Hl as [->|(o & -> & Ho & _)]; [done|]. rewrite registered_snoc. apply Ho. }
  assert (Hrep : forall b, Reported b ∈ log s' -> Reported b ∈ log s).
  { intros b. destruct Hl as [->|(o & -> & _ & Ho)]; [done|].
    intros [|Hin%elem_of_list_singleton]%elem_of_app; [done|]. by destruct (Ho b). }
  split; rewrite ?Hk.
  - by apply kinv_install.
  - intros g Hu. rewrite Hreg. simpl. rewrite lookup_insert_ne; [by apply H2|].
    destruct Hu. destruct Hfd as [(-> & _)|(? & _)]; congruence.
  - simpl. destruct (decide (notifier c = fd)) as [<-|Hne].
    + rewrite lookup_insert. eexists. split; [done|]. subst e. by apply shape_new; [apply plain_0|].
    + rewrite lookup_insert_ne by done. done.
  - intros t Ht. simpl. destruct (decide (t = fd)) as [->|Hne].
    + rewrite lookup_insert. eexists _, e. split; [done|]. split; [|auto].
      subst e. by apply shape_new; [apply plain_0|].
    + rewrite lookup_insert_ne by done. auto.
  - intros b g e' Hin. eauto.
Qed.

Lemma inv_init c : wf_config c -> inv c (init c).
Proof.
  intros Hc. unfold init, sys_add, ctl_add.
  assert (Hk1 : forall fd ev data, kinv (install (Kernel ∅ [] ∅) fd ev data)).
  { intros. apply kinv_install, kinv_empty. }
  destruct (timer c) as [t|] eqn:Ht.
  - assert (Hne : t <> notifier c) by (intros ->; by apply Hc).
    cbn [snd items]. rewrite lookup_empty. cbn [snd install items]. rewrite lookup_insert_ne by done.
    rewrite lookup_empty. cbn [snd]. split; cbn [kern log].
    + apply (kinv_install (install (Kernel ∅ [] ∅) t (epoll_interest own_none Oneshot) (key_to_u64 (ev_key own_none)))).
      apply Hk1.
    + intros fd [Hu1 Hu2]. cbn [install items]. rewrite !lookup_insert_ne by congruence. by rewrite lookup_empty.
    + cbn [install items]. rewrite lookup_insert. eexists. split; [done|]. by apply shape_new; [apply plain_0|].
    + intros t' [= <-]%(eq_trans (eq_sym Ht)). cbn [install items].
      rewrite lookup_insert_ne by done. rewrite lookup_insert.
      eexists _, own_none. split; [done|]. split; [by apply shape_new; [apply plain_0|]|by left].
    + intros b fd e Hin. by apply elem_of_nil in Hin.
  - cbn [items]. rewrite lookup_empty. cbn [snd]. split; cbn [kern log].
    + apply Hk1.
    + intros fd [Hu1 Hu2]. cbn [install items]. rewrite !lookup_insert_ne by congruence. by rewrite lookup_empty.
    + cbn [install items]. rewrite lookup_insert. eexists. split; [done|]. by apply shape_new; [apply plain_0|].
    + intros t' Ht'. congruence.
    + intros b fd e Hin. by apply elem_of_nil in Hin.
Qed.

Lemma inv_forget c s fd o k :
  inv c s -> user_fd c fd -> kinv k -> items k = delete fd (items (kern s)) ->
  o = DeleteRet fd (Ok tt) \/ o = Closed fd -> inv c (emit (set_kern s k) o).
Proof.
  intros [H1 H2 H3 H4 H5] [Hu1 Hu2] Hk Hi Ho. split; simpl.
  - done.
  - intros g Hug. rewrite registered_snoc, Hi. destruct (decide (g = fd)) as [->|Hne].
    + rewrite lookup_delete. destruct Ho as [-> | ->]; simpl; by rewrite decide_True.
    + rewrite lookup_delete_ne by done.
      assert (after g (registered g (log s)) o = registered g (log s)) as ->.
      { destruct Ho as [-> | ->]; simpl; by rewrite decide_False by done. }
      by apply H2.
  - destruct H3 as (it & Hit & Hs). exists it. rewrite Hi, lookup_delete_ne by done. done.
  - intros t Ht. destruct (H4 t Ht) as (it & e' & Hit & Hs). exists it, e'.
    rewrite Hi, lookup_delete_ne; [done|]. congruence.
  - intros b g e' [Hin|Hin]%elem_of_app; [eauto|]. apply elem_of_list_singleton in Hin.
    destruct Ho as [-> | ->]; done.
Qed.

Lemma inv_step c s l s' : wf_config c -> inv c s -> legal c s l -> step c s l = Some s' -> inv c s'.
Proof.
  intros Hc H Hl Hs.
  assert (Hgood : forall e, usable (log s) e -> plain (ev_extra e) /\ good_key e).
  { intros e (Ho & Hk). split; [|done]. eapply obtainable_plain; [|done]. apply (iv_rep _ _ H). }
  destruct l as [fd e m f|fd e m f|fd f|fd|fd m key| | |t max| |e]; cbn [step legal] in Hs, Hl.
  - destruct Hl as [Hu He]. destruct (Hgood e He) as [Hp Hg].
    destruct (sys_add _ _ _ _ _) as [r k] eqn:E. injection Hs as <-.
    apply add_cases in E as [(-> & -> & Hn & ->)|(x & -> & -> & _)].
    + apply inv_install_user; auto.
    + apply inv_keep; auto. apply H.
  - destruct Hl as [Hu He]. destruct (Hgood e He) as [Hp Hg].
    destruct (sys_modify _ _ _ _ _) as [r k] eqn:E. injection Hs as <-.
    apply modify_cases in E as [(-> & -> & Hn & ->)|(x & -> & -> & _)].
    + apply inv_install_user; auto.
    + apply inv_keep; auto. apply H.
  - destruct (sys_delete _ _ _) as [r k] eqn:E. injection Hs as <-.
    apply delete_cases in E as [(-> & -> & Hn & ->)|(x & -> & -> & _)].
    + eapply inv_forget; eauto. apply kinv_forget, H.
    + apply inv_keep; auto. apply H.
  - injection Hs as <-. eapply inv_forget; eauto. apply kinv_quiet; [apply kinv_forget, H|].
    intros n Hn. by apply bit_0 in Hn.
  - injection Hs as <-. destruct Hl as (Hu & Hp & Hk). apply inv_keep; auto.
    + apply kinv_happen; auto. apply H.
    + intros g. by rewrite wake_items.
  - injection Hs as <-. apply (inv_quiet c s); auto.
    + apply kinv_happen; [apply H|by rewrite p2_EPOLLIN; intros n ->%bit_pow2|done].
    + intros g. simpl. by rewrite wake_items.
    + right. eexists. split; [done|]. split; [done|]. done.
  - destruct (timer c) as [t|] eqn:Ht; [|done]. destruct (clock s); [|done]. injection Hs as <-.
    apply (inv_quiet c s); auto.
    + apply kinv_happen; [apply H|by rewrite p2_EPOLLIN; intros n ->%bit_pow2|done].
    + intros g. simpl. by rewrite wake_items.
    + right. eexists. split; [done|]. split; [done|]. done.
  - destruct (wait s); try done. injection Hs as <-. apply (inv_quiet c s); auto; [apply H|].
    right. eexists. split; [done|]. split; [done|]. done.
  - destruct (wait s) as [|t max|t max|t max|b|b] eqn:Hw; try done.
    + destruct (timer c) as [fd|] eqn:Ht; [|done]. injection Hs as <-. apply (inv_quiet c s); auto.
      * apply kinv_quiet; [apply H|]. intros n Hn. by apply bit_0 in Hn.
      * right. eexists. split; [done|]. split; [done|]. done.
    + destruct (timer c) as [fd|] eqn:Ht; [|done]. destruct (sys_modify _ _ _ _ _) as [r k] eqn:E.
      apply modify_cases in E as [(-> & _ & Hn & ->)|(x & -> & -> & [?|(_ & _ & Hn)])]; [|done|].
      * injection Hs as <-. apply (inv_own c s fd own_readable); [done| |done|by left].
        right. split; [done|]. split; [done|]. intros ->. by apply Hc.
      * destruct (iv_timer _ _ H fd Ht) as (it & e' & Hit & _). congruence.
    + destruct (epoll_wait (kern s) max) as [b k] eqn:E.
      destruct (sleeps c t && _); [done|]. injection Hs as <-.
      destruct (wait_spec _ _ _ _ (iv_kern _ _ H) E) as (dn & rest & E1 & E2 & _ & _ & E4 & _).
      assert (Hit : forall g, items k !! g = (if decide (g ∈ dn) then item_after (kern s) g else id) <$> items (kern s) !! g).
      { intros g. rewrite E4. case_decide; [done|]. by rewrite option_fmap_id. }
      destruct H as [H1 H2 H3 H4 H5]. split; simpl.
      * by eapply kinv_wait.
      * intros g Hu. rewrite registered_snoc. simpl. rewrite E4. case_decide; [apply matches_after|]; by apply H2.
      * destruct H3 as (it & Hi & Hsh). rewrite E4, Hi. case_decide; simpl; eauto using shape_after.
      * intros t' Ht'. destruct (H4 t' Ht') as (it & e' & Hi & Hsh & Hor). rewrite E4, Hi.
        case_decide; simpl; eauto 6 using shape_after.
      * intros b' g e' [Hin|Hin%elem_of_list_singleton]%elem_of_app Hin'; [eauto|].
        injection Hin as ->. eapply wait_reports in Hin' as (it & _ & _ & _ & -> & _); [|done|done].
        simpl. unfold item_poll. apply plain_land, H1.
    + injection Hs as <-. apply (inv_quiet c s); auto.
      apply kinv_quiet; [apply H|]. intros n Hn. by apply bit_0 in Hn.
    + destruct (sys_modify _ _ _ _ _) as [r k] eqn:E.
      apply modify_cases in E as [(-> & _ & Hn & ->)|(x & -> & -> & [?|(_ & _ & Hn)])]; [|done|].
      * injection Hs as <-. apply (inv_own c s (notifier c) own_readable); [done| |done|].
        -- left. split; [done|]. split; [done|]. done.
        -- right. eexists. split; [done|]. split; [done|]. done.
      * destruct (iv_notifier _ _ H) as (it & Hit & _). congruence.
  - assert (inv c (emit (set_wait s Out) (WaitErr (EOs e)))) as Hi.
    { apply (inv_quiet c s); auto; [apply H|]. right. eexists. split; [done|]. split; [done|]. done. }
    destruct (wait s); try done; by injection Hs as <-.
Qed.

Lemma inv_reachable c s : wf_config c -> reachable c s -> inv c s.
Proof. intros Hc. induction 1; [by apply inv_init|by eapply inv_step]. Qed.
