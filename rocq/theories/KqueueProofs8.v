(** Proofs about the kqueue model: what calls install, and checked runs. *)
From stdpp Require Import prelude list gmap.
From Verif Require Import Bits Types EventModel EventSpec EventProofs KqueueModel KqueueSpec KqueueProofs
  KqueueProofs2 KqueueProofs3 KqueueProofs4 KqueueProofs5 KqueueProofs6 KqueueProofs7.
Local Open Scope nat_scope.

(** *** A kernel that refuses nothing *)
Lemma unfaulted c k cl a k' f w : key_ok cl -> is_Some (call_changes c cl) ->
  kevent (keeps c) k (default [] (call_changes c cl)) [] = (a, k') -> asks cl f = Some w ->
  match w with
  | Some (key, m) => a !! slot f = Some None
  | None => (a !! slot f = Some None \/ a !! slot f = Some (Some ENOENT)) /\ notes k' !! f = None
  end.
Proof.
  intros Hk [chs Hc] Hke Ha. rewrite Hc in Hke. simpl in Hke.
  pose proof (call_slot c cl chs f Hc Hk) as Hs. rewrite Ha in Hs. destruct Hs as (ch & Hch & Ef & Hw).
  destruct (kevent_lookup _ _ _ _ _ _ _ _ Hke (call_nodup _ _ _ Hc) Hch) as (k1 & x & k2 & Hreg & Hx & E1 & _ & E2 & _).
  rewrite lookup_nil in Hreg. cbn [default] in Hreg. destruct w as [[key m]|].
  - destruct Hw as [_ Hfl]. destruct (change_add m) as [H1 H2].
    destruct (register_add _ _ _ _ _ _ Hreg) as [-> _]; by rewrite ?Hfl.
  - pose proof (register_delete _ _ _ _ _ _ Hreg Hw) as Hr. rewrite Ef in *. rewrite E2.
    destruct x as [e|]; [|auto]. destruct Hr as [-> Hr]. destruct (Hr eq_refl) as [-> ?]. auto.
Qed.
Lemma unfaulted_mild c k cl a k' : key_ok cl -> is_Some (call_changes c cl) ->
  kevent (keeps c) k (default [] (call_changes c cl)) [] = (a, k') -> Forall mild a.
Proof.
  intros Hk [chs Hc] Hke. rewrite Hc in Hke. simpl in Hke. apply Forall_lookup. intros j x Hx.
  assert (Hlt : j < length chs). { rewrite <- (kevent_length _ _ _ _ _ _ Hke). by eapply lookup_lt_Some. }
  apply lookup_lt_is_Some in Hlt as [ch Hch].
  destruct (kevent_lookup _ _ _ _ _ _ _ _ Hke (call_nodup _ _ _ Hc) Hch) as (k1 & y & k2 & Hreg & Hy & _).
  assert (x = y) as -> by congruence. rewrite lookup_nil in Hreg. cbn [default] in Hreg. unfold register in Hreg.
  unfold mild. destruct (intersects (ch_flags ch) EV_DELETE); [destruct (notes k1 !! _); simplify_eq; auto|].
  destruct (intersects (ch_flags ch) EV_ADD); destruct (notes k1 !! _); simplify_eq; auto.
Qed.

Lemma note_holds f n k m : kn_udata n = k -> kn_flags n = nflags f m -> holds f n k m.
Proof.
  intros H1 H2. split; [done|]. rewrite H2. split; [apply nflags_oneshot|apply nflags_clear].
Qed.

Lemma installed c excl s i cl s' : reachable c excl s -> threads s !! i = Some (PSubmit cl) ->
  step c s (LThread i (Kernel_ok [])) = Some s' ->
  threads s' !! i = Some (if deletes cl then PRemove cl else PRet cl (Ok tt)) /\
  (forall f, ~ source_filter (call_source cl) f -> notes (kern s') !! f = notes (kern s) !! f) /\
  (forall f w, asks cl f = Some w ->
    match w with
    | Some (key, m) => exists n, notes (kern s') !! f = Some n /\ kn_udata n = key /\
        (keeps c = false \/ notes (kern s) !! f = None -> holds f n key m)
    | None => notes (kern s') !! f = None
    end).
Proof.
  intros Hr Hp Hs. pose proof (inv_reach _ _ _ Hr) as Hi. destruct (iv_call _ _ Hi i _ cl Hp eq_refl) as [Hu Hk].
  pose proof (can_submit_reach _ _ _ Hr _ _ Hp) as Hc. assert (Hlt : i < length (threads s)) by (by eapply lookup_lt_Some).
  cbn [step] in Hs. rewrite Hp in Hs. cbn [thread_step] in Hs.
  destruct (kevent (keeps c) (kern s) (default [] (call_changes c cl)) []) as [a k] eqn:Ek. simplify_eq.
  assert (Ek' : kevent (keeps c) (kern s) (take (length (default [] (call_changes c cl))) (default [] (call_changes c cl))) [] = (a, k))
    by (by rewrite firstn_all).
  cbn [threads kern emit set_pc set_kern].
  assert (check_receipts (receipts a) = Ok tt) as -> by (apply receipts_ok; by eapply unfaulted_mild).
  split; [|split].
  - rewrite list_lookup_insert by done. done.
  - intros f Hf. pose proof (submit_effect c _ _ _ _ _ _ f Hk Ek') as He. unfold grant in He.
    destruct (asks cl f) as [w|] eqn:Ea; [destruct Hf; by eapply asks_source|]. by destruct (a !! slot f) as [[|]|]; destruct He.
  - intros f w Ea. pose proof (unfaulted c _ _ _ _ _ _ Hk Hc Ek Ea) as Hx.
    destruct w as [[key m]|]; [|by destruct Hx].
    pose proof (submit_effect c _ _ _ _ _ _ f Hk Ek') as He. unfold grant in He. rewrite Hx, Ea in He.
    destruct He as (n & Hn & Hud & Hfl & _). exists n. split; [done|]. split; [done|].
    intros Hkeep. apply note_holds; [done|]. rewrite Hfl.
    destruct Hkeep as [->| ->]; [by destruct (notes (kern s) !! f)|done].
Qed.

(** The parameter of a filter: what a process filter watches for, the timeout of a timer. *)
Definition filter_param (u : user_filter) : N :=
  match u with USignal _ => 0%N | UProcess _ ops => ops | UTimer _ t => t end.
Lemma installed_param c excl s i u key m s' cl : reachable c excl s ->
  cl = CAddFilter u key m \/ cl = CModifyFilter u key m ->
  threads s !! i = Some (PSubmit cl) ->
  step c s (LThread i (Kernel_ok [])) = Some s' ->
  exists n, notes (kern s') !! filter_of u = Some n /\ kn_param n = filter_param u.
Proof.
  intros Hr Hcl Hp Hs. pose proof (inv_reach _ _ _ Hr) as Hi. destruct (iv_call _ _ Hi i _ cl Hp eq_refl) as [Hu Hk].
  pose proof (can_submit_reach _ _ _ Hr _ _ Hp) as [chs Hc].
  cbn [step] in Hs. rewrite Hp in Hs. cbn [thread_step] in Hs.
  destruct (kevent (keeps c) (kern s) (default [] (call_changes c cl)) []) as [a k] eqn:Ek. simplify_eq.
  cbn [kern emit set_pc set_kern]. rewrite Hc in Ek. simpl in Ek.
  assert (exists ch, chs = [ch] /\ ch_filter ch = filter_of u /\ ch_param ch = filter_param u /\
            ch_flags ch = N.lor (N.lor EV_ADD (mode_to_flags m)) EV_RECEIPT) as (ch & -> & Ef & Epar & Efl).
  { destruct Hcl as [->| ->]; cbn [call_changes] in Hc; apply fmap_Some in Hc as (ch & Hch & ->); exists ch;
      (split; [done|]); destruct u; simpl in Hch; try (destruct (signal_ok _ _)); simplify_eq; done. }
  cbn [kevent head default tail] in Ek. destruct (register (keeps c) (kern s) ch None) as [x k1] eqn:E1. simplify_eq.
  destruct (register_add _ _ _ _ _ _ E1) as [-> (n & Hn & _ & Hpar & _)]; [by rewrite Efl; destruct m|by rewrite Efl; destruct m|].
  rewrite Ef in Hn. exists n. split; [done|]. congruence.
Qed.

(** *** Only duplicates fail: the poller's view is what succeeded *)
Definition duplicate_or_ok (o : obs) : Prop :=
  forall i cl r, o = Returned i cl r -> is_add cl = true -> r = Ok tt \/ r = exists_err.
Lemma entered_added src h : Forall duplicate_or_ok h -> entered src h = added src h.
Proof.
  induction h as [|o h IH] using rev_ind; intros HF; [done|].
  apply Forall_app in HF as [HF Ho]. rewrite Forall_singleton in Ho. specialize (IH HF).
  unfold entered, added in *. rewrite !fold_left_app. simpl. rewrite IH. destruct o as [| |  | | | | | | | | |]; try done.
  unfold enter, enter_ok. destruct (decide (call_source cl = src)) as [E|E]; [|by destruct r].
  destruct (is_add cl) eqn:Ea.
  - by destruct (Ho _ _ _ eq_refl Ea) as [->| ->].
  - destruct (deletes cl); by destruct r.
Qed.

(** *** Checked runs *)
Definition own_filterb (c : config) (f : kq_filter) : bool :=
  match noti c with
  | UserEvent => bool_decide (f = FUser 0)
  | SocketPair fd => bool_decide (f = FRead fd) || bool_decide (f = FWrite fd)
  end.
Definition key_okb (cl : call) : bool :=
  match cl with
  | CAdd _ e _ | CModify _ e _ => negb (ev_key e =? NOTIFY_KEY)%N && (ev_key e <? 2 ^ 64)%N
  | CAddFilter _ k _ | CModifyFilter _ k _ => (k <? 2 ^ 64)%N
  | _ => true
  end.
Fixpoint honestb (chs : list change) (fts : list (option errno)) : bool :=
  match chs, fts with
  | ch :: r, ft :: t =>
      (if intersects (ch_flags ch) EV_DELETE
       then match ft with Some ENOENT | Some EPIPE => false | _ => true end else true) && honestb r t
  | _, _ => true
  end.
Definition legalb (c : config) (excl : bool) (s : state) (l : label) : bool :=
  match l with
  | LThread i (Call cl) =>
      match noti c with SocketPair fd => negb (bool_decide (call_source cl = SFd fd)) | UserEvent => true end &&
      key_okb cl &&
      (negb excl || forallb (fun p => negb (bool_decide (busy p = Some (call_source cl)))) (threads s))
  | LThread i (Kernel_ok fts) | LThread i (Kernel_err _ fts _) =>
      match threads s !! i with Some (PSubmit cl) => honestb (default [] (call_changes c cl)) fts | _ => true end
  | LHappen f st wake =>
      negb (own_filterb c f) && (match st with None => true | Some _ => is_pending (kern s) f || wake end)
  | LClose fd => match noti c with SocketPair x => negb (bool_decide (x = fd)) | UserEvent => true end
  | LWait _ max => negb (Nat.eqb max 0)
  | _ => true
  end.

Lemma honestb_sound chs fts : honestb chs fts = true ->
  forall j ch e, chs !! j = Some ch -> intersects (ch_flags ch) EV_DELETE = true ->
    fts !! j = Some (Some e) -> e <> ENOENT /\ e <> EPIPE.
Proof.
  revert fts. induction chs as [|ch chs IH]; intros [|ft fts] H j ch' e Hj Hd He; try done.
  cbn [honestb] in H. apply andb_prop in H as [H1 H2]. destruct j as [|j]; simpl in Hj, He; [|by eapply IH].
  simplify_eq. rewrite Hd in H1. destruct e; done.
Qed.
Lemma key_okb_sound cl : key_okb cl = true -> key_ok cl.
Proof.
  destruct cl as [fd e m|fd e m|fd|u k m|u k m|u]; cbn [key_okb key_ok]; try done.
  1-2: intros [H2 H4]%andb_prop; (split; [by apply negb_true_iff, N.eqb_neq in H2|by apply N.ltb_lt]).
  all: intros H; by apply N.ltb_lt.
Qed.
Lemma legalb_sound c excl s l : legalb c excl s l = true -> legal c excl s l.
Proof.
  destruct l as [i [cl| | |fts|n fts e]|f st w|fd|sl max|fs|e|fts]; cbn [legalb legal]; try done.
  - intros [[H1 H2]%andb_prop H3]%andb_prop. split; [|split].
    + unfold user_call. destruct (noti c); [done|]. apply negb_true_iff, bool_decide_eq_false in H1. done.
    + by apply key_okb_sound.
    + intros ->. simpl in H3. intros j p Hp Hb. rewrite forallb_forall in H3.
      assert (Hin : In p (threads s)) by (apply elem_of_list_In; by eapply elem_of_list_lookup_2).
      apply H3 in Hin. rewrite Hb in Hin. by rewrite bool_decide_true in Hin.
  - intros H cl Hp. rewrite Hp in H. exact (honestb_sound _ _ H).
  - intros H cl Hp. rewrite Hp in H. exact (honestb_sound _ _ H).
  - intros [H1 H2]%andb_prop. split.
    + unfold own_filterb, own_filter in *. apply negb_true_iff in H1. destruct (noti c).
      * by apply bool_decide_eq_false in H1.
      * apply orb_false_iff in H1 as [H1 H3]. apply bool_decide_eq_false in H1, H3. tauto.
    + intros [x ->] Hp. rewrite Hp in H2. done.
  - unfold own_fd. destruct (noti c); [done|]. intros H%negb_true_iff%bool_decide_eq_false. congruence.
  - intros H%negb_true_iff%Nat.eqb_neq. lia.
Qed.
Fixpoint checked (c : config) (excl : bool) (s : state) (ls : list label) : option state :=
  match ls with
  | [] => Some s
  | l :: r => if legalb c excl s l then match step c s l with Some s' => checked c excl s' r | None => None end else None
  end.
Lemma checked_reach c excl s ls s' : reachable c excl s -> checked c excl s ls = Some s' -> reachable c excl s'.
Proof.
  revert s. induction ls as [|l ls IH]; intros s Hr H; [by injection H as <-|].
  cbn [checked] in H. destruct (legalb c excl s l) eqn:El; [|done]. destruct (step c s l) as [s1|] eqn:Es; [|done].
  eapply IH; [|exact H]. eapply reach_step; [done|by apply legalb_sound|done].
Qed.

(** *** Keys *)
Lemma asks_key cl f k m : key_ok cl -> asks cl f = Some (Some (k, m)) -> (k < 2 ^ 64)%N.
Proof.
  destruct cl as [fd e m0|fd e m0|fd|u k0 m0|u k0 m0|u]; cbn [asks key_ok]; intros Hk H.
  1-2: destruct Hk as [_ Hk]; destruct (decide (f = FRead fd)); [|destruct (decide (f = FWrite fd)); [|done]];
    unfold wants in H; [destruct (ev_readable e)|destruct (ev_writable e)]; by simplify_eq.
  - by destruct (decide _).
  - destruct (decide _); by simplify_eq.
  - destruct (decide _); by simplify_eq.
  - by destruct (decide _).
Qed.
Lemma answered_call c s l s' o : step c s l = Some s' -> log s' = log s ++ [o] ->
  match o with
  | Answered _ cl _ | Aborted _ cl _ _ => exists i, threads s !! i = Some (PSubmit cl)
  | _ => True
  end.
Proof.
  intros Hs E2.
  assert (Hno : log s' = log s -> False).
  { intros E. rewrite E in E2. apply (f_equal length) in E2. rewrite app_length in E2. simpl in E2. lia. }
  assert (Hone : forall x, log s' = log s ++ [x] -> x = o).
  { intros x E. rewrite E in E2. by apply app_inj_tail in E2 as [_ E2]. }
  destruct l as [j a|f st w|fd|sl max|fs|e|fts]; cbn [step] in Hs.
  - destruct (threads s !! j) as [p|] eqn:Ep; [|done].
    destruct p as [|cl0|cl0|cl0|cl0|cl0 r0| |], a as [cl'| | |fts|n fts e]; cbn [thread_step] in Hs; try done.
    all: try (destruct (kevent _ _ _ _)). all: try (destruct (decide _)).
    all: try (match goal with H : context [noti ?x] |- _ => destruct (noti x) end).
    all: simplify_eq; try (by destruct (Hno eq_refl)); rewrite <- (Hone _ eq_refl); eauto.
  - simplify_eq. by rewrite <- (Hone _ eq_refl).
  - simplify_eq. by rewrite <- (Hone _ eq_refl).
  - destruct (wait s); simplify_eq. by rewrite <- (Hone _ eq_refl).
  - destruct (wait s); try done. destruct (_ && _); simplify_eq. by rewrite <- (Hone _ eq_refl).
  - destruct (wait s), e; simplify_eq; try (by destruct (Hno eq_refl)); by rewrite <- (Hone _ eq_refl).
  - unfold wait_step in Hs. destruct (wait s); try done; try (destruct (noti c)); try done.
    all: try (destruct (decide _)). all: try (destruct (kevent _ _ _ _); destruct (check_receipts _)).
    all: simplify_eq; try (by destruct (Hno eq_refl)); by rewrite <- (Hone _ eq_refl).
Qed.
Lemma armed_keys c excl s f k m : reachable c excl s -> armed (keeps c) f (log s) = Some (k, m) -> (k < 2 ^ 64)%N.
Proof.
  intros Hr Ha.
  assert (Hg : Forall (fun o => forall k m, granted f o = Some (Some (k, m)) -> (k < 2 ^ 64)%N) (log s)).
  { clear Ha. apply Forall_forall. intros o Ho k0 m0 Hg. apply elem_of_list_split in Ho as (h & h' & E).
    destruct (log_step _ _ _ _ _ _ Hr E) as (s1 & l & s2 & Hr1 & Hl & Hs & E1 & E2). rewrite <- E1 in E2.
    pose proof (inv_reach _ _ _ Hr1) as Hi.
    assert (exists cl, asks cl f = Some (Some (k0, m0)) /\ key_ok cl) as (cl & Hc & Hk); [|by eapply asks_key].
    destruct o as [| |j cl a|j cl a e| |fd| | | | | |]; try done; simpl in Hg.
    3:{ by case_decide. }
    all: destruct (a !! slot f) as [[|]|]; try done; exists cl; (split; [done|]).
    all: destruct (answered_call _ _ _ _ _ Hs E2) as (i & Hp).
    all: by apply (iv_call _ _ Hi i _ cl Hp eq_refl). }
  revert k m Ha. induction (log s) as [|o h IH] using rev_ind; [done|].
  apply Forall_app in Hg as [Hg Ho]. rewrite Forall_singleton in Ho. specialize (IH Hg).
  rewrite armed_snoc. unfold arm. intros k m. destruct (granted f o) as [[[k' m']|]|] eqn:E.
  - destruct (armed (keeps c) f h) as [[k0 m0]|]; [destruct (keeps c)|]; intros [= <- <-]; eauto.
  - done.
  - destruct (armed (keeps c) f h) as [[k0 m0]|].
    + destruct o; try (intros [= <- <-]; eauto). case_decide; [|intros [= <- <-]; eauto].
      destruct m0; try done; intros [= <- <-]; eauto.
    + by destruct o.
Qed.

Lemma some_report_possible c s sl max f : wait s = WPoll sl max -> 0 < max ->
  reportable (kern s) f = true -> exists fs s', step c s (LReport fs) = Some s'.
Proof.
  intros Hw Hmax Hrep.
  set (all := List.filter (reportable (kern s)) (map_to_list (notes (kern s))).*1).
  assert (Hall : forall g, g ∈ all <-> reportable (kern s) g = true).
  { intros g. unfold all. rewrite elem_of_list_In, filter_In, <- elem_of_list_In. split; [tauto|].
    intros Hg. split; [|done]. apply reportable_spec in Hg as (x & Hx & _).
    apply elem_of_list_fmap. exists (g, x). split; [done|]. by apply elem_of_map_to_list. }
  assert (Hnd : NoDup all).
  { unfold all. apply NoDup_ListNoDup, List.NoDup_filter, NoDup_ListNoDup. apply NoDup_fst_map_to_list. }
  exists (take max all).
  assert (Hm : may_report (kern s) max (take max all) = true).
  { apply may_report_spec. split; [|split; [|split]].
    - rewrite <- (take_drop max all) in Hnd. by apply NoDup_app in Hnd as [? _].
    - intros g Hg. apply Hall. rewrite <- (take_drop max all). apply elem_of_app. by left.
    - rewrite take_length. lia.
    - rewrite take_length. destruct (decide (max <= length all)); [left; lia|right].
      intros g Hg. rewrite take_ge by lia. by apply Hall. }
  eexists. cbn [step]. rewrite Hw, Hm. simpl.
  assert (bool_decide (take max all = []) = false) as ->.
  { apply bool_decide_eq_false. intros E. assert (Hin : f ∈ all) by (by apply Hall).
    destruct all as [|x l]; [by apply elem_of_nil in Hin|]. destruct max; [lia|done]. }
  rewrite andb_false_r. done.
Qed.
