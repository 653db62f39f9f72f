(** Proofs about [PollModel]. *)
From stdpp Require Import prelude list gmap.
From Verif Require Import Bits Types TimeModel EventModel LibModel PollModel PollSpec.
Local Open Scope nat_scope.

Record wf (o : own_fds) (s : fds) : Prop := Wf {
  wf_head : exists pf, poll_fds s !! 0 = Some pf /\ pfd_fd pf = own_poll o /\ pfd_events pf = own_flags o;
  wf_data : forall fd d, fd_data s !! fd = Some d ->
    0 < fd_index d /\ exists pf, poll_fds s !! fd_index d = Some pf /\ pfd_fd pf = fd;
  wf_tab : forall i pf, 0 < i -> poll_fds s !! i = Some pf ->
    exists d, fd_data s !! pfd_fd pf = Some d /\ fd_index d = i;
  wf_none : forall fd, has_fd o fd = true -> fd_data s !! fd = None
}.

Lemma index_inj o s fd1 fd2 d1 d2 :
  wf o s -> fd_data s !! fd1 = Some d1 -> fd_data s !! fd2 = Some d2 ->
  fd_index d1 = fd_index d2 -> fd1 = fd2.
Proof.
  intros Hw H1 H2 E. destruct (wf_data _ _ Hw _ _ H1) as (_ & p1 & Hp1 & <-).
  destruct (wf_data _ _ Hw _ _ H2) as (_ & p2 & Hp2 & <-). rewrite E in Hp1. congruence.
Qed.

Lemma wf_new o : wf o (poll_new o).
Proof.
  constructor; simpl.
  - eexists. done.
  - intros fd d H. by rewrite lookup_empty in H.
  - intros [|i] pf Hi H; [lia|done].
  - intros fd _. apply lookup_empty.
Qed.

(** *** add *)
Lemma add_wf o s fd ev mode r s' :
  wf o s -> poll_add o s fd ev mode = (r, s') -> r <> Panic /\ wf o s'.
Proof.
  intros Hw. unfold poll_add. destruct (has_fd o fd) eqn:Hh; [intros; by simplify_eq|].
  unfold add_fds. destruct (fd_data s !! fd) eqn:E; [intros; by simplify_eq|].
  destruct (cvt_mode_as_remove mode) as [rm|e|] eqn:Em; intros H; simplify_eq; try done;
    [|by destruct mode].
  split; [done|]. constructor; simpl.
  - destruct (wf_head _ _ Hw) as (pf & Hp & Hf). exists pf. split; [|done].
    rewrite lookup_app_l; [done|]. by eapply lookup_lt_Some.
  - intros fd' d. rewrite lookup_insert_Some. intros [[-> <-]|[Hne H]]; simpl.
    + split.
      * destruct (wf_head _ _ Hw) as (pf & Hp & _). apply lookup_lt_Some in Hp. lia.
      * exists (new_pollfd fd' (poll_events ev)). split; [|done].
        rewrite lookup_app_r by lia. by rewrite Nat.sub_diag.
    + destruct (wf_data _ _ Hw _ _ H) as (Hi & pf & Hp & Hf). split; [done|]. exists pf.
      split; [|done]. rewrite lookup_app_l; [done|]. by eapply lookup_lt_Some.
  - intros i pf Hi H. apply lookup_app_Some in H as [H|[Hl H]].
    + destruct (wf_tab _ _ Hw _ _ Hi H) as (d & Hd & Hx). exists d. split; [|done].
      rewrite lookup_insert_ne; [done|]. intros ->. congruence.
    + apply list_lookup_singleton_Some in H as [H <-]. simpl. rewrite lookup_insert.
      eexists. split; [done|]. simpl. lia.
  - intros fd' Hf. rewrite lookup_insert_ne by congruence. by apply (wf_none _ _ Hw).
Qed.

(** *** modify *)
Lemma modify_shape o s fd ev mode :
  wf o s -> has_fd o fd = false ->
  forall d, fd_data s !! fd = Some d ->
  exists rm, poll_modify o s fd ev mode =
    (match cvt_mode_as_remove mode with Ok _ => Ok tt | Err e => Err e | Panic => Panic end,
     Fds (<[fd_index d := new_pollfd fd (poll_events ev)]> (poll_fds s))
         (<[fd := FdData (fd_index d) (ev_key ev) rm]> (fd_data s))) /\
    rm = match cvt_mode_as_remove mode with Ok b => b | _ => fd_remove d end.
Proof.
  intros Hw Hh d Hd. unfold poll_modify. rewrite Hh. unfold modify_fds_entry. rewrite Hd.
  destruct (wf_data _ _ Hw _ _ Hd) as (Hi & pf & Hp & Hf). rewrite Hp.
  destruct (cvt_mode_as_remove mode); eexists; done.
Qed.

Lemma wf_update o s fd d k rm ev :
  wf o s -> fd_data s !! fd = Some d ->
  wf o (Fds (<[fd_index d := new_pollfd fd ev]> (poll_fds s))
            (<[fd := FdData (fd_index d) k rm]> (fd_data s))).
Proof.
  intros Hw Hd. destruct (wf_data _ _ Hw _ _ Hd) as (Hi & pf & Hp & Hf).
  constructor; simpl.
  - destruct (wf_head _ _ Hw) as (pf0 & Hp0 & Hf0). exists pf0. split; [|done].
    rewrite list_lookup_insert_ne by lia. done.
  - intros fd' d'. rewrite lookup_insert_Some. intros [[-> <-]|[Hne H]]; simpl.
    + split; [done|]. exists (new_pollfd fd' ev). split; [|done]. apply list_lookup_insert.
      by eapply lookup_lt_Some.
    + destruct (wf_data _ _ Hw _ _ H) as (Hi' & pf' & Hp' & Hf'). split; [done|]. exists pf'.
      split; [|done]. rewrite list_lookup_insert_ne; [done|].
      intros E. apply Hne. eapply index_inj; eauto.
  - intros i pf' Hi' H. apply list_lookup_insert_Some in H as [(-> & <- & _)|[Hne H]]; simpl.
    + rewrite lookup_insert. eexists. split; done.
    + destruct (wf_tab _ _ Hw _ _ Hi' H) as (d' & Hd' & Hx). exists d'. split; [|done].
      rewrite lookup_insert_ne; [done|]. intros ->. rewrite Hd in Hd'. simplify_eq.
  - intros fd' Hf'. pose proof (wf_none _ _ Hw _ Hf'). rewrite lookup_insert_ne; [done|]. congruence.
Qed.

Lemma modify_wf o s fd ev mode r s' :
  wf o s -> poll_modify o s fd ev mode = (r, s') -> r <> Panic /\ wf o s'.
Proof.
  intros Hw H. destruct (has_fd o fd) eqn:Hh.
  { unfold poll_modify in H. rewrite Hh in H. by simplify_eq. }
  destruct (fd_data s !! fd) as [d|] eqn:Hd.
  - destruct (modify_shape o s fd ev mode Hw Hh d Hd) as (rm & E & _). rewrite E in H.
    injection H as <- <-. split; [by destruct mode|]. by apply wf_update.
  - unfold poll_modify, modify_fds_entry in H. rewrite Hh, Hd in H. by simplify_eq.
Qed.

(** *** delete *)
Lemma swap_remove_lookup {A} (l : list A) i x :
  l !! i = Some x ->
  exists l', swap_remove l i = Some l' /\ length l' = length l - 1 /\
    forall j, l' !! j = if decide (j < length l - 1) then
                          if decide (j = i) then last l else l !! j else None.
Proof.
  intros H. unfold swap_remove. rewrite H.
  pose proof (lookup_lt_Some _ _ _ H) as Hlt.
  destruct (last l) as [y|] eqn:El.
  2:{ apply last_None in El. subst l. done. }
  eexists. split; [done|]. split.
  { rewrite take_length, insert_length. lia. }
  intros j. case_decide as Hj.
  - rewrite lookup_take by lia. case_decide; subst.
    + by rewrite list_lookup_insert.
    + by rewrite list_lookup_insert_ne.
  - apply lookup_take_ge. lia.
Qed.

Lemma delete_shape o s fd d :
  wf o s -> has_fd o fd = false -> fd_data s !! fd = Some d ->
  exists l', swap_remove (poll_fds s) (fd_index d) = Some l' /\
  (forall j, l' !! j = if decide (j < length (poll_fds s) - 1) then
                          if decide (j = fd_index d) then last (poll_fds s) else poll_fds s !! j
                       else None) /\
  ( (fd_index d = length (poll_fds s) - 1 /\
     poll_delete o s fd = (Ok tt, Fds l' (delete fd (fd_data s))))
  \/ exists fd2 d2 pf2, fd_index d < length (poll_fds s) - 1 /\ fd2 <> fd /\
     fd_data s !! fd2 = Some d2 /\
     fd_index d2 = length (poll_fds s) - 1 /\ last (poll_fds s) = Some pf2 /\ pfd_fd pf2 = fd2 /\
     poll_delete o s fd = (Ok tt, Fds l'
       (<[fd2 := FdData (fd_index d) (fd_key d2) (fd_remove d2)]> (delete fd (fd_data s))))).
Proof.
  intros Hw Hh Hd. destruct (wf_data _ _ Hw _ _ Hd) as (Hi & pf & Hp & Hf).
  destruct (swap_remove_lookup _ _ _ Hp) as (l' & El & Hlen & Hl).
  exists l'. split; [done|]. split; [done|].
  pose proof (lookup_lt_Some _ _ _ Hp) as Hlt.
  unfold poll_delete. rewrite Hh. unfold delete_fds. rewrite Hd, El.
  pose proof (Hl (fd_index d)) as Hx.
  destruct (decide (fd_index d < length (poll_fds s) - 1)) as [Hlast|Hlast].
  - right. rewrite decide_True in Hx by done.
    destruct (last (poll_fds s)) as [pf2|] eqn:E2.
    2:{ apply last_None in E2. rewrite E2 in Hlt. simpl in Hlt. lia. }
    assert (Hpl : poll_fds s !! (length (poll_fds s) - 1) = Some pf2).
    { rewrite last_lookup in E2. rewrite <-E2.
      replace (length (poll_fds s) - 1) with (pred (length (poll_fds s))) by lia. done. }
    destruct (wf_tab _ _ Hw (length (poll_fds s) - 1) pf2 ltac:(lia) Hpl) as (d2 & Hd2 & Hx2).
    assert (Hne : pfd_fd pf2 <> fd).
    { intros E. rewrite E in Hd2. rewrite Hd in Hd2. simplify_eq. lia. }
    rewrite Hx. rewrite lookup_delete_ne by done. rewrite Hd2.
    exists (pfd_fd pf2), d2, pf2. repeat split; done.
  - left. rewrite Hx. split; [lia|done].
Qed.

Lemma delete_wf o s fd r s' :
  wf o s -> poll_delete o s fd = (r, s') -> r <> Panic /\ wf o s'.
Proof.
  intros Hw H. destruct (has_fd o fd) eqn:Hh.
  { unfold poll_delete in H. rewrite Hh in H. by simplify_eq. }
  destruct (fd_data s !! fd) as [d|] eqn:Hd.
  2:{ unfold poll_delete, delete_fds in H. rewrite Hh, Hd in H. by simplify_eq. }
  destruct (wf_data _ _ Hw _ _ Hd) as (Hi & pf & Hp & Hf).
  pose proof (lookup_lt_Some _ _ _ Hp) as Hlt.
  destruct (wf_head _ _ Hw) as (pf0 & Hp0 & Hf0).
  destruct (delete_shape o s fd d Hw Hh Hd) as (l' & El & Hl & [(Hlast & E)|Hcase]).
  - rewrite E in H. injection H as <- <-. split; [done|]. constructor; simpl.
    + exists pf0. rewrite Hl. rewrite decide_True, decide_False by lia. done.
    + intros fd' d'. rewrite lookup_delete_Some. intros [Hne H'].
      destruct (wf_data _ _ Hw _ _ H') as (Hi' & pf' & Hp' & Hf'). split; [done|]. exists pf'.
      split; [|done]. rewrite Hl. pose proof (lookup_lt_Some _ _ _ Hp').
      assert (fd_index d' <> fd_index d) by (intros E'; apply Hne; symmetry; eapply index_inj; eauto).
      rewrite decide_True, decide_False by lia. done.
    + intros i pf' Hi' H'. rewrite Hl in H'. case_decide; [|done].
      rewrite decide_False in H' by lia.
      destruct (wf_tab _ _ Hw _ _ Hi' H') as (d' & Hd' & Hx). exists d'. split; [|done].
      rewrite lookup_delete_ne; [done|]. intros Ef. rewrite <-Ef, Hd in Hd'. simplify_eq. lia.
    + intros fd' Hf'. rewrite lookup_delete_None. right. by apply (wf_none _ _ Hw).
  - destruct Hcase as (fd2 & d2 & pf2 & Hnl & Hne2 & Hd2 & Hx2 & E2 & Hf2 & E).
    rewrite E in H. injection H as <- <-. split; [done|]. constructor; simpl.
    + exists pf0. rewrite Hl. rewrite decide_True, decide_False by lia. done.
    + intros fd' d'. rewrite lookup_insert_Some, lookup_delete_Some.
      intros [[<- <-]|[Hne [Hne' H']]]; simpl.
      * split; [done|]. exists pf2. rewrite Hl. rewrite !decide_True by lia. done.
      * destruct (wf_data _ _ Hw _ _ H') as (Hi' & pf' & Hp' & Hf'). split; [done|]. exists pf'.
        split; [|done]. rewrite Hl. pose proof (lookup_lt_Some _ _ _ Hp').
        assert (fd_index d' <> fd_index d) by (intros E'; apply Hne'; symmetry; eapply index_inj; eauto).
        assert (fd_index d' <> fd_index d2) by (intros E'; apply Hne; symmetry; eapply index_inj; eauto).
        rewrite decide_True, decide_False by lia. done.
    + intros i pf' Hi' H'. rewrite Hl in H'. case_decide; [|done]. case_decide as Hii.
      * rewrite E2 in H'. injection H' as <-. rewrite Hf2, lookup_insert. eexists. split; done.
      * destruct (wf_tab _ _ Hw _ _ Hi' H') as (d' & Hd' & Hx). exists d'. split; [|done].
        rewrite lookup_insert_ne, lookup_delete_ne; [done| |].
        -- intros Ef. rewrite <-Ef, Hd in Hd'. simplify_eq.
        -- intros Ef. rewrite <-Ef, Hd2 in Hd'. simplify_eq. lia.
    + intros fd' Hf'. pose proof (wf_none _ _ Hw _ Hf') as Hn.
      rewrite lookup_insert_ne by congruence. rewrite lookup_delete_None. by right.
Qed.

Lemma call_wf o s c r s' : wf o s -> do_call o s c = (r, s') -> r <> Panic /\ wf o s'.
Proof.
  destruct c; simpl; [apply add_wf|apply modify_wf|apply delete_wf].
Qed.

(** *** the kernel's answer *)
Lemma kernel_write_lookup pfds rs i :
  length rs = length pfds ->
  kernel_write pfds rs !! i =
    match pfds !! i, rs !! i with Some pf, Some r => Some (set_revents pf r) | _, _ => None end.
Proof.
  revert rs i. induction pfds as [|pf pfds IH]; intros [|r rs] i H; simpl in *; try lia.
  - by destruct i.
  - destruct i as [|i]; [done|]. exact (IH rs i ltac:(lia)).
Qed.

Lemma kernel_write_some pfds rs i pf :
  length rs = length pfds ->
  kernel_write pfds rs !! i = Some pf ->
  exists pf0, pfds !! i = Some pf0 /\ rs !! i = Some (pfd_revents pf) /\
    pfd_fd pf = pfd_fd pf0 /\ pfd_events pf = pfd_events pf0.
Proof.
  intros Hl H. rewrite kernel_write_lookup in H by done.
  destruct (pfds !! i) as [pf0|]; [|done]. destruct (rs !! i) as [r|] eqn:E; [|done].
  injection H as <-. exists pf0. done.
Qed.

Lemma kernel_write_wf o s rs :
  wf o s -> length rs = length (poll_fds s) ->
  wf o (Fds (kernel_write (poll_fds s) rs) (fd_data s)).
Proof.
  intros Hw Hl.
  assert (Hx : forall i pf, poll_fds s !! i = Some pf ->
    exists r, kernel_write (poll_fds s) rs !! i = Some (set_revents pf r)).
  { intros i pf Hp. rewrite kernel_write_lookup, Hp by done.
    destruct (lookup_lt_is_Some_2 rs i) as [r Hr].
    { rewrite Hl. by eapply lookup_lt_Some. }
    rewrite Hr. by exists r. }
  constructor; simpl.
  - destruct (wf_head _ _ Hw) as (pf & Hp & Hf). destruct (Hx _ _ Hp) as (r & Hr).
    exists (set_revents pf r). done.
  - intros fd d Hd. destruct (wf_data _ _ Hw _ _ Hd) as (Hi & pf & Hp & Hf).
    split; [done|]. destruct (Hx _ _ Hp) as (r & Hr). exists (set_revents pf r). done.
  - intros i pf Hi Hp. destruct (kernel_write_some _ _ _ _ Hl Hp) as (pf0 & Hp0 & _ & Hf & _).
    rewrite Hf. by apply (wf_tab _ _ Hw).
  - apply (wf_none _ _ Hw).
Qed.

(** *** storing the events *)
Definition ev_of (data : gmap Z fddata) (pfds : list pollfd) (fd : Z) : option (Z * event N) :=
  match data !! fd with
  | None => None
  | Some d =>
      match pfds !! fd_index d with
      | None => None
      | Some pf => if is_empty (pfd_revents pf) then None
                   else Some (fd, poll_to_event (fd_key d) (pfd_revents pf))
      end
  end.

(** What the loop does to the table. *)
Fixpoint clear_all (order : list Z) (data : gmap Z fddata) (pfds : list pollfd) : list pollfd :=
  match order with
  | [] => pfds
  | fd :: rest =>
      clear_all rest data
        match data !! fd with
        | None => pfds
        | Some d =>
            match pfds !! fd_index d with
            | None => pfds
            | Some pf =>
                if is_empty (pfd_revents pf) then pfds
                else if fd_remove d then <[fd_index d := new_pollfd (pfd_fd pf) 0]> pfds else pfds
            end
        end
  end.

Definition index_inj_on (data : gmap Z fddata) : Prop :=
  forall fd1 fd2 d1 d2, data !! fd1 = Some d1 -> data !! fd2 = Some d2 ->
    fd_index d1 = fd_index d2 -> fd1 = fd2.

Lemma ev_of_insert data pfds fd d pf fd' :
  index_inj_on data -> data !! fd = Some d -> fd' <> fd ->
  ev_of data (<[fd_index d := pf]> pfds) fd' = ev_of data pfds fd'.
Proof.
  intros Hi Hd Hne. unfold ev_of. destruct (data !! fd') as [d'|] eqn:E; [|done].
  rewrite list_lookup_insert_ne; [done|]. intros Ei. apply Hne. eapply Hi; eauto.
Qed.

Lemma omap_ext_in {A B} (f g : A -> option B) (l : list A) :
  (forall x, x ∈ l -> f x = g x) -> omap f l = omap g l.
Proof.
  induction l as [|x l IH]; intros H; [done|]. cbn. rewrite (H x) by left.
  rewrite IH by (intros y Hy; apply H; by right). done.
Qed.

Lemma omap_cons_eq {A B} (f : A -> option B) (x : A) (l : list A) :
  omap f (x :: l) = match f x with Some y => y :: omap f l | None => omap f l end.
Proof. done. Qed.

Lemma clear_nil data pfds order :
  omap (ev_of data pfds) order = [] -> clear_all order data pfds = pfds.
Proof.
  induction order as [|fd order IH]; intros H; [done|]. simpl.
  cbn in H. unfold ev_of in H at 1. destruct (data !! fd) as [d|]; [|auto].
  destruct (pfds !! fd_index d) as [pf|]; [|auto].
  destruct (is_empty (pfd_revents pf)); [auto|done].
Qed.

Lemma store_spec order data num : forall pfds acc,
  index_inj_on data ->
  (forall fd d, data !! fd = Some d -> is_Some (pfds !! fd_index d)) ->
  NoDup order ->
  length acc + length (omap (ev_of data pfds) order) = num ->
  store_events order num data pfds acc
    = Some (clear_all order data pfds, acc ++ omap (ev_of data pfds) order).
Proof.
  induction order as [|fd order IH]; intros pfds acc Hinj Hrng Hnd Hlen.
  - simpl. by rewrite app_nil_r.
  - apply NoDup_cons in Hnd as [Hnot Hnd]. rewrite omap_cons_eq in Hlen |- *. cbn [store_events clear_all].
    unfold ev_of at 1. unfold ev_of in Hlen at 1.
    destruct (data !! fd) as [d|] eqn:Hd.
    2:{ apply IH; auto. }
    destruct (Hrng _ _ Hd) as [pf Hp]. rewrite Hp in *.
    destruct (is_empty (pfd_revents pf)) eqn:Er.
    { apply IH; auto. }
    set (pfds' := if fd_remove d then <[fd_index d := new_pollfd (pfd_fd pf) 0]> pfds else pfds).
    assert (Hext : omap (ev_of data pfds') order = omap (ev_of data pfds) order).
    { unfold pfds'. destruct (fd_remove d); [|done]. apply omap_ext_in. intros x Hx.
      eapply ev_of_insert; eauto. intros ->. done. }
    cbn [length] in Hlen.
    case_decide as Hdec.
    + rewrite app_length in Hdec. simpl in Hdec.
      assert (Hz : omap (ev_of data pfds) order = []).
      { destruct (omap (ev_of data pfds) order) eqn:E; [done|]. simpl in Hlen. lia. }
      rewrite clear_nil by (by rewrite Hext).
      rewrite Hz. done.
    + rewrite IH; auto.
      * rewrite Hext, <-(assoc_L (++)). done.
      * unfold pfds'. intros fd' d' Hd'. destruct (fd_remove d); [|eauto].
        destruct (decide (fd_index d = fd_index d')) as [->|Hne'].
        -- rewrite list_lookup_insert; [eauto|]. apply lookup_lt_is_Some. eauto.
        -- rewrite list_lookup_insert_ne by done. eauto.
      * rewrite Hext, app_length. cbn [length]. lia.
Qed.

(** Which entries the loop disarms. *)
Definition hit (data : gmap Z fddata) (order : list Z) (i : nat) (pf : pollfd) : bool :=
  bool_decide (pfd_fd pf ∈ order) && negb (is_empty (pfd_revents pf)) &&
  match data !! pfd_fd pf with
  | Some d => bool_decide (fd_index d = i) && fd_remove d
  | None => false
  end.

Lemma clear_lookup order data : forall pfds,
  index_inj_on data -> NoDup order ->
  (forall fd d, data !! fd = Some d -> exists pf, pfds !! fd_index d = Some pf /\ pfd_fd pf = fd) ->
  forall i pf, pfds !! i = Some pf ->
  clear_all order data pfds !! i =
    Some (if hit data order i pf then new_pollfd (pfd_fd pf) 0 else pf).
Proof.
  induction order as [|fd order IH]; intros pfds Hinj Hnd Hrng i pf Hp; [done|].
  apply NoDup_cons in Hnd as [Hnot Hnd]. simpl.
  destruct (data !! fd) as [d|] eqn:Hd.
  2:{ rewrite (IH pfds Hinj Hnd Hrng i pf Hp). f_equal. unfold hit.
      destruct (data !! pfd_fd pf) as [d'|] eqn:E; [|by rewrite !andb_false_r].
      assert (pfd_fd pf <> fd) by congruence.
      rewrite (bool_decide_ext (pfd_fd pf ∈ fd :: order) (pfd_fd pf ∈ order)) by set_solver. done. }
  destruct (Hrng _ _ Hd) as (pfx & Hpx & Hfx). rewrite Hpx.
  assert (Hnohit : forall pf', pfd_fd pf' <> fd -> hit data (fd :: order) i pf' = hit data order i pf').
  { intros pf' Hne. unfold hit.
    rewrite (bool_decide_ext (pfd_fd pf' ∈ fd :: order) (pfd_fd pf' ∈ order)) by set_solver. done. }
  destruct (is_empty (pfd_revents pfx)) eqn:Er.
  { rewrite (IH pfds Hinj Hnd Hrng i pf Hp). f_equal.
    destruct (decide (pfd_fd pf = fd)) as [E|Hne]; [|by rewrite Hnohit].
    unfold hit. rewrite E, Hd. destruct (decide (fd_index d = i)) as [Ei|Hni].
    - rewrite <-Ei, Hpx in Hp. injection Hp as ->. rewrite Er. simpl. by rewrite !andb_false_r.
    - rewrite (bool_decide_false (fd_index d = i)) by done. simpl. by rewrite !andb_false_r. }
  destruct (fd_remove d) eqn:Erm.
  - assert (Hrng' : forall fd0 d0, data !! fd0 = Some d0 -> exists pf0,
      <[fd_index d := new_pollfd (pfd_fd pfx) 0]> pfds !! fd_index d0 = Some pf0 /\ pfd_fd pf0 = fd0).
    { intros fd0 d0 Hd0. destruct (decide (fd_index d = fd_index d0)) as [E|Hne].
      - assert (fd = fd0) as <- by (eapply Hinj; eauto). rewrite E.
        rewrite list_lookup_insert; [by eexists|]. rewrite <-E. by eapply lookup_lt_Some.
      - rewrite list_lookup_insert_ne by done. eauto. }
    destruct (decide (fd_index d = i)) as [Ei|Hni].
    + rewrite <-Ei, Hpx in Hp. injection Hp as <-.
      rewrite (IH _ Hinj Hnd Hrng' i (new_pollfd (pfd_fd pfx) 0)).
      * f_equal. unfold hit at 1. simpl. rewrite andb_false_r. simpl.
        unfold hit. rewrite Hfx, Hd, Er, Erm, (bool_decide_true (fd_index d = i)) by done.
        rewrite bool_decide_true by left. done.
      * rewrite Ei. apply list_lookup_insert. rewrite <-Ei. by eapply lookup_lt_Some.
    + rewrite (IH _ Hinj Hnd Hrng' i pf) by (by rewrite list_lookup_insert_ne).
      f_equal. destruct (decide (pfd_fd pf = fd)) as [E|Hne]; [|by rewrite Hnohit].
      unfold hit. rewrite E, Hd. rewrite (bool_decide_false (fd_index d = i)) by done.
      simpl. by rewrite !andb_false_r.
  - rewrite (IH pfds Hinj Hnd Hrng i pf Hp). f_equal.
    destruct (decide (pfd_fd pf = fd)) as [E|Hne]; [|by rewrite Hnohit].
    unfold hit. rewrite E, Hd, Erm. by rewrite !andb_false_r.
Qed.

(** *** counting *)
Lemma kernel_write_revents pfds rs :
  length rs = length pfds -> map pfd_revents (kernel_write pfds rs) = rs.
Proof.
  revert rs. induction pfds as [|pf pfds IH]; intros [|r rs] H; simpl in *; try lia; [done|].
  f_equal. apply IH. lia.
Qed.

Lemma tail_split o s :
  wf o s -> exists pf0 tl, poll_fds s = pf0 :: tl /\ pfd_fd pf0 = own_poll o /\ NoDup (map pfd_fd tl) /\
    (forall fd, fd ∈ map pfd_fd tl <-> is_Some (fd_data s !! fd)).
Proof.
  intros Hw. destruct (wf_head _ _ Hw) as (pf0 & Hp & Hf & _).
  destruct (poll_fds s) as [|x tl] eqn:E; [done|]. simpl in Hp. injection Hp as ->.
  exists pf0, tl. split; [done|]. split; [done|]. split.
  - apply NoDup_alt. intros i j fd Hi Hj. rewrite list_lookup_fmap in Hi, Hj.
    destruct (tl !! i) as [pi|] eqn:Ei; [|done]. destruct (tl !! j) as [pj|] eqn:Ej; [|done].
    simpl in *. simplify_eq.
    destruct (wf_tab _ _ Hw (S i) pi) as (d & Hd & Hx); [lia|by rewrite E|].
    destruct (wf_tab _ _ Hw (S j) pj) as (d' & Hd' & Hx'); [lia|by rewrite E|].
    congruence.
  - intros fd. rewrite elem_of_list_fmap. split.
    + intros (pf & -> & Hin). apply elem_of_list_lookup in Hin as [i Hi].
      destruct (wf_tab _ _ Hw (S i) pf) as (d & Hd & _); [lia|by rewrite E|]. eauto.
    + intros [d Hd]. destruct (wf_data _ _ Hw _ _ Hd) as (Hi & pf & Hp' & Hfd).
      exists pf. split; [done|]. rewrite E in Hp'. destruct (fd_index d) as [|i]; [lia|].
      apply elem_of_list_lookup. by exists i.
Qed.

Lemma omap_length_filter {A B} (f : A -> option B) (l : list A) :
  length (omap f l) = length (List.filter (fun x => match f x with Some _ => true | None => false end) l).
Proof.
  induction l as [|x l IH]; [done|]. cbn. destruct (f x); simpl; rewrite <-IH; done.
Qed.

Lemma filter_length_perm {A} (f : A -> bool) l l' :
  l ≡ₚ l' -> length (List.filter f l) = length (List.filter f l').
Proof.
  induction 1 as [|x l l' H IH|x y l|l l' l'' H1 IH1 H2 IH2]; simpl; try done.
  - destruct (f x); simpl; lia.
  - destruct (f x), (f y); done.
  - lia.
Qed.

Lemma filter_map_length {A B} (f : A -> bool) (g : B -> A) l :
  length (List.filter f (map g l)) = length (List.filter (fun x => f (g x)) l).
Proof. induction l as [|x l IH]; [done|]. simpl. destruct (f (g x)); simpl; lia. Qed.

Lemma filter_ext_length {A} (f g : A -> bool) l :
  (forall x, x ∈ l -> f x = g x) -> length (List.filter f l) = length (List.filter g l).
Proof.
  induction l as [|x l IH]; intros H; [done|]. simpl. rewrite (H x) by left.
  assert (E : length (List.filter f l) = length (List.filter g l))
    by (apply IH; intros y Hy; apply H; by right).
  destruct (g x); simpl; lia.
Qed.

Lemma event_count o s order :
  wf o s -> hash_order s order ->
  forall pf0 tl, poll_fds s = pf0 :: tl ->
  length (omap (ev_of (fd_data s) (poll_fds s)) order)
    = length (List.filter nonzero (map pfd_revents tl)).
Proof.
  intros Hw [Hnd Hin] pf0 tl E.
  destruct (tail_split o s Hw) as (pf0' & tl' & E' & _ & Hnd' & Hin'). rewrite E in E'. simplify_eq.
  rewrite omap_length_filter.
  rewrite (filter_length_perm _ order (map pfd_fd tl')).
  2:{ apply NoDup_Permutation; [done|done|]. intros fd. rewrite Hin, Hin'. done. }
  rewrite !filter_map_length. apply filter_ext_length. intros pf Hpf.
  apply elem_of_list_lookup in Hpf as [i Hi].
  destruct (wf_tab _ _ Hw (S i) pf) as (d & Hd & Hx); [lia|by rewrite E|].
  unfold ev_of. rewrite Hd, Hx, E. simpl. rewrite Hi. unfold nonzero, is_empty.
  by destruct (pfd_revents pf =? 0)%N.
Qed.

(** *** one turn of wait *)
Lemma wf_index_inj o s : wf o s -> index_inj_on (fd_data s).
Proof. intros Hw fd1 fd2 d1 d2. apply (index_inj o s); done. Qed.

Lemma clear_all_wf o s order :
  wf o s -> NoDup order -> wf o (Fds (clear_all order (fd_data s) (poll_fds s)) (fd_data s)).
Proof.
  intros Hw Hnd.
  pose proof (wf_index_inj _ _ Hw) as Hinj.
  assert (Hrng : forall fd d, fd_data s !! fd = Some d ->
    exists pf, poll_fds s !! fd_index d = Some pf /\ pfd_fd pf = fd).
  { intros fd d Hd. destruct (wf_data _ _ Hw _ _ Hd) as (_ & pf & Hp & Hf). eauto. }
  pose proof (clear_lookup order (fd_data s) (poll_fds s) Hinj Hnd Hrng) as Hcl.
  assert (Hback : forall i pf, clear_all order (fd_data s) (poll_fds s) !! i = Some pf ->
    exists pf0, poll_fds s !! i = Some pf0 /\ pfd_fd pf = pfd_fd pf0).
  { intros i pf Hp.
    assert (Hlen : length (clear_all order (fd_data s) (poll_fds s)) = length (poll_fds s)).
    { clear. generalize (poll_fds s). induction order as [|fd order IH]; intros l; [done|]. simpl.
      rewrite IH. destruct (fd_data s !! fd) as [d|]; [|done].
      destruct (l !! fd_index d); [|done]. repeat case_match; try done. by rewrite insert_length. }
    destruct (lookup_lt_is_Some_2 (poll_fds s) i) as [pf0 Hp0].
    { rewrite <-Hlen. by eapply lookup_lt_Some. }
    exists pf0. split; [done|]. rewrite (Hcl i pf0 Hp0) in Hp. by case_match; simplify_eq. }
  constructor; simpl.
  - destruct (wf_head _ _ Hw) as (pf & Hp & Hf & He). exists pf. rewrite (Hcl 0 pf Hp).
    assert (hit (fd_data s) order 0 pf = false) as ->.
    { unfold hit. destruct (fd_data s !! pfd_fd pf) as [d|] eqn:Hd; [|by rewrite andb_false_r].
      destruct (wf_data _ _ Hw _ _ Hd) as (Hi & _).
      rewrite (bool_decide_false (fd_index d = 0)) by lia. by rewrite andb_false_r. }
    done.
  - intros fd d Hd. destruct (wf_data _ _ Hw _ _ Hd) as (Hi & pf & Hp & Hf). split; [done|].
    rewrite (Hcl _ _ Hp). eexists. split; [done|]. by case_match.
  - intros i pf Hi Hp. destruct (Hback _ _ Hp) as (pf0 & Hp0 & ->). by apply (wf_tab _ _ Hw).
  - apply (wf_none _ _ Hw).
Qed.

Definition after_kernel (s : fds) (rs : list N) : fds := Fds (kernel_write (poll_fds s) rs) (fd_data s).

Lemma turn_cases o s rs num flag order t s' :
  wf o s -> posix_answer s (PollRet rs num) -> hash_order s order ->
  poll_turn s (PollRet rs num) flag order = (t, s') ->
  let s1 := after_kernel s rs in
  let evs := omap (ev_of (fd_data s) (poll_fds s1)) order in
  (t = TAgain /\ s' = s1 /\ evs = [] /\ flag = false /\
     exists f, rs !! 0 = Some f /\ f <> 0%N) \/
  (t = TDone evs /\ s' = Fds (clear_all order (fd_data s) (poll_fds s1)) (fd_data s) /\
     (flag = true \/ evs <> [] \/ rs !! 0 = Some 0%N)).
Proof.
  intros Hw [Hlen Hnum] Hord Ht s1 evs.
  assert (Hw1 : wf o s1) by (apply kernel_write_wf; done).
  destruct (tail_split o s1 Hw1) as (pf0 & tl & E & _ & _ & _).
  assert (Hcount : length evs = length (List.filter nonzero (map pfd_revents tl))).
  { apply (event_count o s1 order Hw1) with (pf0 := pf0); done. }
  assert (Hrs : rs = pfd_revents pf0 :: map pfd_revents tl).
  { rewrite <-(kernel_write_revents (poll_fds s) rs Hlen).
    change (kernel_write (poll_fds s) rs) with (poll_fds s1). by rewrite E. }
  assert (Hnum' : num = (if nonzero (pfd_revents pf0) then 1 else 0) + length evs).
  { rewrite Hnum, Hcount, Hrs. cbn [List.filter]. destruct (nonzero (pfd_revents pf0)); done. }
  assert (Hstore : evs <> [] -> store_events order (length evs) (fd_data s) (poll_fds s1) []
      = Some (clear_all order (fd_data s) (poll_fds s1), evs)).
  { intros _. rewrite store_spec with (num := length evs); try done.
    - apply (wf_index_inj o s1 Hw1).
    - intros fd d Hd. destruct (wf_data _ _ Hw1 _ _ Hd) as (_ & pf & Hp & _). eauto.
    - by destruct Hord. }
  assert (Hclr : evs = [] -> clear_all order (fd_data s) (poll_fds s1) = poll_fds s1).
  { intros He. apply clear_nil. exact He. }
  unfold poll_turn in Ht. change (kernel_write (poll_fds s) rs) with (poll_fds s1) in Ht.
  rewrite E in Ht at 1. cbn [lookup list_lookup] in Ht.
  assert (Hz : is_empty (pfd_revents pf0) = negb (nonzero (pfd_revents pf0))).
  { unfold nonzero, is_empty. by rewrite negb_involutive. }
  rewrite Hz, negb_involutive in Ht.
  destruct (nonzero (pfd_revents pf0)) eqn:Ez; cbn [andb negb] in Ht.
  - rewrite (bool_decide_false (num = 0)) in Ht by lia.
    replace (num - 1) with (length evs) in Ht by lia.
    destruct (decide (length evs = 0)) as [El|El].
    + apply nil_length_inv in El. rewrite bool_decide_true in Ht by (by rewrite El).
      destruct flag; cbn [negb andb] in Ht.
      * injection Ht as <- <-. right. rewrite El. split; [done|]. split; [|by left].
        by rewrite Hclr.
      * injection Ht as <- <-. left. repeat split; try done.
        exists (pfd_revents pf0). rewrite Hrs. split; [done|]. unfold nonzero in Ez.
        destruct (N.eqb_spec (pfd_revents pf0) 0); done.
    + rewrite bool_decide_false in Ht by done. rewrite andb_false_r in Ht. cbn [andb] in Ht.
      assert (Hne : evs <> []) by (intros ->; done).
      rewrite (Hstore Hne) in Ht. injection Ht as <- <-. right. split; [done|]. split; [done|].
      right. by left.
  - replace num with (length evs) in Ht by lia.
    destruct (decide (length evs = 0)) as [El|El].
    + apply nil_length_inv in El. rewrite bool_decide_true in Ht by (by rewrite El).
      rewrite andb_false_r in Ht. injection Ht as <- <-. right. rewrite El. split; [done|].
      split; [by rewrite Hclr|]. right; right. rewrite Hrs. unfold nonzero in Ez. simpl.
      destruct (N.eqb_spec (pfd_revents pf0) 0) as [->|]; done.
    + rewrite bool_decide_false in Ht by done. rewrite andb_false_r in Ht.
      assert (Hne : evs <> []) by (intros ->; done).
      rewrite (Hstore Hne) in Ht. injection Ht as <- <-. right. split; [done|]. split; [done|].
      right. by left.
Qed.

Lemma turn_wf o s ans flag order t s' :
  wf o s -> posix_answer s ans -> hash_order s order ->
  poll_turn s ans flag order = (t, s') -> t <> TPanic /\ wf o s'.
Proof.
  intros Hw Ha Ho Ht. destruct ans as [e|rs num].
  - simpl in Ht. by simplify_eq.
  - assert (Hw1 : wf o (after_kernel s rs)) by (apply kernel_write_wf; [done|]; by destruct Ha).
    destruct (turn_cases o s rs num flag order t s' Hw Ha Ho Ht) as
      [(-> & -> & _)|(-> & -> & _)]; [done|]. split; [done|].
    destruct Ho as [Hnd _]. apply (clear_all_wf o (after_kernel s rs) order Hw1 Hnd).
Qed.

Lemma reachable_wf o s : reachable o s -> wf o s.
Proof.
  induction 1 as [|s c Hr IH|s ans flag order Hr IH Ha Ho].
  - apply wf_new.
  - destruct (do_call o s c) as [r s'] eqn:E. by destruct (call_wf o s c r s' IH E).
  - destruct (poll_turn s ans flag order) as [t s'] eqn:E.
    by destruct (turn_wf o s ans flag order t s' IH Ha Ho E).
Qed.

(** *** registrations *)
Lemma registered_iff o s fd r :
  wf o s -> registered s fd r <->
  exists d pf, fd_data s !! fd = Some d /\ poll_fds s !! fd_index d = Some pf /\
    r = Reg (fd_key d) (pfd_events pf) (fd_remove d).
Proof.
  intros Hw. split.
  - intros (d & pf & Hd & Hp & _ & ->). by exists d, pf.
  - intros (d & pf & Hd & Hp & ->). exists d, pf. repeat split; try done.
    destruct (wf_data _ _ Hw _ _ Hd) as (_ & pf' & Hp' & Hf). congruence.
Qed.

Lemma is_registered_iff o s fd : wf o s -> is_registered s fd <-> is_Some (fd_data s !! fd).
Proof.
  intros Hw. split.
  - intros (r & d & pf & Hd & _). eauto.
  - intros [d Hd]. destruct (wf_data _ _ Hw _ _ Hd) as (_ & pf & Hp & Hf).
    eexists. exists d, pf. done.
Qed.

Lemma registered_fun s fd r1 r2 : registered s fd r1 -> registered s fd r2 -> r1 = r2.
Proof.
  intros (d1 & p1 & H1 & H1' & _ & ->) (d2 & p2 & H2 & H2' & _ & ->). congruence.
Qed.

Lemma same_reg_intro o s s' fd :
  wf o s -> wf o s' ->
  (forall d, fd_data s !! fd = Some d -> exists d' pf pf',
     fd_data s' !! fd = Some d' /\ poll_fds s !! fd_index d = Some pf /\
     poll_fds s' !! fd_index d' = Some pf' /\ fd_key d' = fd_key d /\ fd_remove d' = fd_remove d /\
     pfd_events pf' = pfd_events pf) ->
  (fd_data s !! fd = None -> fd_data s' !! fd = None) ->
  same_reg s s' fd.
Proof.
  intros Hw Hw' H1 H2 r. rewrite !(registered_iff o) by done.
  destruct (fd_data s !! fd) as [d|] eqn:Hd.
  - destruct (H1 d eq_refl) as (d' & pf & pf' & Hd' & Hp & Hp' & Hk & Hr & He). split.
    + intros (d0 & pf0 & E & Ep & ->). simplify_eq. exists d', pf'. rewrite Hk, Hr, He. done.
    + intros (d0 & pf0 & E & Ep & ->). simplify_eq. exists d, pf. rewrite Hk, Hr, He. done.
  - rewrite (H2 eq_refl). split; intros (d0 & pf0 & E & _); done.
Qed.

Lemma add_effect o s fd ev mode s' :
  wf o s -> poll_add o s fd ev mode = (Ok tt, s') ->
  (forall r, registered s' fd r <-> r = Reg (ev_key ev) (poll_events ev) (match mode with Oneshot => true | _ => false end)) /\
  (forall fd', fd' <> fd -> same_reg s s' fd').
Proof.
  intros Hw H. destruct (add_wf _ _ _ _ _ _ _ Hw H) as [_ Hw'].
  unfold poll_add in H. destruct (has_fd o fd) eqn:Hh; [done|]. unfold add_fds in H.
  destruct (fd_data s !! fd) as [d|] eqn:Hd; [done|].
  assert (Hrm : cvt_mode_as_remove mode = Ok (match mode with Oneshot => true | _ => false end))
    by (by destruct mode). rewrite Hrm in H. injection H as <-. split.
  - intros r. rewrite (registered_iff o) by done. simpl. rewrite lookup_insert. split.
    + intros (d & pf & E & Ep & ->). simplify_eq. simpl in Ep.
      rewrite lookup_app_r, Nat.sub_diag in Ep by lia. simpl in Ep. by simplify_eq.
    + intros ->. eexists _, _. split; [done|]. simpl. rewrite lookup_app_r, Nat.sub_diag by lia.
      simpl. done.
  - intros fd' Hne. apply (same_reg_intro o); [done|done| |]; simpl; rewrite lookup_insert_ne by done; [|done].
    intros d' Hd'. destruct (wf_data _ _ Hw _ _ Hd') as (_ & pf & Hp & _). exists d', pf, pf.
    repeat split; try done. rewrite lookup_app_l; [done|]. by eapply lookup_lt_Some.
Qed.

Lemma update_effect o s fd d k rm ev :
  wf o s -> fd_data s !! fd = Some d ->
  let s' := Fds (<[fd_index d := new_pollfd fd ev]> (poll_fds s))
            (<[fd := FdData (fd_index d) k rm]> (fd_data s)) in
  (forall r, registered s' fd r <-> r = Reg k ev rm) /\
  (forall fd', fd' <> fd -> same_reg s s' fd').
Proof.
  intros Hw Hd s'. pose proof (wf_update o s fd d k rm ev Hw Hd) as Hw'. fold s' in Hw'.
  destruct (wf_data _ _ Hw _ _ Hd) as (_ & pf0 & Hp0 & _).
  pose proof (lookup_lt_Some _ _ _ Hp0) as Hlt. split.
  - intros r. rewrite (registered_iff o) by done. simpl. rewrite lookup_insert. split.
    + intros (d' & pf & E & Ep & ->). simplify_eq. simpl in Ep.
      rewrite list_lookup_insert in Ep by done. by simplify_eq.
    + intros ->. eexists _, _. split; [done|]. simpl. rewrite list_lookup_insert by done. done.
  - intros fd' Hne. apply (same_reg_intro o); [done|done| |]; simpl; rewrite lookup_insert_ne by done; [|done].
    intros d' Hd'. destruct (wf_data _ _ Hw _ _ Hd') as (_ & pf & Hp & _). exists d', pf, pf.
    repeat split; try done. rewrite list_lookup_insert_ne; [done|].
    intros E. apply Hne. symmetry. by apply (index_inj o s fd fd' d d').
Qed.

Lemma modify_effect o s fd ev mode s' :
  wf o s -> poll_modify o s fd ev mode = (Ok tt, s') ->
  (forall r, registered s' fd r <-> r = Reg (ev_key ev) (poll_events ev) (match mode with Oneshot => true | _ => false end)) /\
  (forall fd', fd' <> fd -> same_reg s s' fd').
Proof.
  intros Hw H. destruct (has_fd o fd) eqn:Hh.
  { unfold poll_modify in H. rewrite Hh in H. done. }
  destruct (fd_data s !! fd) as [d|] eqn:Hd.
  2:{ unfold poll_modify, modify_fds_entry in H. rewrite Hh, Hd in H. done. }
  destruct (modify_shape o s fd ev mode Hw Hh d Hd) as (rm & E & Erm). rewrite E in H.
  injection H as Hr <-. assert (rm = match mode with Oneshot => true | _ => false end) as ->.
  { by destruct mode. }
  by apply (update_effect o).
Qed.

Lemma delete_effect o s fd s' :
  wf o s -> poll_delete o s fd = (Ok tt, s') ->
  ~ is_registered s' fd /\ (forall fd', fd' <> fd -> same_reg s s' fd').
Proof.
  intros Hw H. destruct (delete_wf _ _ _ _ _ Hw H) as [_ Hw'].
  destruct (has_fd o fd) eqn:Hh.
  { unfold poll_delete in H. rewrite Hh in H. done. }
  destruct (fd_data s !! fd) as [d|] eqn:Hd.
  2:{ unfold poll_delete, delete_fds in H. rewrite Hh, Hd in H. done. }
  destruct (wf_data _ _ Hw _ _ Hd) as (_ & pf0 & Hp0 & _).
  pose proof (lookup_lt_Some _ _ _ Hp0) as Hlt0.
  destruct (delete_shape o s fd d Hw Hh Hd) as (l' & El & Hl & [(Hlast & E)|Hcase]).
  - rewrite E in H. injection H as <-. split.
    + rewrite (is_registered_iff o) by done. simpl. rewrite lookup_delete. by intros [? ?].
    + intros fd' Hne. apply (same_reg_intro o); [done|done| |]; simpl; rewrite lookup_delete_ne by done; [|done].
      intros d' Hd'. destruct (wf_data _ _ Hw _ _ Hd') as (_ & pf & Hp & _). exists d', pf, pf.
      repeat split; try done. rewrite Hl. pose proof (lookup_lt_Some _ _ _ Hp).
      assert (fd_index d' <> fd_index d) by (intros E'; apply Hne; by apply (index_inj o s fd' fd d' d)).
      rewrite decide_True, decide_False by lia. done.
  - destruct Hcase as (fd2 & d2 & pf2 & Hnl & Hne2 & Hd2 & Hx2 & E2 & Hf2 & E).
    rewrite E in H. injection H as <-. split.
    + rewrite (is_registered_iff o) by done. simpl. rewrite lookup_insert_ne by done.
      rewrite lookup_delete. by intros [? ?].
    + intros fd' Hne. destruct (decide (fd' = fd2)) as [->|Hne'].
      * apply (same_reg_intro o); [done|done| |]; simpl; rewrite lookup_insert; [|by rewrite Hd2].
        intros d' Hd'. assert (d' = d2) as -> by congruence. exists (FdData (fd_index d) (fd_key d2) (fd_remove d2)), pf2, pf2.
        simpl. rewrite Hl. rewrite !decide_True by lia. repeat split; try done.
        rewrite last_lookup in E2. rewrite <-E2, Hx2. f_equal. lia.
      * apply (same_reg_intro o); [done|done| |]; simpl; rewrite lookup_insert_ne, lookup_delete_ne by done; [|done].
        intros d' Hd'. destruct (wf_data _ _ Hw _ _ Hd') as (_ & pf & Hp & _). exists d', pf, pf.
        repeat split; try done. rewrite Hl. pose proof (lookup_lt_Some _ _ _ Hp).
        assert (fd_index d' <> fd_index d) by (intros E'; apply Hne; by apply (index_inj o s fd' fd d' d)).
        assert (fd_index d' <> fd_index d2) by (intros E'; apply Hne'; by apply (index_inj o s fd' fd2 d' d2)).
        rewrite decide_True, decide_False by lia. done.
Qed.

(** *** what a turn does to registrations and which events it stores *)
Lemma kernel_same_reg o s rs fd :
  wf o s -> length rs = length (poll_fds s) -> same_reg s (after_kernel s rs) fd.
Proof.
  intros Hw Hl. pose proof (kernel_write_wf o s rs Hw Hl) as Hw'.
  apply (same_reg_intro o); [done|done| |done]. intros d Hd.
  destruct (wf_data _ _ Hw _ _ Hd) as (_ & pf & Hp & _).
  destruct (wf_data _ _ Hw' fd d Hd) as (_ & pf' & Hp' & _).
  exists d, pf, pf'. repeat split; try done. simpl in Hp'.
  destruct (kernel_write_some _ _ _ _ Hl Hp') as (pf0 & Hp0 & _ & _ & He). congruence.
Qed.

Lemma returned_iff o s rs fd d f :
  wf o s -> wf_own o -> length rs = length (poll_fds s) -> fd_data s !! fd = Some d ->
  returned s rs fd f <->
  exists pf, poll_fds (after_kernel s rs) !! fd_index d = Some pf /\ pfd_revents pf = f.
Proof.
  intros Hw Ho Hl Hd. split.
  - intros (i & pf & Hp & Hf & Hr). destruct (decide (i = 0)) as [->|Hi].
    + exfalso. destruct (wf_head _ _ Hw) as (pf0 & Hp0 & Hf0 & _). simplify_eq.
      rewrite Hf0 in Hd. rewrite (wf_none _ _ Hw) in Hd; [done|].
      unfold has_fd. by apply bool_decide_eq_true.
    + destruct (wf_tab _ _ Hw i pf ltac:(lia) Hp) as (d' & Hd' & Hx). rewrite Hf, Hd in Hd'.
      simplify_eq. exists (set_revents pf f). split; [|done]. simpl.
      rewrite kernel_write_lookup, Hp, Hr by done. done.
  - intros (pf & Hp & <-). simpl in Hp.
    destruct (kernel_write_some _ _ _ _ Hl Hp) as (pf0 & Hp0 & Hr & Hf & _).
    exists (fd_index d), pf0. split; [done|]. split; [|done].
    destruct (wf_data _ _ Hw _ _ Hd) as (_ & pf1 & Hp1 & Hf1). congruence.
Qed.

Lemma ev_of_iff o s rs fd x e :
  wf o s -> wf_own o -> length rs = length (poll_fds s) ->
  ev_of (fd_data s) (poll_fds (after_kernel s rs)) fd = Some (x, e) <->
  x = fd /\ exists r f, registered s fd r /\ returned s rs fd f /\ f <> 0%N /\
    e = poll_to_event (reg_key r) f.
Proof.
  intros Hw Ho Hl. pose proof (kernel_write_wf o s rs Hw Hl) as Hw'.
  unfold ev_of. destruct (fd_data s !! fd) as [d|] eqn:Hd.
  - destruct (wf_data _ _ Hw' fd d Hd) as (_ & pf' & Hp' & _).
    unfold after_kernel at 1. rewrite Hp'. split.
    + unfold is_empty. destruct (N.eqb_spec (pfd_revents pf') 0) as [|Hz]; [done|]. intros H.
      simplify_eq. split; [done|].
      destruct (wf_data _ _ Hw _ _ Hd) as (_ & pf & Hp & Hf).
      eexists _, (pfd_revents pf'). split; [exists d, pf; done|]. split; [|done].
      apply (returned_iff o s rs _ d); try done. exists pf'. done.
    + intros (-> & r & f & (d' & pf & Hd' & Hp & _ & ->) & Hret & Hz & ->). assert (d' = d) as -> by congruence.
      apply (returned_iff o s rs _ d) in Hret as (pf'' & Hp'' & <-); try done.
      simpl in Hp'', Hp'. rewrite Hp' in Hp''. injection Hp'' as <-.
      unfold is_empty. destruct (N.eqb_spec (pfd_revents pf') 0); done.
  - split; [done|]. intros (_ & r & f & (d' & pf & Hd' & _) & _). congruence.
Qed.

Lemma omap_fst_sub (f : Z -> option (Z * event N)) l :
  (forall fd x e, f fd = Some (x, e) -> x = fd) -> NoDup l -> NoDup (map fst (omap f l)).
Proof.
  intros Hf. induction l as [|fd l IH]; intros Hnd; [constructor|].
  apply NoDup_cons in Hnd as [Hn Hnd]. rewrite omap_cons_eq.
  destruct (f fd) as [[x e]|] eqn:E; [|by apply IH]. simpl.
  apply NoDup_cons. split; [|by apply IH]. rewrite elem_of_list_fmap.
  intros ([y e'] & Hy & Hin). simpl in Hy. subst y. apply elem_of_list_omap in Hin as (fd' & Hin & Hf').
  rewrite (Hf _ _ _ E) in Hf'. rewrite <-(Hf _ _ _ Hf') in Hin. done.
Qed.

Lemma turn_events o s rs num flag order evs s' :
  wf o s -> wf_own o -> posix_answer s (PollRet rs num) -> hash_order s order ->
  poll_turn s (PollRet rs num) flag order = (TDone evs, s') ->
  NoDup (map fst evs) /\
  (forall fd e, (fd, e) ∈ evs <-> exists r f, registered s fd r /\ returned s rs fd f /\ f <> 0%N /\
      e = poll_to_event (reg_key r) f).
Proof.
  intros Hw Ho Ha Hord Ht. pose proof Ha as [Hl _].
  destruct (turn_cases o s rs num flag order _ s' Hw Ha Hord Ht) as [(? & _)|(E & _ & _)]; [done|].
  simplify_eq. destruct Hord as [Hnd Hin]. split.
  - apply omap_fst_sub; [|done]. intros fd x e H. apply (ev_of_iff o) in H; try done. tauto.
  - intros fd e. rewrite elem_of_list_omap. split.
    + intros (fd' & Hin' & H). apply (ev_of_iff o) in H; try done.
      destruct H as (-> & r & f & H). eauto.
    + intros (r & f & H). exists fd. split.
      * apply Hin. destruct H as ((d & pf & Hd & _) & _). eauto.
      * apply (ev_of_iff o); try done. split; [done|]. eauto.
Qed.

Lemma turn_regs o s rs num flag order t s' :
  wf o s -> wf_own o -> posix_answer s (PollRet rs num) -> hash_order s order ->
  poll_turn s (PollRet rs num) flag order = (t, s') ->
  forall fd r', registered s' fd r' <-> exists r, registered s fd r /\
    ((reg_oneshot r = true /\ (exists f, returned s rs fd f /\ f <> 0%N) /\
        r' = Reg (reg_key r) 0 true) \/
     ((reg_oneshot r = false \/ returned s rs fd 0%N) /\ r' = r)).
Proof.
  intros Hw Ho Ha Hord Ht fd r'. pose proof Ha as [Hl _].
  destruct (turn_wf o s _ flag order t s' Hw Ha Hord Ht) as [_ Hw'].
  pose proof (kernel_write_wf o s rs Hw Hl) as Hw1. fold (after_kernel s rs) in Hw1.
  rewrite (registered_iff o) by done.
  destruct (fd_data s !! fd) as [d|] eqn:Hd.
  2:{ assert (fd_data s' !! fd = None) as Hd'.
      { destruct (turn_cases o s rs num flag order _ s' Hw Ha Hord Ht) as [(_ & -> & _)|(_ & -> & _)]; done. }
      rewrite Hd'. split.
      - intros (d & pf & ? & _). done.
      - intros (r & (d & pf & Hd0 & _) & _). congruence. }
  destruct (wf_data _ _ Hw1 fd d Hd) as (Hidx & pf1 & Hp1 & Hf1).
  destruct (kernel_write_some _ _ _ _ Hl Hp1) as (pf & Hp & Hr & Hf & He).
  assert (Hret : forall f, returned s rs fd f <-> f = pfd_revents pf1).
  { intros f. rewrite (returned_iff o s rs fd d) by done. split.
    - intros (pf' & Hp' & <-). congruence.
    - intros ->. eauto. }
  assert (Hreg : forall r, registered s fd r <-> r = Reg (fd_key d) (pfd_events pf) (fd_remove d)).
  { intros r. rewrite (registered_iff o) by done. split.
    - intros (d' & pf' & Hd' & Hp' & ->). congruence.
    - intros ->. eauto. }
  assert (Hs' : fd_data s' !! fd = Some d /\ poll_fds s' !! fd_index d =
     Some (if fd_remove d && negb (is_empty (pfd_revents pf1)) then new_pollfd fd 0 else pf1)).
  { destruct (turn_cases o s rs num flag order _ s' Hw Ha Hord Ht) as
      [(_ & -> & Hevs & _)|(_ & -> & _)]; (split; [done|]).
    - simpl. simpl in Hp1. rewrite Hp1. destruct (is_empty (pfd_revents pf1)) eqn:Ez.
      + by rewrite andb_false_r.
      + exfalso. assert (Hin : (fd, poll_to_event (fd_key d) (pfd_revents pf1)) ∈
          omap (ev_of (fd_data s) (poll_fds (after_kernel s rs))) order).
        { apply elem_of_list_omap. exists fd. split.
          - destruct Hord as [_ Hin]. apply Hin. eauto.
          - unfold ev_of. rewrite Hd. simpl. rewrite Hp1, Ez. done. }
        rewrite Hevs in Hin. by apply elem_of_nil in Hin.
    - simpl. destruct Hord as [Hnd Hin].
      rewrite (clear_lookup order (fd_data s) (kernel_write (poll_fds s) rs)) with (pf := pf1); try done.
      + f_equal. unfold hit. rewrite Hf1, Hd, (bool_decide_true (fd_index d = fd_index d)) by done.
        rewrite bool_decide_true by (apply Hin; eauto). rewrite !andb_true_l.
        rewrite (andb_comm (fd_remove d)). done.
      + apply (wf_index_inj o s Hw).
      + intros fd0 d0 Hd0. destruct (wf_data _ _ Hw1 fd0 d0 Hd0) as (_ & pf0 & Hp0 & Hf0). eauto. }
  destruct Hs' as (Hd' & Hp'). split.
  - intros (d0 & pf0 & Hd0 & Hp0 & ->). rewrite Hd' in Hd0. injection Hd0 as <-.
    rewrite Hp' in Hp0. injection Hp0 as <-.
    exists (Reg (fd_key d) (pfd_events pf) (fd_remove d)). split; [by apply Hreg|]. simpl.
    unfold is_empty. destruct (fd_remove d) eqn:Erm; simpl.
    + destruct (N.eqb_spec (pfd_revents pf1) 0) as [Ez|Ez]; simpl.
      * right. rewrite He. split; [|done]. right. apply Hret. done.
      * left. split; [done|]. split; [|done]. eexists. split; [by apply Hret|done].
    + right. rewrite He. split; [by left|done].
  - intros (r & Hr0 & Hcase). apply Hreg in Hr0. subst r. simpl in Hcase.
    eexists d, _. split; [done|]. split; [done|].
    unfold is_empty.
    destruct Hcase as [(Erm & (f & Hf0 & Hz) & ->)|(Hor & ->)].
    + apply Hret in Hf0. subst f. rewrite Erm. destruct (N.eqb_spec (pfd_revents pf1) 0); done.
    + destruct Hor as [Erm|Hz].
      * rewrite Erm. simpl. by rewrite He.
      * apply Hret in Hz. rewrite <-Hz. simpl. rewrite andb_false_r. by rewrite He.
Qed.

Lemma has_fd_iff o fd : has_fd o fd = true <-> fd ∈ own_all o.
Proof. unfold has_fd. apply bool_decide_eq_true. Qed.

Lemma outcome_ok o s c : wf o s -> outcome o s c (do_call o s c).1.
Proof.
  intros Hw. destruct (has_fd o (call_fd c)) eqn:Hh.
  { pose proof (proj1 (has_fd_iff _ _) Hh).
    assert ((do_call o s c).1 = Err (ESimple KInvalidInput)) as ->.
    { destruct c; simpl in *; unfold poll_add, poll_modify, poll_delete; by rewrite Hh. }
    by constructor. }
  assert (Hn : call_fd c ∉ own_all o).
  { intros Hin. apply has_fd_iff in Hin. congruence. }
  destruct c as [fd ev m|fd ev m|fd]; simpl in *.
  - unfold poll_add. rewrite Hh. unfold add_fds. destruct (fd_data s !! fd) as [d|] eqn:Hd; simpl.
    + apply out_add_exists; [done|]. apply (is_registered_iff o); eauto.
    + assert (~ is_registered s fd).
      { rewrite (is_registered_iff o) by done. rewrite Hd. by intros [? ?]. }
      destruct m; simpl; [apply out_add|apply out_add|apply out_add_edge|apply out_add_edge];
        try done; unfold edge_mode; try tauto; intros [|]; done.
  - destruct (fd_data s !! fd) as [d|] eqn:Hd; simpl.
    + destruct (modify_shape o s fd ev m Hw Hh d Hd) as (rm & -> & _). simpl.
      assert (is_registered s fd) by (apply (is_registered_iff o); eauto).
      destruct m; simpl; [apply out_modify|apply out_modify|apply out_modify_edge|apply out_modify_edge];
        try done; unfold edge_mode; try tauto; intros [|]; done.
    + unfold poll_modify, modify_fds_entry. rewrite Hh, Hd. apply out_modify_missing; [done|].
      rewrite (is_registered_iff o) by done. rewrite Hd. by intros [? ?].
  - destruct (fd_data s !! fd) as [d|] eqn:Hd; simpl.
    + assert (is_registered s fd) by (apply (is_registered_iff o); eauto).
      destruct (delete_shape o s fd d Hw Hh Hd) as (l' & _ & _ & [(_ & ->)|Hc]).
      * by apply out_delete.
      * destruct Hc as (? & ? & ? & _ & _ & _ & _ & _ & _ & ->). by apply out_delete.
    + unfold poll_delete, delete_fds. rewrite Hh, Hd. apply out_delete_missing; [done|].
      rewrite (is_registered_iff o) by done. rewrite Hd. by intros [? ?].
Qed.

Lemma outcome_fun o s c r1 r2 : outcome o s c r1 -> outcome o s c r2 -> r1 = r2.
Proof. intros H1 H2. destruct H1; inversion H2; simplify_eq/=; try done. Qed.

Lemma outcome_iff o s c r : wf o s -> (do_call o s c).1 = r <-> outcome o s c r.
Proof.
  intros Hw. split; [intros <-; by apply outcome_ok|].
  intros H. eapply outcome_fun; [|exact H]. by apply outcome_ok.
Qed.

Lemma wanted_reg r k ev m :
  r = Reg k (poll_events ev) (match m with Oneshot => true | _ => false end) <->
  reg_key r = k /\ reg_interest r = poll_events ev /\ (reg_oneshot r = true <-> m = Oneshot).
Proof.
  destruct r as [k' i b]. cbn [reg_key reg_interest reg_oneshot]. generalize (poll_events ev). intros n.
  split.
  - intros [= -> -> ->]. split; [done|]. split; [done|]. destruct m; split; done.
  - intros (-> & -> & H). f_equal. destruct b, m; try done; try (by apply H);
      try (by discriminate (proj1 H eq_refl)); by discriminate (proj2 H eq_refl).
Qed.

Lemma call_effect o s c s' :
  wf o s -> do_call o s c = (Ok tt, s') ->
  (forall r, registered s' (call_fd c) r <-> wanted c r) /\
  (forall fd, fd <> call_fd c -> same_reg s s' fd).
Proof.
  intros Hw H. destruct c as [fd ev m|fd ev m|fd]; simpl in *.
  - destruct (add_effect o s fd ev m s' Hw H) as [H1 H2]. split; [|done]. intros r. rewrite H1.
    apply wanted_reg.
  - destruct (modify_effect o s fd ev m s' Hw H) as [H1 H2]. split; [|done]. intros r. rewrite H1.
    apply wanted_reg.
  - destruct (delete_effect o s fd s' Hw H) as [H1 H2]. split; [|done]. intros r. split; [|done].
    intros Hr. apply H1. by exists r.
Qed.

Lemma call_error o s c e s' :
  wf o s -> do_call o s c = (Err e, s') ->
  s' = s \/ (exists fd ev m, c = CModify fd ev m /\ edge_mode m /\ e = ESimple KUnsupported /\
             (forall fd', fd' <> fd -> same_reg s s' fd')).
Proof.
  intros Hw H. destruct c as [fd ev m|fd ev m|fd]; simpl in *.
  - left. unfold poll_add, add_fds in H. destruct (has_fd o fd); [by simplify_eq|].
    destruct (fd_data s !! fd); [by simplify_eq|]. destruct m; simpl in H; by simplify_eq.
  - destruct (has_fd o fd) eqn:Hh.
    { left. unfold poll_modify in H. rewrite Hh in H. by simplify_eq. }
    destruct (fd_data s !! fd) as [d|] eqn:Hd.
    + destruct (modify_shape o s fd ev m Hw Hh d Hd) as (rm & E & _). rewrite E in H.
      injection H as Hr <-. right. exists fd, ev, m. split; [done|].
      assert (edge_mode m /\ e = ESimple KUnsupported) as [? ?].
      { unfold edge_mode. destruct m; simpl in Hr; simplify_eq; auto. }
      split; [done|]. split; [done|]. by apply (update_effect o s fd d).
    + left. unfold poll_modify, modify_fds_entry in H. rewrite Hh, Hd in H. by simplify_eq.
  - left. destruct (has_fd o fd) eqn:Hh.
    { unfold poll_delete in H. rewrite Hh in H. by simplify_eq. }
    destruct (fd_data s !! fd) as [d|] eqn:Hd.
    + destruct (delete_shape o s fd d Hw Hh Hd) as (l' & _ & _ & [(_ & E)|Hc]).
      * rewrite E in H. by simplify_eq.
      * destruct Hc as (? & ? & ? & _ & _ & _ & _ & _ & _ & E). rewrite E in H. by simplify_eq.
    + unfold poll_delete, delete_fds in H. rewrite Hh, Hd in H. by simplify_eq.
Qed.

Lemma call_other o s c fd :
  wf o s -> call_fd c <> fd -> same_reg s (do_call o s c).2 fd.
Proof.
  intros Hw Hne. destruct (do_call o s c) as [r s'] eqn:E.
  destruct r as [[]|e|].
  - apply (call_effect o s c s' Hw E). congruence.
  - destruct (call_error o s c e s' Hw E) as [->|(fd0 & ev & m & -> & _ & _ & H)].
    + intros r. done.
    + apply H. simpl in Hne. congruence.
  - by destruct (call_wf o s c _ s' Hw E).
Qed.

(** *** one-shot *)
Lemma idle_step o s fd r ans flag order :
  wf o s -> wf_own o -> posix_answer s ans -> hash_order s order -> only_requested s fd ans ->
  registered s fd r -> reg_interest r = 0%N ->
  registered (poll_turn s ans flag order).2 fd r /\
  forall evs s', poll_turn s ans flag order = (TDone evs, s') -> forall e, (fd, e) ∉ evs.
Proof.
  intros Hw Ho Ha Hord Hreq Hr Hz. destruct ans as [e|rs num]; [by split|].
  assert (Hret : forall f, returned s rs fd f -> f = 0%N).
  { intros f (i & pf & Hp & Hf & Hrs). pose proof (Hreq i pf f Hp Hf Hrs) as H.
    destruct Hr as (d & pf' & Hd & Hp' & Hf' & ->). simpl in Hz.
    assert (i = fd_index d) as ->.
    { destruct (decide (i = 0)) as [->|Hi].
      - exfalso. destruct (wf_head _ _ Hw) as (pf0 & Hp0 & Hf0 & _).
        assert (pf = pf0) as -> by congruence. rewrite <-Hf, Hf0 in Hd.
        rewrite (wf_none _ _ Hw) in Hd; [done|]. by apply has_fd_iff.
      - destruct (wf_tab _ _ Hw i pf ltac:(lia) Hp) as (d' & Hd' & Hx). congruence. }
    assert (pf' = pf) as -> by congruence. rewrite Hz, N.land_0_r in H. done. }
  assert (Hret0 : returned s rs fd 0%N).
  { destruct Hr as (d & pf & Hd & Hp & Hf & _). pose proof Ha as [Hl _].
    destruct (lookup_lt_is_Some_2 rs (fd_index d)) as [f Hrs].
    { rewrite Hl. by eapply lookup_lt_Some. }
    assert (Hx : returned s rs fd f) by (exists (fd_index d), pf; done).
    rewrite <-(Hret f Hx). done. }
  split.
  - destruct (poll_turn s (PollRet rs num) flag order) as [t s'] eqn:E. simpl.
    apply (turn_regs o s rs num flag order t s' Hw Ho Ha Hord E). exists r.
    split; [done|]. right. split; [by right|done].
  - intros evs s' E e Hin.
    apply (turn_events o s rs num flag order evs s' Hw Ho Ha Hord E) in Hin
      as (r' & f & _ & Hf & Hnz & _). apply Hnz. by apply Hret.
Qed.

Lemma meanwhile_idle o fd s0 s r :
  reachable o s0 -> wf_own o -> registered s0 fd r -> reg_interest r = 0%N ->
  meanwhile o fd s0 s -> reachable o s /\ registered s fd r.
Proof.
  intros Hr0 Ho Hreg Hz. induction 1 as [|s c Hm IH Hne|s ans flag order Hm IH Ha Hord Hreq].
  - done.
  - destruct IH as [Hr Hg]. split; [by constructor|].
    apply (call_other o s c fd); [by apply reachable_wf|done|done].
  - destruct IH as [Hr Hg]. split; [by constructor|].
    apply (idle_step o s fd r ans flag order); try done. by apply reachable_wf.
Qed.

Lemma oneshot_once o s fd r e rs num flag order evs s0 ans flag' order' evs' s' :
  reachable o s -> wf_own o -> registered s fd r -> reg_oneshot r = true ->
  posix_answer s (PollRet rs num) -> hash_order s order ->
  poll_turn s (PollRet rs num) flag order = (TDone evs, s0) -> (fd, e) ∈ evs ->
  forall s1, meanwhile o fd s0 s1 ->
  posix_answer s1 ans -> hash_order s1 order' -> only_requested s1 fd ans ->
  poll_turn s1 ans flag' order' = (TDone evs', s') ->
  forall e', (fd, e') ∉ evs'.
Proof.
  intros Hr Ho Hreg Hos Ha Hord Ht Hin s1 Hm Ha1 Hord1 Hreq Ht1.
  pose proof (reachable_wf o s Hr) as Hw.
  assert (Hr0 : reachable o s0).
  { replace s0 with (poll_turn s (PollRet rs num) flag order).2 by (by rewrite Ht).
    by constructor. }
  apply (turn_events o s rs num flag order evs s0 Hw Ho Ha Hord Ht) in Hin
      as (r' & f & Hreg' & Hf & Hnz & _).
  assert (Hreg0 : registered s0 fd (Reg (reg_key r) 0 true)).
  { apply (turn_regs o s rs num flag order _ s0 Hw Ho Ha Hord Ht). exists r. split; [done|].
    left. split; [done|]. split; [eauto|done]. }
  destruct (meanwhile_idle o fd s0 s1 _ Hr0 Ho Hreg0 eq_refl Hm) as [Hr1 Hreg1].
  destruct (idle_step o s1 fd _ ans flag' order' (reachable_wf o s1 Hr1) Ho Ha1 Hord1 Hreq Hreg1 eq_refl)
    as [_ H]. by apply (H evs' s').
Qed.

(** *** timeouts *)
Lemma timeouts_prefix dl : forall evs s,
  exists k, pw_timeouts (poll_wait_loop dl evs s) = map (poll_timeout_ms dl) (take k (readings evs)).
Proof.
  induction evs as [|[r|now ans flag order|s'] evs IH]; intros s; simpl.
  - by exists 0.
  - by exists 0.
  - destruct (poll_turn s ans flag order) as [[|e|e|] s1].
    + destruct (IH s1) as [k Hk]. exists (S k). simpl. by rewrite Hk.
    + exists 1. done.
    + exists 1. done.
    + exists 1. done.
  - apply IH.
Qed.

Lemma table_shape o s :
  wf_own o -> reachable o s ->
  exists notifier rest, poll_fds s = notifier :: rest /\ pfd_fd notifier = own_poll o /\
    pfd_events notifier = own_flags o /\ NoDup (map pfd_fd rest) /\
    (forall fd, fd ∈ map pfd_fd rest <-> is_registered s fd) /\
    (forall fd, is_registered s fd -> fd ∉ own_all o).
Proof.
  intros Ho Hr. pose proof (reachable_wf o s Hr) as Hw.
  destruct (tail_split o s Hw) as (pf0 & tl & E & Hf & Hnd & Hin).
  exists pf0, tl. split; [done|]. split; [done|]. split.
  { destruct (wf_head _ _ Hw) as (pf & Hp & _ & He). rewrite E in Hp. simpl in Hp. congruence. }
  split; [done|]. split.
  - intros fd. rewrite Hin. symmetry. by apply (is_registered_iff o).
  - intros fd Hreg Hown. apply (is_registered_iff o) in Hreg; [|done].
    rewrite (wf_none _ _ Hw) in Hreg by (by apply has_fd_iff). by destruct Hreg.
Qed.

Lemma turn_again o s rs num flag order s' :
  wf_own o -> reachable o s -> posix_answer s (PollRet rs num) -> hash_order s order ->
  poll_turn s (PollRet rs num) flag order = (TAgain, s') ->
  flag = false /\ (exists f, rs !! 0 = Some f /\ f <> 0%N) /\
  (forall fd r f, registered s fd r -> returned s rs fd f -> f = 0%N) /\
  (forall fd, same_reg s s' fd).
Proof.
  intros Ho Hr Ha Hord Ht. pose proof (reachable_wf o s Hr) as Hw. pose proof Ha as [Hl _].
  destruct (turn_cases o s rs num flag order _ s' Hw Ha Hord Ht) as
    [(_ & -> & Hevs & Hfl & Hf)|(? & _)]; [|done].
  split; [done|]. split; [done|]. split.
  - intros fd r f Hreg Hret. destruct (decide (f = 0%N)) as [|Hz]; [done|]. exfalso.
    assert (Hin : (fd, poll_to_event (reg_key r) f) ∈
          omap (ev_of (fd_data s) (poll_fds (after_kernel s rs))) order).
    { apply elem_of_list_omap. exists fd. split.
      - destruct Hord as [_ Hin]. apply Hin. destruct Hreg as (d & pf & Hd & _). eauto.
      - apply (ev_of_iff o s rs fd fd _ Hw Ho Hl). split; [done|]. exists r, f. done. }
    rewrite Hevs in Hin. by apply elem_of_nil in Hin.
  - intros fd. by apply (kernel_same_reg o).
Qed.
