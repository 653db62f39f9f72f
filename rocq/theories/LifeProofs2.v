(** [new] and [drop] of every backend, and histories. *)
From stdpp Require Import prelude list gmap.
From Verif Require Import Types LifeModel LifeSpec LifeProofs.
Local Open Scope nat_scope.

Notation entries := (@gmap (nat * option nat) (@prod_eq_dec nat Nat.eq_dec (option nat) (@option_eq_dec nat Nat.eq_dec))
  (@prod_countable nat Nat.eq_dec nat_countable (option nat) (@option_eq_dec nat Nat.eq_dec) (@option_countable nat Nat.eq_dec nat_countable))
  (event unit * poll_mode)).

(** ** epoll *)

(** The descriptors of an epoll poller under construction. *)
Definition timed (t : option nat) (m m' : gmap nat desc) : Prop :=
  match t with
  | Some t => m !! t = None /\ m' = <[t := Desc KTimerfd true true]> m
  | None => m' = m
  end.
Definition epoll_map (ep : nat) (no : notifier) (t : option nat) (m' : gmap nat desc) : Prop :=
  exists m1, notifies no {[ep := Desc KEpoll true false]} m1 /\ timed t m1 m'.
Lemma notifies_some no m m' n : notifies no m m' -> is_Some (m !! n) -> is_Some (m' !! n) /\ n ∉ notifier_fds no.
Proof.
  intros H [x Hx]. destruct no as [k|r w]; cbn in H |- *.
  - destruct H as [A ->]. split; [rewrite lookup_insert_ne by congruence; by eexists|]. intros ->%elem_of_list_singleton. congruence.
  - destruct H as (A & B & C & ->). cbn in *. split; [rewrite !lookup_insert_ne by congruence; by eexists|].
    intros [->| ->%elem_of_list_singleton]%elem_of_cons; congruence.
Qed.
Lemma notifies_in no m m' n : notifies no m m' -> n ∈ notifier_fds no -> is_Some (m' !! n) /\ m !! n = None.
Proof.
  destruct no as [k|r w]; cbn.
  - intros [A ->] ->%elem_of_list_singleton. rewrite lookup_insert. split; [by eexists|done].
  - intros (A & B & C & ->) [->| ->%elem_of_list_singleton]%elem_of_cons; cbn in *; (split; [|done]).
    + rewrite lookup_insert. by eexists.
    + rewrite lookup_insert_ne, lookup_insert by done. by eexists.
Qed.
Lemma notifies_out no m m' n : notifies no m m' -> n ∉ notifier_fds no -> m' !! n = m !! n.
Proof.
  destruct no as [k|r w]; cbn.
  - intros [A ->] N. rewrite lookup_insert_ne; [done|]. intros ->. apply N. by left.
  - intros (A & B & C & ->) N. cbn in *. rewrite !lookup_insert_ne; [done|intros ->; apply N; right; by left|intros ->; apply N; by left].
Qed.
Lemma notifies_nodup no m m' : notifies no m m' -> NoDup (notifier_fds no).
Proof.
  destruct no as [k|r w]; cbn; [intros _; apply NoDup_singleton|]. intros (A & B & C & _). cbn in C.
  apply NoDup_cons. split; [by intros ?%elem_of_list_singleton|apply NoDup_singleton].
Qed.
Lemma epoll_map_dom ep no t m : epoll_map ep no t m -> NoDup (own (PEpoll ep no t)) /\ forall n, is_Some (m !! n) <-> n ∈ own (PEpoll ep no t).
Proof.
  intros (m1 & N & T).
  assert (E : is_Some (m1 !! ep) /\ ep ∉ notifier_fds no) by (apply (notifies_some _ _ _ _ N); rewrite lookup_singleton; by eexists).
  assert (D1 : forall n, is_Some (m1 !! n) <-> n ∈ ep :: notifier_fds no).
  { intros n. split.
    - intros H. destruct (decide (n ∈ notifier_fds no)) as [X|X]; [by right|]. rewrite (notifies_out _ _ _ _ N X) in H.
      destruct (decide (ep = n)) as [->|Y]; [by left|]. rewrite lookup_singleton_ne in H by done. by destruct H.
    - intros [->|H]%elem_of_cons; [by apply E|]. by apply (notifies_in _ _ _ _ N). }
  assert (ND : NoDup (ep :: notifier_fds no)) by (apply NoDup_cons; split; [by apply E|by eapply notifies_nodup]).
  destruct t as [t|]; cbn [own]; cbn in T.
  - destruct T as [T ->]. assert (Ht : t ∉ ep :: notifier_fds no) by (intros H%D1; rewrite T in H; by destruct H).
    split.
    + change (NoDup ((ep :: notifier_fds no) ++ [t])). apply NoDup_app. split; [done|]. split; [|apply NoDup_singleton].
      intros x Hx ->%elem_of_list_singleton. done.
    + intros n. change (ep :: notifier_fds no ++ [t]) with ((ep :: notifier_fds no) ++ [t]). rewrite elem_of_app, elem_of_list_singleton, <- D1.
      destruct (decide (t = n)) as [->|Y]; [rewrite lookup_insert; split; [by right|by eexists]|]. rewrite lookup_insert_ne by done. naive_solver.
  - subst m. rewrite app_nil_r. by split.
Qed.

(** Dropping puts everything back. *)
Lemma empty_inv w0 m R d w : inv w0 m R d w -> (forall n, m !! n = None) -> inv w0 ∅ ∅ d w.
Proof.
  intros I M. assert (m = ∅) as -> by (apply map_empty; exact M). replace R with (∅ : entries) in I; [done|].
  symmetry. apply map_empty. intros x. destruct (R !! x) as [v|] eqn:E; [|done]. exfalso.
  destruct (i_inst _ _ _ _ _ I x) as [z Hz]; [by rewrite E|]. by rewrite lookup_empty in Hz.
Qed.
Lemma epoll_drop_inv w0 ep no t m R d w : sane w0 -> NoDup (own (PEpoll ep no t)) -> (forall n, is_Some (m !! n) <-> n ∈ own (PEpoll ep no t)) ->
  inv w0 m R d w -> exists d', inv w0 ∅ ∅ (d ++ d') (epoll_drop ep no t w).
Proof.
  intros S ND D I. unfold epoll_drop.
  assert (Hep : is_Some (m !! ep)) by (apply D; cbn; by left).
  assert (X : exists m1 R1 d1, inv w0 m1 R1 (d ++ d1) (match t with Some t => sys_close t (ignore (ctl_del ep t) w) | None => w end)
    /\ forall n, is_Some (m1 !! n) <-> n ∈ ep :: notifier_fds no).
  { destruct t as [t|].
    - destruct (ignore_unwatch w0 m R d w CtlDel (ep, Some t) S I Hep) as (R1 & d1 & I1).
      assert (Ht : is_Some (m !! t)) by (apply D; cbn; right; apply elem_of_app; right; by left).
      eexists _, _, d1. split; [apply inv_close; [done|exact I1|done]|]. intros n.
      cbn [own] in ND, D. change (ep :: notifier_fds no ++ [t]) with ((ep :: notifier_fds no) ++ [t]) in ND, D. apply NoDup_app in ND as (_ & ND & _).
      destruct (decide (t = n)) as [->|Y].
      + rewrite lookup_delete. split; [by intros [? ?]|]. intros H. exfalso. apply (ND _ H). by left.
      + rewrite lookup_delete_ne by done. rewrite D, elem_of_app, elem_of_list_singleton. naive_solver.
    - exists m, R, []. rewrite app_nil_r. split; [done|]. intros n. rewrite D. cbn [own]. by rewrite app_nil_r. }
  destruct X as (m1 & R1 & d1 & I1 & D1).
  destruct (ignore_unwatch w0 m1 R1 _ _ CtlDel (ep, Some (notifier_fd no)) S I1) as (R2 & d2 & I2); [apply D1; by left|].
  assert (ND1 : NoDup (ep :: notifier_fds no)).
  { cbn [own] in ND. change (ep :: notifier_fds no ++ ?l) with ((ep :: notifier_fds no) ++ l) in ND. by apply NoDup_app in ND as (? & _). }
  destruct (inv_closes w0 (ep :: notifier_fds no) m1 R2 _ _ S I2 ND1) as (m3 & R3 & I3 & M3); [intros n Hn; by apply D1|].
  exists (d1 ++ d2). rewrite app_assoc. eapply empty_inv; [exact I3|]. intros n. rewrite M3. case_decide as Y; [done|].
  destruct (m1 !! n) eqn:E; [|done]. exfalso. apply Y, D1. by rewrite E.
Qed.
Lemma good_try_epoll {B} (f : flavour) (g : world -> res unit * world) ep no t (k : world -> res B * world) (m : gmap nat desc)
  (P : gmap nat desc -> entries -> entries -> Prop) (Q : B -> gmap nat desc -> entries -> entries -> Prop) :
  epoll_map ep no t m -> good f g m m (fun _ => P) ->
  (forall m' R R', P m' R R' -> good f k ∅ m' (fun b m2 R1 R2 => R1 = R' -> Q b m2 R R2)) -> good f (try_epoll g ep no t k) ∅ m Q.
Proof.
  intros M G K w0 R d w S I. unfold try_epoll. specialize (G w0 R d w S I). destruct (g w) as [[a|e|] w']; [| |done].
  - destruct G as (m' & R' & d' & I' & Pa). specialize (K m' R R' Pa w0 R' _ w' S I'). destruct (k w') as [[b|e|] w2]; [| |done].
    + destruct K as (m2 & R2 & d2 & I2 & Q2). exists m2, R2, (d' ++ d2). rewrite app_assoc. split; [done|]. by apply Q2.
    + destruct K as (R2 & d2 & I2 & B2). exists R2, (d' ++ d2). rewrite app_assoc. split; [done|]. by apply blame_app.
  - destruct G as (R' & d' & I' & Bl). destruct (epoll_map_dom _ _ _ _ M) as [ND D]. destruct (epoll_drop_inv _ _ _ _ _ _ _ _ S ND D I') as (d2 & I2). exists ∅, (d' ++ d2). rewrite app_assoc. split; [done|].
    destruct Bl as (c & x & H & ?). exists c, x. split; [|done]. apply elem_of_app. by left.
Qed.

(** What [new] returns. *)
Definition is_new (f : flavour) (p : poller) (m : gmap nat desc) (R : entries) : Prop :=
  R = own_entries p /\ NoDup (own p) /\ own p <> [] /\ (forall n, is_Some (m !! n) <-> n ∈ own p)
  /\ (f <> PollEventfd -> forall n x, m !! n = Some x -> d_cloexec x = true)
  /\ (f <> PollEventfd -> forall n, read_end p = Some n -> exists x, m !! n = Some x /\ d_nonblock x = true).
Definition new_post (f : flavour) (p : poller) (m : gmap nat desc) (R R' : entries) : Prop := R = ∅ -> is_new f p m R'.

Lemma two_lookup x y n m m' k v : two x y n m m' -> m' !! k = Some v -> (k = n.1 /\ v = x) \/ (k = n.2 /\ v = y) \/ m !! k = Some v.
Proof.
  intros (A & B & C & ->) H. destruct (decide (n.1 = k)) as [<-|N]; [rewrite lookup_insert in H; left; by injection H|].
  rewrite lookup_insert_ne in H by done. destruct (decide (n.2 = k)) as [<-|N']; [rewrite lookup_insert in H; right; left; by injection H|].
  rewrite lookup_insert_ne in H by done. by right; right.
Qed.
Lemma notifies_flags no m m' : notifies no m m' ->
  (forall n x, m' !! n = Some x -> m !! n = Some x \/ d_cloexec x = true) /\ (exists x, m' !! notifier_fd no = Some x /\ d_nonblock x = true).
Proof.
  destruct no as [k|r w]; cbn.
  - intros [A ->]. split; [|rewrite lookup_insert; by eexists]. intros n x H. destruct (decide (k = n)) as [->|]; [rewrite lookup_insert in H; injection H as <-; by right|].
    rewrite lookup_insert_ne in H by done. by left.
  - intros T. split.
    + intros n x H. destruct (two_lookup _ _ _ _ _ _ _ T H) as [[_ ->]|[[_ ->]|?]]; [by right|by right|by left].
    + destruct T as (A & B & C & ->). cbn. rewrite lookup_insert. by eexists.
Qed.
Lemma epoll_is_new f ep no t m : epoll_map ep no t m -> is_new f (PEpoll ep no t) m (own_entries (PEpoll ep no t)).
Proof.
  intros M. destruct (epoll_map_dom _ _ _ _ M) as [ND D]. destruct M as (m1 & N & T). destruct (notifies_flags _ _ _ N) as [F (z & Z1 & Z2)].
  assert (F1 : forall n x, m1 !! n = Some x -> d_cloexec x = true).
  { intros n x H. destruct (F n x H) as [H'|?]; [|done]. apply lookup_singleton_Some in H' as [_ <-]. done. }
  split_and!; try done.
  - intros _ n x H. destruct t as [t|]; cbn in T; [|subst m; by eapply F1]. destruct T as [T ->].
    destruct (decide (t = n)) as [->|]; [rewrite lookup_insert in H; by injection H as <-|]. rewrite lookup_insert_ne in H by done. by eapply F1.
  - intros _ n [= <-]. exists z. split; [|done]. destruct t as [t|]; cbn in T; [|by subst m]. destruct T as [T ->].
    rewrite lookup_insert_ne; [done|]. intros ->. congruence.
Qed.
Lemma good_epoll_new f : good f (epoll_new f) ∅ ∅ (new_post f).
Proof.
  unfold epoll_new. eapply good_try; [apply good_open; intros [X|X]; exact X|apply cleans_nil|]. cbn beta. intros ep m R R' (E & -> & ->).
  eapply good_try; [apply good_notifier|apply cleans_one, E|]. cbn beta. intros no m R2 R2' (N & ->).
  (* the timer *)
  intros w0 R3 d w S I.
  assert (T : exists t d1 m1 w1, epoll_timer f w = (t, w1) /\ timed t m m1 /\ inv w0 m1 R3 (d ++ d1) w1).
  { unfold epoll_timer, sys_open.
    assert (Z : exists d1 m1, timed None m m1 /\ inv w0 m1 R3 (d ++ d1) w) by (exists [], m; split; [done|by rewrite app_nil_r]).
    assert (Y : forall e, exists d1 m1, timed None m m1 /\ inv w0 m1 R3 (d ++ d1) (answered w TimerfdCreate (Some e))).
    { intros e. exists [(TimerfdCreate, Some e)], m. split; [done|]. by apply inv_answered. }
    assert (X : exists t d1 m1 w1, (match sys_open TimerfdCreate (Desc KTimerfd true true) w with (Ok t, w') => (Some t, w') | (_, w') => (None, w') end) = (t, w1)
      /\ timed t m m1 /\ inv w0 m1 R3 (d ++ d1) w1).
    { unfold sys_open. destruct (an_err (now w)) as [e|]; [destruct (Y e) as (d1 & m1 & ? & ?); by eexists _, d1, m1, _|].
      destruct (opened w !! an_fst (now w)) eqn:Eo; [destruct (Y EMFILE) as (d1 & m1 & ? & ?); by eexists _, d1, m1, _|].
      destruct (inv_insert w0 m R3 _ (answered w TimerfdCreate None) (an_fst (now w)) (Desc KTimerfd true true) (inv_answered _ _ _ _ _ TimerfdCreate None I) Eo) as [N1 I1].
      eexists (Some _), [(TimerfdCreate, None)], _, _. split; [done|]. split; [by split|exact I1]. }
    destruct f; try exact X. destruct Z as (d1 & m1 & ? & ?). by eexists _, d1, m1, _. }
  destruct T as (t & d1 & m1 & w1 & -> & T & I1).
  assert (M : epoll_map ep no t m1) by (exists m; split; [by rewrite <- insert_empty|done]).
  destruct (epoll_map_dom _ _ _ _ M) as [_ D].
  assert (Hep : is_Some (m1 !! ep)) by (apply D; by left).
  assert (Fin : forall m2 R0, m2 = m1 -> good f (try_epoll (ctl_add ep (notifier_fd no) readable_event Oneshot) ep no t (fun s => (Ok (PEpoll ep no t), s))) ∅ m2
     (fun p m3 R4 R5 => R4 = R0 -> m3 = m1 /\ p = PEpoll ep no t /\ R5 = <[(ep, Some (notifier_fd no)) := (readable_event, Oneshot)]> R0)).
  { intros m2 R0 ->. eapply good_try_epoll; [exact M|apply good_watch; [intros [X|X]; exact X|exact Hep]|]. cbn beta. intros m' R4 R5 [-> ->]. apply good_ret. by intros R6 -> ->. }
  assert (G : good f (fun w => match t with
     | Some t0 => try_epoll (ctl_add ep t0 none_event Oneshot) ep no t (try_epoll (ctl_add ep (notifier_fd no) readable_event Oneshot) ep no t (fun s => (Ok (PEpoll ep no t), s))) w
     | None => try_epoll (ctl_add ep (notifier_fd no) readable_event Oneshot) ep no t (fun s => (Ok (PEpoll ep no t), s)) w end) ∅ m1
     (fun p m3 R4 R5 => R4 = ∅ -> is_new f p m3 R5)).
  { destruct t as [t|].
    - eapply good_try_epoll; [exact M|apply good_watch; [intros [X|X]; exact X|exact Hep]|]. cbn beta. intros m' R4 R5 [-> ->].
      eapply good_weaken; [apply (Fin m1 (<[(ep, Some t) := (none_event, Oneshot)]> ∅) eq_refl)|]. cbn beta. intros p m3 R6 R7 Q -> ->. destruct (Q eq_refl) as (-> & -> & ->).
      exact (epoll_is_new f _ _ _ _ M).
    - eapply good_weaken; [apply (Fin m1 ∅ eq_refl)|]. cbn beta. intros p m3 R6 R7 Q ->. destruct (Q eq_refl) as (-> & -> & ->).
      exact (epoll_is_new f _ _ _ _ M). }
  specialize (G w0 R3 _ w1 S I1).
  cbv beta in G. revert G. destruct (match t with Some _ => _ | None => _ end) as [[p|e|] w2]; [| |done].
  - intros (m' & R' & d' & I' & Q). exists m', R', (d1 ++ d'). rewrite app_assoc. split; [done|]. intros E1 E2 E3. apply Q. congruence.
  - intros (R' & d' & I' & Q). exists R', (d1 ++ d'). rewrite app_assoc. split; [done|by apply blame_app].
Qed.

(** ** kqueue *)

Definition paired (st : option (nat * nat)) (m m' : gmap nat desc) : Prop :=
  match st with
  | Some n => two (Desc KStreamRead true true) (Desc KStreamWrite true true) n m m'
  | None => m' = m
  end.
Lemma good_pair f m : good f pair_new m m (fun st m' R R' => paired st m m' /\ R' = R).
Proof.
  unfold pair_new. eapply good_try; [apply good_open2; intros [X|X]; exact X|apply cleans_nil|]. cbn. intros [r w] m' R R' (A & B & C & D & ->).
  assert (T : two (Desc KStreamRead true false) (Desc KStreamWrite true false) (r, w) m m') by done. clear A B C D.
  eapply good_try; [apply good_alter; [intros [X|X]; exact X|by apply (two_some _ _ (r, w)) in T as [? ?]]|by apply (two_cleans _ _ (r, w) _ _ T)|].
  cbn. intros _ m2 R2 R3 [-> ->]. apply (two_fst _ _ _ _ _ with_nonblock) in T. cbn [fst] in T.
  eapply good_try; [apply good_alter; [intros [X|X]; exact X|by apply (two_some _ _ (r, w)) in T as [? ?]]|by apply (two_cleans _ _ (r, w) _ _ T)|].
  cbn. intros _ m2 R3 R4 [-> ->]. apply (two_snd _ _ _ _ _ with_nonblock) in T. cbn [snd] in T.
  apply good_ret. by intros R5 -> -> ->.
Qed.
Lemma good_kqueue_notify f m : good f (kqueue_notify f) m m (fun st m' R R' => paired st m m' /\ R' = R).
Proof. destruct f; try (apply good_ret; done). apply good_pair. Qed.
Definition kqueue_map (kq : nat) (st : option (nat * nat)) (m : gmap nat desc) : Prop := paired st {[kq := Desc KKqueue true false]} m.
Lemma kqueue_map_dom kq st m : kqueue_map kq st m -> NoDup (own (PKqueue kq st)) /\ forall n, is_Some (m !! n) <-> n ∈ own (PKqueue kq st).
Proof.
  destruct st as [[r w]|]; cbn.
  - intros (A & B & C & ->). cbn in *. apply lookup_singleton_None in A, B. split.
    + repeat (apply NoDup_cons; split; [rewrite ?elem_of_cons, ?elem_of_nil; naive_solver|]). constructor.
    + intros n. rewrite !elem_of_cons, elem_of_nil. destruct (decide (r = n)) as [->|]; [rewrite lookup_insert; split; [naive_solver|by eexists]|].
      rewrite lookup_insert_ne by done. destruct (decide (w = n)) as [->|]; [rewrite lookup_insert; split; [naive_solver|by eexists]|].
      rewrite lookup_insert_ne by done. destruct (decide (kq = n)) as [->|]; [rewrite lookup_singleton; split; [naive_solver|by eexists]|].
      rewrite lookup_singleton_ne by done. split; [by intros [? ?]|naive_solver].
  - intros ->. split; [apply NoDup_singleton|]. intros n. rewrite elem_of_list_singleton. destruct (decide (kq = n)) as [->|].
    + rewrite lookup_singleton. split; [done|by eexists].
    + rewrite lookup_singleton_ne by done. split; [by intros [? ?]|naive_solver].
Qed.
Lemma kqueue_drop_inv w0 kq st m R d w : sane w0 -> NoDup (own (PKqueue kq st)) -> (forall n, is_Some (m !! n) <-> n ∈ own (PKqueue kq st)) ->
  inv w0 m R d w -> exists d', inv w0 ∅ ∅ (d ++ d') (kqueue_drop kq st w).
Proof.
  intros S ND D I. unfold kqueue_drop.
  destruct (ignore_unwatch w0 m R _ _ Kevent (kq, kqueue_target st) S I) as (R2 & d2 & I2); [apply D; by left|].
  destruct (inv_closes w0 (kq :: pair_fds st) m R2 _ _ S I2 ND) as (m3 & R3 & I3 & M3); [intros n Hn; by apply D|].
  exists d2. eapply empty_inv; [exact I3|]. intros n. rewrite M3. case_decide as Y; [done|].
  destruct (m !! n) eqn:E; [|done]. exfalso. apply Y. apply D. by rewrite E.
Qed.
Lemma kqueue_is_new f kq st m : kqueue_map kq st m -> is_new f (PKqueue kq st) m (<[(kq, kqueue_target st) := (readable_event, kqueue_mode st)]> ∅).
Proof.
  intros M. destruct (kqueue_map_dom _ _ _ M) as [ND D]. split_and!; try done.
  - by destruct st as [[r w]|].
  - intros _ n x H. destruct st as [[r w]|]; cbn in M.
    + destruct (two_lookup _ _ _ _ _ _ _ M H) as [[_ ->]|[[_ ->]|H']]; [done|done|]. by apply lookup_singleton_Some in H' as [_ <-].
    + unfold kqueue_map in M. cbn in M. subst m. by apply lookup_singleton_Some in H as [_ <-].
  - intros _ n H. destruct st as [[r w]|]; [|done]. injection H as <-. destruct M as (A & B & C & ->). cbn. rewrite lookup_insert. by eexists.
Qed.
Lemma good_kqueue_new f : good f (kqueue_new f) ∅ ∅ (new_post f).
Proof.
  unfold kqueue_new. eapply good_try; [apply good_open; intros [X|X]; exact X|apply cleans_nil|]. cbn beta. intros kq m R R' (E & -> & ->).
  eapply good_try; [apply good_alter; [intros [X|X]; exact X|rewrite lookup_insert; by eexists]|apply cleans_one, E|]. cbn beta. intros _ m R2 R2' (-> & ->).
  assert (A : alter with_cloexec kq (<[kq := Desc KKqueue false false]> (∅ : gmap nat desc)) = {[kq := Desc KKqueue true false]}) by (rewrite insert_empty; apply (alter_singleton with_cloexec)). rewrite A. clear A.
  eapply good_try; [apply good_kqueue_notify|rewrite <- insert_empty; apply cleans_one, E|]. cbn beta. intros st m R3 R3' (P & ->).
  intros w0 R4 d w S I. assert (M : kqueue_map kq st m) by exact P. destruct (kqueue_map_dom _ _ _ M) as [ND D].
  assert (G : good f (kqueue_register kq st) m m (fun _ m' R R' => m' = m /\ R' = <[(kq, kqueue_target st) := (readable_event, kqueue_mode st)]> R)).
  { apply good_watch; [intros [X|X]; exact X|]. apply D. by left. }
  specialize (G w0 R4 d w S I). destruct (kqueue_register kq st w) as [[a|e|] w']; [| |done].
  - destruct G as (m' & R' & d' & I' & -> & ->). eexists m, _, d'. split; [exact I'|]. intros -> -> -> ->. exact (kqueue_is_new f _ _ _ M).
  - destruct G as (R' & d' & I' & B). destruct (kqueue_drop_inv _ _ _ _ _ _ _ S ND D I') as (d2 & I2). exists ∅, (d' ++ d2). rewrite app_assoc. split; [done|].
    destruct B as (c & x & H & ?). exists c, x. split; [|done]. apply elem_of_app. by left.
Qed.

(** ** Event ports *)

Lemma good_port_new : good Ports port_new ∅ ∅ (new_post Ports).
Proof.
  unfold port_new. eapply good_try; [apply good_open; intros [X|X]; exact X|apply cleans_nil|]. cbn beta. intros p m R R' (E & -> & ->).
  apply good_cloexec; [apply cleans_one, E|rewrite lookup_insert; by eexists|].
  assert (A : alter with_cloexec p (<[p := Desc KPort false false]> (∅ : gmap nat desc)) = {[p := Desc KPort true false]}) by (rewrite insert_empty; apply (alter_singleton with_cloexec)). rewrite A. clear A.
  apply good_ret. intros R0 -> ->. split_and!; try done.
  - apply NoDup_singleton.
  - intros n. cbn. rewrite elem_of_list_singleton. destruct (decide (p = n)) as [->|].
    + rewrite lookup_singleton. split; [done|by eexists].
    + rewrite lookup_singleton_ne by done. split; [by intros [? ?]|naive_solver].
  - intros _ n x H. by apply lookup_singleton_Some in H as [_ <-].
Qed.

(** ** poll *)

Lemma notifies_dom no m : notifies no ∅ m -> NoDup (notifier_fds no) /\ forall n, is_Some (m !! n) <-> n ∈ notifier_fds no.
Proof.
  intros N. split; [by eapply notifies_nodup|]. intros n. split.
  - intros H. destruct (decide (n ∈ notifier_fds no)) as [X|X]; [done|]. rewrite (notifies_out _ _ _ _ N X), lookup_empty in H. by destruct H.
  - intros H. by apply (notifies_in _ _ _ _ N).
Qed.
Lemma poll_is_new f no m : notifies no ∅ m -> is_new f (PPoll no) m (own_entries (PPoll no)).
Proof.
  intros N. destruct (notifies_dom _ _ N) as [ND D]. destruct (notifies_flags _ _ _ N) as [F (z & Z1 & Z2)]. split_and!; try done.
  - by destruct no.
  - intros _ n x H. destruct (F n x H) as [H'|?]; [by rewrite lookup_empty in H'|done].
  - intros _ n [= <-]. by exists z.
Qed.
Lemma good_poll_new f : good f (poll_new f) ∅ ∅ (new_post f).
Proof.
  assert (Q : forall g, good f g ∅ ∅ (fun n m' R R' => cloexec_pipe n ∅ m' /\ R' = R) ->
    good f (try (pipe_notifier g) [] (fun no w => (Ok (PPoll no), w))) ∅ ∅ (new_post f)).
  { intros g G. eapply good_try; [apply good_pipe_notifier, G|apply cleans_nil|]. cbn beta. intros no m R R' (_ & N & ->).
    apply good_ret. intros R0 -> ->. by apply poll_is_new. }
  destruct f; try (apply Q, good_pipe); try (apply Q, good_fallback).
  cbn [poll_new]. eapply good_try; [apply good_open; intros [X|X]; [discriminate X|exact X]|apply cleans_nil|]. cbn beta. intros p m R R' (E & -> & ->).
  apply good_ret. intros R0 -> ->. rewrite insert_empty. split_and!; try done.
  - apply NoDup_singleton.
  - intros n. cbn. rewrite elem_of_list_singleton. destruct (decide (p = n)) as [->|].
    + rewrite lookup_singleton. split; [done|by eexists].
    + rewrite lookup_singleton_ne by done. split; [by intros [? ?]|naive_solver].
Qed.

(** ** Completion ports *)

Lemma good_load m : good Iocp (unsupported (sys_do LoadNtdll id)) m m (fun _ m' R R' => m' = m /\ R' = R).
Proof.
  intros w0 R d w S I. unfold unsupported, sys_do. destruct (an_err (now w)) as [e|].
  - eexists R, [_]. split; [by apply inv_answered|]. exists LoadNtdll, e. split; [by left|]. split; [done|]. intros X. exact X.
  - exists m, R, [(LoadNtdll, None)]. split; [by apply inv_answered|done].
Qed.
Lemma good_afd x m : good Iocp (unsupported (sys_open OpenAfd x)) m m (fun n m' R R' => m !! n = None /\ m' = <[n := x]> m /\ R' = R).
Proof.
  intros w0 R d w S I. unfold unsupported, sys_open.
  assert (X : forall e, exists R' d', inv w0 m R' (d ++ d') (answered w OpenAfd (Some e)) /\ blame Iocp (ESimple KUnsupported) d').
  { intros e. eexists R, [_]. split; [by apply inv_answered|]. exists OpenAfd, e. split; [by left|]. split; [done|]. intros X. exact X. }
  destruct (an_err (now w)) as [e|]; [apply X|]. destruct (opened w !! an_fst (now w)) eqn:E; [apply X|].
  destruct (inv_insert w0 m R _ (answered w OpenAfd None) (an_fst (now w)) x (inv_answered _ _ _ _ _ OpenAfd None I) E) as [N I'].
  exists (<[an_fst (now w) := x]> m), R, [(OpenAfd, None)]. by split.
Qed.
Lemma good_iocp_new : good Iocp iocp_new ∅ ∅ (new_post Iocp).
Proof.
  unfold iocp_new. eapply good_try; [apply good_load|apply cleans_nil|]. cbn beta. intros _ m R R' (-> & ->).
  eapply good_try; [apply good_afd|apply cleans_nil|]. cbn beta. intros a m R1 R1' (E & -> & ->).
  assert (G : good Iocp (try (sys_open PortCreate (Desc KIocp true false)) [] (fun p w => (Ok (PIocp p), w))) ∅ ∅ (new_post Iocp)).
  { eapply good_try; [apply good_open; intros [X|X]; exact X|apply cleans_nil|]. cbn beta. intros p m R2 R2' (E' & -> & ->).
    apply good_ret. intros R0 -> ->. rewrite insert_empty. split_and!; try done.
    - apply NoDup_singleton.
    - intros n. cbn. rewrite elem_of_list_singleton. destruct (decide (p = n)) as [->|].
      + rewrite lookup_singleton. split; [done|by eexists].
      + rewrite lookup_singleton_ne by done. split; [by intros [? ?]|naive_solver].
    - intros _ n x H. by apply lookup_singleton_Some in H as [_ <-]. }
  intros w0 R2 d w S I. apply (inv_close _ _ _ _ _ a S) in I; [|rewrite lookup_insert; by eexists].
  rewrite delete_insert in I by done. eapply empty_inv in I; [|intros n; apply lookup_empty].
  specialize (G w0 ∅ d _ S I). destruct (try _ _ _ _) as [[p|e|] w']; [| |done].
  - destruct G as (m' & R' & d' & I' & P). exists m', R', d'. split; [done|]. intros _ _ _. by apply P.
  - exact G.
Qed.

(** ** [new] and [drop] *)

Lemma good_new f : good f (new f) ∅ ∅ (new_post f).
Proof. destruct f; try apply good_epoll_new; try apply good_kqueue_new; try apply good_port_new; try apply good_iocp_new; apply good_poll_new. Qed.

