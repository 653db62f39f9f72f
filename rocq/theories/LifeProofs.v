(** What [new] and [drop] do to the descriptors of a process. *)
From stdpp Require Import prelude list gmap.
From Verif Require Import Types LifeModel LifeSpec.
Local Open Scope nat_scope.

Notation descs := (gmap nat desc).
Notation entries := (@gmap (nat * option nat) (@prod_eq_dec nat Nat.eq_dec (option nat) (@option_eq_dec nat Nat.eq_dec))
  (@prod_countable nat Nat.eq_dec nat_countable (option nat) (@option_eq_dec nat Nat.eq_dec) (@option_countable nat Nat.eq_dec nat_countable))
  (event unit * poll_mode)).

(** Since [w0] the descriptors [m] and the entries [R] were added, system calls [d] were made. *)
Record inv (w0 : world) (m : descs) (R : entries) (d : list (kcall * option errno)) (w : world) : Prop := {
  i_open : opened w = m ∪ opened w0;
  i_disj : m ##ₘ opened w0;
  i_regs : regs w = R ∪ regs w0;
  i_inst : forall x, is_Some (R !! x) -> is_Some (m !! x.1);
  i_done : done w = done w0 ++ d;
  i_close : exists l, closes w = closes w0 ++ l /\ forall n b, (n, b) ∈ l -> b = true /\ opened w0 !! n = None
}.

Lemma inv_start w : inv w ∅ ∅ [] w.
Proof.
  split.
  - by rewrite (left_id_L ∅ (∪)).
  - apply map_disjoint_empty_l.
  - by rewrite (left_id_L ∅ (∪)).
  - intros x [y H]. by rewrite lookup_empty in H.
  - by rewrite app_nil_r.
  - exists []. rewrite app_nil_r. split; [done|]. intros n b H. by apply not_elem_of_nil in H.
Qed.
Lemma inv_answered w0 m R d w c e : inv w0 m R d w -> inv w0 m R (d ++ [(c, e)]) (answered w c e).
Proof. intros [A B C D E F]. split; try done. cbn. by rewrite E, app_assoc. Qed.
Lemma inv_insert w0 m R d w n x : inv w0 m R d w -> opened w !! n = None ->
  m !! n = None /\ inv w0 (<[n := x]> m) R d (set_opened w (<[n := x]> (opened w))).
Proof.
  intros [A B C D E F] N. rewrite A in N. apply lookup_union_None in N as [N1 N2]. split; [done|]. split; try done.
  - cbn. by rewrite A, insert_union_l.
  - by apply map_disjoint_insert_l_2.
  - intros y Hy. destruct (decide (n = y.1)) as [->|]; [rewrite lookup_insert; eauto|]. rewrite lookup_insert_ne by done. by apply D.
Qed.
Lemma inv_alter w0 m R d w n f : inv w0 m R d w -> is_Some (m !! n) -> inv w0 (alter f n m) R d (change_desc n f w).
Proof.
  intros [A B C D E F] [x Hx]. split; try done.
  - cbn. rewrite A. apply map_eq. intros i. rewrite lookup_union. destruct (decide (i = n)) as [->|].
    + rewrite !lookup_alter, lookup_union, Hx. cbn. by destruct (opened w0 !! n).
    + by rewrite !lookup_alter_ne, lookup_union.
  - apply map_disjoint_spec. intros i y z H1 H2. rewrite map_disjoint_spec in B. destruct (decide (i = n)) as [->|].
    + by apply (B n x z).
    + rewrite lookup_alter_ne in H1 by done. by apply (B i y z).
  - intros y Hy. destruct (D y Hy) as [z Hz]. destruct (decide (n = y.1)) as [->|].
    + rewrite lookup_alter, Hz. by eexists.
    + rewrite lookup_alter_ne by done. by eexists.
Qed.
Lemma inv_watch w0 m R d w x v : inv w0 m R d w -> is_Some (m !! x.1) -> inv w0 m (<[x := v]> R) d (set_regs w (<[x := v]> (regs w))).
Proof.
  intros [A B C D E F] M. split; try done.
  - cbn. by rewrite C, insert_union_l.
  - intros y Hy. destruct (decide (x = y)) as [->|N]; [done|]. rewrite lookup_insert_ne in Hy by done. by apply D.
Qed.
Lemma sane_none w0 m x : sane w0 -> m ##ₘ opened w0 -> is_Some (m !! x.1) -> regs w0 !! x = None.
Proof.
  intros S B [y Hy]. destruct (regs w0 !! x) eqn:E; [|done]. exfalso. destruct (S x) as [[z Hz] _]; [by rewrite E|].
  rewrite map_disjoint_spec in B. by eapply (B x.1).
Qed.
Lemma inv_unwatch w0 m R d w x : sane w0 -> inv w0 m R d w -> is_Some (m !! x.1) -> inv w0 m (delete x R) d (set_regs w (delete x (regs w))).
Proof.
  intros S [A B C D E F] M. split; try done.
  - cbn. rewrite C. apply map_eq. intros i. rewrite lookup_union. destruct (decide (i = x)) as [->|].
    + by rewrite !lookup_delete, (sane_none w0 m x S B M).
    + by rewrite !lookup_delete_ne, lookup_union.
  - intros y Hy. apply D. destruct (decide (x = y)) as [->|N]; [by rewrite lookup_delete in Hy; destruct Hy|]. by rewrite lookup_delete_ne in Hy.
Qed.
Lemma lookup_unwatched (n : nat) (R : entries) (i : entry) : filter (fun x => ~ watches n x.1) R !! i = if decide (watches n i) then None else R !! i.
Proof.
  destruct (decide (watches n i)) as [X|X].
  - apply map_filter_lookup_None_2. right. intros v _ Y. by apply Y.
  - destruct (R !! i) as [v|] eqn:Q; [by apply map_filter_lookup_Some_2|]. apply map_filter_lookup_None_2. by left.
Qed.
Lemma inv_close w0 m R d w n : sane w0 -> inv w0 m R d w -> is_Some (m !! n) ->
  inv w0 (delete n m) (filter (fun x => ~ watches n x.1) R) d (sys_close n w).
Proof.
  intros S [A B C D E F] [x Hx]. assert (N : opened w0 !! n = None).
  { rewrite map_disjoint_spec in B. destruct (opened w0 !! n) eqn:Q; [|done]. exfalso. by eapply B. }
  split; try done.
  - cbn. rewrite A. apply map_eq. intros i. rewrite lookup_union. destruct (decide (i = n)) as [->|].
    + by rewrite !lookup_delete, N.
    + by rewrite !lookup_delete_ne, lookup_union.
  - by apply map_disjoint_delete_l.
  - cbn. rewrite C. apply map_eq. intros i. rewrite lookup_union.
    assert (W : watches n i -> regs w0 !! i = None).
    { intros W. destruct (regs w0 !! i) eqn:Q; [|done]. exfalso. destruct (S i) as [[y Hy] S2]; [by rewrite Q|].
      destruct W as [W|W]; [rewrite W in Hy; congruence|]. destruct (S2 _ W) as [z Hz]. congruence. }
    rewrite !lookup_unwatched, lookup_union. destruct (decide (watches n i)) as [X|X]; [|done]. by rewrite W.
  - intros y [v Hy]. apply map_filter_lookup_Some in Hy as [Hy X]. destruct (D y) as [z Hz]; [by rewrite Hy|].
    rewrite lookup_delete_ne; [by rewrite Hz|]. intros ->. apply X. by left.
  - destruct F as (l & F1 & F2). eexists. cbn. split; [by rewrite F1, <- app_assoc|]. intros k b [H|H]%elem_of_app; [by apply F2|].
    apply elem_of_list_singleton in H. injection H as -> ->. split; [|done]. apply bool_decide_true. rewrite A, lookup_union, Hx. by destruct (opened w0 !! n).
Qed.
Lemma inv_closes w0 l : forall m R d w, sane w0 -> inv w0 m R d w -> NoDup l -> (forall n, n ∈ l -> is_Some (m !! n)) ->
  exists m' R', inv w0 m' R' d (sys_closes l w) /\ forall n, m' !! n = if decide (n ∈ l) then None else m !! n.
Proof.
  induction l as [|n l IH]; intros m R d w S I N H.
  - exists m, R. split; [done|]. intros n. by rewrite decide_False by apply not_elem_of_nil.
  - apply NoDup_cons in N as [N1 N2]. destruct (IH (delete n m) (filter (fun x => ~ watches n x.1) R) d (sys_close n w)) as (m' & R' & I' & M); try done.
    + apply inv_close; [done|done|]. apply H. by left.
    + intros k Hk. rewrite lookup_delete_ne; [by apply H; right|]. by intros ->.
    + exists m', R'. split; [done|]. intros k. rewrite M. destruct (decide (k = n)) as [->|X].
      * rewrite decide_False by done. rewrite lookup_delete. by rewrite decide_True by by left.
      * destruct (decide (k ∈ l)); [by rewrite decide_True by by right|]. rewrite lookup_delete_ne by done. rewrite decide_False; [done|].
        by intros [->|?]%elem_of_cons.
Qed.

(** ** Functions *)

(** From [m] the function ends with a result, [P] and what it added; or with an error, back at [m0], for a reason. *)
Definition blame (f : flavour) (e : io_error) (d : list (kcall * option errno)) : Prop :=
  exists c x, (c, Some x) ∈ d /\ shown_as c x e /\ ~ dispensable f c.
Definition masked (c : kcall) : Prop := match c with LoadNtdll | OpenAfd => True | _ => False end.
Definition needed (f : flavour) (c : kcall) : Prop := ~ (dispensable f c \/ masked c).
Lemma needed_shown f c x : needed f c -> shown_as c x (EOs x) /\ ~ dispensable f c.
Proof. intros N. split; [|intros X; apply N; by left]. destruct c; try reflexivity; exfalso; apply N; by right. Qed.
Definition good {A} (f : flavour) (g : world -> res A * world) (m0 m : descs) (P : A -> descs -> entries -> entries -> Prop) : Prop :=
  forall w0 R d w, sane w0 -> inv w0 m R d w ->
  match g w with
  | (Ok a, w') => exists m' R' d', inv w0 m' R' (d ++ d') w' /\ P a m' R R'
  | (Err e, w') => exists R' d', inv w0 m0 R' (d ++ d') w' /\ blame f e d'
  | (Panic, _) => False
  end.
Definition cleans (l : list nat) (m m0 : descs) : Prop :=
  NoDup l /\ (forall n, n ∈ l -> is_Some (m !! n)) /\ forall n, m0 !! n = if decide (n ∈ l) then None else m !! n.
Lemma blame_app (f : flavour) e d d' : blame f e d' -> blame f e (d ++ d').
Proof. intros (c & x & H & ?). exists c, x. split; [|done]. apply elem_of_app. by right. Qed.
Lemma cleans_inv l m m0 w0 R d w : cleans l m m0 -> sane w0 -> inv w0 m R d w -> exists R', inv w0 m0 R' d (sys_closes l w).
Proof.
  intros (N & H & M) S I. destruct (inv_closes w0 l m R d w S I N H) as (m' & R' & I' & M'). exists R'.
  by replace m0 with m' by (apply map_eq; intros n; by rewrite M, M').
Qed.
Lemma good_try {A B} (f : flavour) (g : world -> res A * world) (l : list nat) (k : A -> world -> res B * world) (m0 m : descs) (P : A -> descs -> entries -> entries -> Prop) (Q : B -> descs -> entries -> entries -> Prop) :
  good f g m m P -> cleans l m m0 -> (forall a m' R R', P a m' R R' -> good f (k a) m0 m' (fun b m2 R1 R2 => R1 = R' -> Q b m2 R R2)) ->
  good f (try g l k) m0 m Q.
Proof.
  intros G C K w0 R d w S I. unfold try. specialize (G w0 R d w S I). destruct (g w) as [[a|e|] w']; [| |done].
  - destruct G as (m' & R' & d' & I' & Pa). specialize (K a m' R R' Pa w0 R' _ w' S I'). destruct (k a w') as [[b|e|] w2]; [| |done].
    + destruct K as (m2 & R2 & d2 & I2 & Q2). exists m2, R2, (d' ++ d2). rewrite app_assoc. split; [done|]. by apply Q2.
    + destruct K as (R2 & d2 & I2 & B2). exists R2, (d' ++ d2). rewrite app_assoc. split; [done|]. by apply blame_app.
  - destruct G as (R' & d' & I' & Bl). destruct (cleans_inv _ _ _ _ _ _ _ C S I') as (R2 & I2). exists R2, d'. done.
Qed.
Lemma good_ret {A} (f : flavour) (a : A) (m0 m : descs) (P : A -> descs -> entries -> entries -> Prop) : (forall R, P a m R R) -> good f (fun w => (Ok a, w)) m0 m P.
Proof. intros H w0 R d w S I. exists m, R, []. rewrite app_nil_r. split; [done|apply H]. Qed.
Lemma good_weaken {A} (f : flavour) (g : world -> res A * world) (m0 m : descs) (P Q : A -> descs -> entries -> entries -> Prop) :
  good f g m0 m P -> (forall a m' R R', P a m' R R' -> Q a m' R R') -> good f g m0 m Q.
Proof.
  intros G H w0 R d w S I. specialize (G w0 R d w S I). destruct (g w) as [[a|e|] w']; [|done..].
  destruct G as (m' & R' & d' & I' & Pa). exists m', R', d'. split; [done|]. by apply H.
Qed.
Lemma good_open (f : flavour) (c : kcall) x m : needed f c ->
  good f (sys_open c x) m m (fun n m' R R' => m !! n = None /\ m' = <[n := x]> m /\ R' = R).
Proof.
  intros Nd w0 R d w S I. unfold sys_open. destruct (an_err (now w)) as [e|].
  - eexists R, [_]. split; [by apply inv_answered|]. exists c, e. split; [by left|by apply needed_shown].
  - destruct (opened w !! an_fst (now w)) eqn:E.
    + eexists R, [_]. split; [by apply inv_answered|]. exists c, EMFILE. split; [by left|by apply needed_shown].
    + destruct (inv_insert w0 m R _ (answered w c None) (an_fst (now w)) x (inv_answered _ _ _ _ _ c None I) E) as [N I'].
      exists (<[an_fst (now w) := x]> m), R, [(c, None)]. by split.
Qed.
Lemma good_open2 (f : flavour) (c : kcall) x y m : needed f c ->
  good f (sys_open2 c x y) m m (fun n m' R R' => m !! n.1 = None /\ m !! n.2 = None /\ n.1 <> n.2 /\ m' = <[n.1 := x]> (<[n.2 := y]> m) /\ R' = R).
Proof.
  intros Nd w0 R d w S I. unfold sys_open2.
  assert (X : forall e, exists R' d', inv w0 m R' (d ++ d') (answered w c (Some e)) /\ blame f (EOs e) d').
  { intros e. eexists R, [_]. split; [by apply inv_answered|]. exists c, e. split; [by left|by apply needed_shown]. }
  destruct (an_err (now w)) as [e|]; [apply X|]. set (a := an_fst (now w)). set (b := an_snd (now w)).
  destruct (opened w !! a) eqn:E1; [apply X|]. destruct (opened w !! b) eqn:E2; [apply X|]. case_decide as N; [apply X|].
  destruct (inv_insert w0 m R _ (answered w c None) b y (inv_answered _ _ _ _ _ c None I) E2) as [N1 I1].
  destruct (inv_insert w0 _ R _ _ a x I1) as [N2 I2]; [cbn; by rewrite lookup_insert_ne by done|].
  rewrite lookup_insert_ne in N2 by done.
  exists (<[a := x]> (<[b := y]> m)), R, [(c, None)]. split; [done|]. by split_and!.
Qed.
Lemma good_do (f : flavour) (c : kcall) (g : world -> world) m (P : descs -> entries -> entries -> Prop) : needed f c ->
  (forall w0 R d w, sane w0 -> inv w0 m R d w -> exists m' R', inv w0 m' R' d (g w) /\ P m' R R') ->
  good f (sys_do c g) m m (fun _ => P).
Proof.
  intros Nd H w0 R d w S I. unfold sys_do. destruct (an_err (now w)) as [e|].
  - eexists R, [_]. split; [by apply inv_answered|]. exists c, e. split; [by left|by apply needed_shown].
  - destruct (H w0 R _ (answered w c None) S (inv_answered _ _ _ _ _ c None I)) as (m' & R' & I' & Q). by exists m', R', [(c, None)].
Qed.
Lemma good_same (f : flavour) (c : kcall) m : needed f c -> good f (sys_do c id) m m (fun _ m' R R' => m' = m /\ R' = R).
Proof. intros Nd. apply good_do; [done|]. intros w0 R d w S I. by exists m, R. Qed.
Lemma good_alter (f : flavour) (c : kcall) n g m : needed f c -> is_Some (m !! n) ->
  good f (sys_do c (change_desc n g)) m m (fun _ m' R R' => m' = alter g n m /\ R' = R).
Proof. intros Nd H. apply good_do; [done|]. intros w0 R d w S I. exists (alter g n m), R. split; [by apply inv_alter|done]. Qed.
Lemma good_watch (f : flavour) (c : kcall) x v m : needed f c -> is_Some (m !! x.1) ->
  good f (sys_do c (fun w => set_regs w (<[x := v]> (regs w)))) m m (fun _ m' R R' => m' = m /\ R' = <[x := v]> R).
Proof. intros Nd H. apply good_do; [done|]. intros w0 R d w S I. exists m, (<[x := v]> R). split; [by apply inv_watch|done]. Qed.
(** A call whose result is not looked at. *)
Lemma ignore_unwatch w0 m R d w c x : sane w0 -> inv w0 m R d w -> is_Some (m !! x.1) ->
  exists R' d', inv w0 m R' (d ++ d') (ignore (sys_do c (fun w => set_regs w (delete x (regs w)))) w).
Proof.
  intros S I H. unfold ignore, sys_do. destruct (an_err (now w)) as [e|]; cbn [snd].
  - exists R, [(c, Some e)]. by apply inv_answered.
  - exists (delete x R), [(c, None)]. apply inv_unwatch; [done|by apply inv_answered|done].
Qed.

Lemma alter_some n g (m : descs) k : is_Some (m !! k) -> is_Some (alter g n m !! k).
Proof. intros [x H]. destruct (decide (k = n)) as [->|]; [rewrite lookup_alter, H|rewrite lookup_alter_ne by done; rewrite H]; by eexists. Qed.
Lemma cleans_alter l m m0 n g : cleans l m m0 -> n ∈ l -> cleans l (alter g n m) m0.
Proof.
  intros (A & B & C) H. split; [done|]. split; [intros k Hk; by apply alter_some, B|]. intros k. rewrite C. case_decide as D; [done|].
  rewrite lookup_alter_ne; [done|]. by intros ->.
Qed.
Lemma cleans_nil m : cleans [] m m.
Proof. split; [constructor|]. split; [intros n H; by apply not_elem_of_nil in H|]. intros n. by rewrite decide_False by apply not_elem_of_nil. Qed.
Lemma cleans_one n x m : m !! n = None -> cleans [n] (<[n := x]> m) m.
Proof.
  intros N. split; [apply NoDup_singleton|]. split; [intros k ->%elem_of_list_singleton; rewrite lookup_insert; by eexists|].
  intros k. destruct (decide (k ∈ [n])) as [->%elem_of_list_singleton|X]; [done|]. rewrite lookup_insert_ne; [done|]. intros ->. apply X. by left.
Qed.
Lemma cleans_two a b x y m : m !! a = None -> m !! b = None -> a <> b -> cleans [b; a] (<[a := x]> (<[b := y]> m)) m.
Proof.
  intros N1 N2 D. split; [apply NoDup_cons; split; [intros ->%elem_of_list_singleton; done|apply NoDup_singleton]|]. split.
  - intros k [->| ->%elem_of_list_singleton]%elem_of_cons; [rewrite lookup_insert_ne, lookup_insert by done|rewrite lookup_insert]; by eexists.
  - intros k. destruct (decide (k ∈ [b; a])) as [[->| ->%elem_of_list_singleton]%elem_of_cons|X]; [done|done|].
    rewrite !lookup_insert_ne; [done|intros ->; apply X; by left|intros ->; apply X; right; by left].
Qed.

(** fcntl *)
Lemma good_cloexec {B} (f : flavour) (n : nat) (l : list nat) (k : world -> res B * world) (m0 m : descs) (P : B -> descs -> entries -> entries -> Prop) : cleans l m m0 -> is_Some (m !! n) ->
  good f k m0 (alter with_cloexec n m) P -> good f (set_cloexec n l k) m0 m P.
Proof.
  intros C H K. unfold set_cloexec. eapply good_try; [apply good_same; intros [X|X]; exact X|exact C|]. cbn. intros _ m' R R' [-> ->].
  eapply good_try; [apply good_alter; [intros [X|X]; exact X|done]|exact C|]. cbn. intros _ m2 R2 R3 [-> ->].
  eapply good_weaken; [exact K|]. cbn. by intros b m3 R4 R5 Q -> ->.
Qed.
Lemma good_nonblock {B} (f : flavour) (n : nat) (l : list nat) (k : world -> res B * world) (m0 m : descs) (P : B -> descs -> entries -> entries -> Prop) : cleans l m m0 -> is_Some (m !! n) ->
  good f k m0 (alter with_nonblock n m) P -> good f (set_nonblock n l k) m0 m P.
Proof.
  intros C H K. unfold set_nonblock. eapply good_try; [apply good_same; intros [X|X]; exact X|exact C|]. cbn. intros _ m' R R' [-> ->].
  eapply good_try; [apply good_alter; [intros [X|X]; exact X|done]|exact C|]. cbn. intros _ m2 R2 R3 [-> ->].
  eapply good_weaken; [exact K|]. cbn. by intros b m3 R4 R5 Q -> ->.
Qed.

(** Two new descriptors. *)
Definition two (x y : desc) (n : nat * nat) (m m' : descs) : Prop :=
  m !! n.1 = None /\ m !! n.2 = None /\ n.1 <> n.2 /\ m' = <[n.1 := x]> (<[n.2 := y]> m).
Lemma two_fst x y n m m' g : two x y n m m' -> two (g x) y n m (alter g n.1 m').
Proof. intros (A & B & C & ->). split_and!; try done. apply map_eq. intros i. destruct (decide (i = n.1)) as [->|]; [by rewrite lookup_alter, !lookup_insert|]. by rewrite lookup_alter_ne, !(lookup_insert_ne _ n.1) by done. Qed.
Lemma two_snd x y n m m' g : two x y n m m' -> two x (g y) n m (alter g n.2 m').
Proof.
  intros (A & B & C & ->). split_and!; try done. apply map_eq. intros i. destruct (decide (i = n.2)) as [->|].
  - by rewrite lookup_alter, !(lookup_insert_ne _ n.1), !lookup_insert by done.
  - rewrite lookup_alter_ne by done. destruct (decide (i = n.1)) as [->|]; [by rewrite !lookup_insert|]. by rewrite !lookup_insert_ne by done.
Qed.
Lemma two_cleans x y n m m' : two x y n m m' -> cleans [n.2; n.1] m' m.
Proof. intros (A & B & C & ->). by apply cleans_two. Qed.
Lemma two_some x y n m m' : two x y n m m' -> is_Some (m' !! n.1) /\ is_Some (m' !! n.2).
Proof. intros (A & B & C & ->). rewrite lookup_insert, lookup_insert_ne, lookup_insert by done. by split; eexists. Qed.

Definition cloexec_pipe (n : nat * nat) (m m' : descs) : Prop := two (Desc KPipeRead true false) (Desc KPipeWrite true false) n m m'.
Lemma good_fallback (f : flavour) m : good f fallback_pipe m m (fun n m' R R' => cloexec_pipe n m m' /\ R' = R).
Proof.
  unfold fallback_pipe. eapply good_try; [apply good_open2; intros [X|X]; exact X|apply cleans_nil|]. cbn. intros [r w] m' R R' (A & B & C & D & ->).
  assert (T : two (Desc KPipeRead false false) (Desc KPipeWrite false false) (r, w) m m') by done. clear A B C D.
  apply good_cloexec; [by apply (two_cleans _ _ (r, w) _ _ T)|by apply (two_some _ _ (r, w)) in T as [? ?]|]. apply (two_fst _ _ _ _ _ with_cloexec) in T. cbn [fst] in T.
  apply good_cloexec; [by apply (two_cleans _ _ (r, w) _ _ T)|by apply (two_some _ _ (r, w)) in T as [? ?]|]. apply (two_snd _ _ _ _ _ with_cloexec) in T. cbn [snd] in T.
  apply good_ret. by intros R1 ->.
Qed.
Lemma good_pipe (f : flavour) m : good f pipe_or_fallback m m (fun n m' R R' => cloexec_pipe n m m' /\ R' = R).
Proof.
  intros w0 R d w S I. unfold pipe_or_fallback, sys_open2.
  assert (X : forall e, match fallback_pipe (answered w Pipe2 (Some e)) with
    | (Ok a, w') => exists m' R' d', inv w0 m' R' (d ++ d') w' /\ cloexec_pipe a m m' /\ R' = R
    | (Err e, w') => exists R' d', inv w0 m R' (d ++ d') w' /\ blame f e d' | (Panic, _) => False end).
  { intros e. pose proof (good_fallback f m w0 R _ _ S (inv_answered _ _ _ _ _ Pipe2 (Some e) I)) as G.
    destruct (fallback_pipe _) as [[a|e'|] w']; [| |done].
    - destruct G as (m' & R' & d' & I' & Q). exists m', R', ([(Pipe2, Some e)] ++ d'). by rewrite app_assoc.
    - destruct G as (R' & d' & I' & Q). exists R', ([(Pipe2, Some e)] ++ d'). rewrite app_assoc. split; [done|by apply blame_app]. }
  destruct (an_err (now w)) as [e|]; [apply X|]. set (a := an_fst (now w)). set (b := an_snd (now w)).
  destruct (opened w !! a) eqn:E1; [apply X|]. destruct (opened w !! b) eqn:E2; [apply X|]. case_decide as N; [apply X|].
  destruct (inv_insert w0 m R _ (answered w Pipe2 None) b (Desc KPipeWrite true false) (inv_answered _ _ _ _ _ Pipe2 None I) E2) as [N1 I1].
  destruct (inv_insert w0 _ R _ _ a (Desc KPipeRead true false) I1) as [N2 I2]; [cbn; by rewrite lookup_insert_ne by done|].
  rewrite lookup_insert_ne in N2 by done.
  eexists _, R, [(Pipe2, None)]. split; [exact I2|]. by split_and!.
Qed.

(** The notifier is one descriptor or two, close-on-exec and read without blocking. *)
Definition notifies (no : notifier) (m m' : descs) : Prop :=
  match no with
  | NEventfd n => m !! n = None /\ m' = <[n := Desc KEventfd true true]> m
  | NPipe r w => two (Desc KPipeRead true true) (Desc KPipeWrite true false) (r, w) m m'
  end.
Lemma good_pipe_notifier (f : flavour) g m : good f g m m (fun n m' R R' => cloexec_pipe n m m' /\ R' = R) ->
  good f (pipe_notifier g) m m (fun no m' R R' => (exists r w, no = NPipe r w) /\ notifies no m m' /\ R' = R).
Proof.
  intros G. unfold pipe_notifier. eapply good_try; [exact G|apply cleans_nil|]. cbn. intros [r w] m' R R' [T ->].
  apply good_nonblock; [by apply (two_cleans _ _ (r, w) _ _ T)|by apply (two_some _ _ (r, w)) in T as [? ?]|]. apply (two_fst _ _ _ _ _ with_nonblock) in T. cbn [fst] in T.
  apply good_ret. intros R1 ->. split; [by exists r, w|done].
Qed.
Lemma good_notifier (f : flavour) m : good f (epoll_notifier f) m m (fun no m' R R' => notifies no m m' /\ R' = R).
Proof.
  assert (P : good f (pipe_notifier pipe_or_fallback) m m (fun no m' R R' => notifies no m m' /\ R' = R)).
  { eapply good_weaken; [apply good_pipe_notifier, good_pipe|]. cbn. by intros a m' R R' (_ & ? & ?). }
  destruct f; try exact P.
  intros w0 R d w S I. unfold epoll_notifier, sys_open.
  assert (X : forall e, match pipe_notifier pipe_or_fallback (answered w Eventfd (Some e)) with
    | (Ok a, w') => exists m' R' d', inv w0 m' R' (d ++ d') w' /\ notifies a m m' /\ R' = R
    | (Err e, w') => exists R' d', inv w0 m R' (d ++ d') w' /\ blame Linux e d' | (Panic, _) => False end).
  { intros e. specialize (P w0 R _ _ S (inv_answered _ _ _ _ _ Eventfd (Some e) I)).
    destruct (pipe_notifier _ _) as [[a|e'|] w']; [| |done].
    - destruct P as (m' & R' & d' & I' & Q). exists m', R', ([(Eventfd, Some e)] ++ d'). by rewrite app_assoc.
    - destruct P as (R' & d' & I' & Q). exists R', ([(Eventfd, Some e)] ++ d'). rewrite app_assoc. split; [done|by apply blame_app]. }
  destruct (an_err (now w)) as [e|]; [apply X|].
  destruct (opened w !! an_fst (now w)) eqn:E; [apply X|].
  destruct (inv_insert w0 m R _ (answered w Eventfd None) (an_fst (now w)) (Desc KEventfd true true) (inv_answered _ _ _ _ _ Eventfd None I) E) as [N I'].
  eexists _, R, [(Eventfd, None)]. split; [exact I'|]. by split.
Qed.
