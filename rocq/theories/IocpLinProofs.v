(** Proof of C109: the moments at which the calls take effect. *)
From stdpp Require Import prelude list gmap.
From Verif Require Import Bits Types EventModel Pool IocpModel IocpSpec IocpLinSpec.
From Verif Require Import IocpProofs IocpProofs2 IocpProofs3 IocpProofs4 IocpProofs5 IocpProofs6 IocpProofs7 IocpProofs8 IocpProofs9 IocpProofs10.
Local Open Scope nat_scope.

Lemma visible_app h d : visible (h ++ d) = visible h ++ visible d.
Proof. apply omap_app. Qed.
Lemma visible_map d : visible (map Seen d) = d.
Proof. induction d as [|o d IH]; [done|]. cbn. f_equal. exact IH. Qed.
Lemma after_snoc h t : after (h ++ [t]) = reg_step (after h) t.
Proof. unfold after. by rewrite fold_left_app. Qed.
Lemma after_seen h d : after (h ++ map Seen d) = after h.
Proof.
  induction d as [|o d IH] using rev_ind; [by rewrite app_nil_r|].
  rewrite map_app, app_assoc. cbn [map]. by rewrite after_snoc.
Qed.
Lemma stages_seen i h g d : stages i h g -> Forall (fun o => call_obs o = false) d -> stages i (h ++ map Seen d) g.
Proof.
  intros H. induction d as [|o d IH] using rev_ind; intros F; [by rewrite app_nil_r|].
  apply Forall_app in F as [F1 F2]. apply Forall_cons in F2 as [F2 _].
  rewrite map_app, app_assoc. cbn [map]. apply (st_snoc i _ g); [by apply IH|]. by destruct o.
Qed.
Lemma given_app p h d : given p (h ++ d) = fold_left (given_step p) d (given p h).
Proof. unfold given. by rewrite fold_left_app. Qed.
Lemma given_same p h d : (forall e m, Armed p e m ∉ d) -> given p (h ++ d) = given p h.
Proof.
  rewrite given_app. generalize (given p h). induction d as [|o d IH]; intros x N; [done|]. cbn [fold_left]. rewrite IH.
  - destruct o; try done. cbn. case_decide as E; [|done]. subst. destruct (N e m). constructor.
  - intros e m H. apply (N e m). by constructor.
Qed.
Lemma given_armed p h e m : given p (h ++ [Armed p e m]) = Some (e, m).
Proof. rewrite given_app. cbn. by rewrite decide_True. Qed.
Lemma given_other p q h e m : p <> q -> given p (h ++ [Armed q e m]) = given p h.
Proof. intros N. rewrite given_app. cbn. by rewrite decide_False. Qed.

(** ** The invariant *)

(** Where a thread is, and what its call did. *)
Definition fits (T : src -> option pid) (G : pid -> option (event N * poll_mode)) (ths : list pc) (q : pc) (g : stage) : Prop :=
  match q with
  | Out => g = Idle'
  | AMake c | MLook c | DRemove c | NSwap c | Post c _ => g = InCall c
  | AInsert c p => g = InCall c /\ exists k v, kind_of c = KAdd k v /\ G p = Some v
  | MSet c p =>
      exists k v, kind_of c = KModify k v /\
      ((g = InCall c /\ T k = Some p)
       \/ (g = Effected c Carried /\ (forall k, T k <> Some p) /\ forall j c', ths !! j <> Some (AInsert c' p)))
  | Upd c _ _ | DBegin c _ => g = Effected c Carried
  | Ret c r => exists a, g = Effected c a /\ answers c a r
  end.
Record ties (T : src -> option pid) (G : pid -> option (event N * poll_mode)) (ths : list pc) (h : list item) : Prop := {
  l_reg : exists R, after h = Some R /\ (forall k, R !! k = p ← T k; G p) /\ forall k p, T k = Some p -> is_Some (G p);
  l_in : forall i q, ths !! i = Some q -> exists g, stages i h g /\ fits T G ths q g;
  l_out : forall i, ths !! i = None -> stages i h Idle'
}.
Definition linv (s : state) : Prop :=
  exists h, visible h = log s /\ closes_reported h /\ ties (holds s) (fun p => given p (log s)) (threads s) h.

Lemma fair_app h e : closes_reported h -> (forall x, Closed x ∉ e) -> closes_reported (h ++ e).
Proof.
  intros F N h1 x h2 E. apply app_eq_inv in E as [(l & E1 & E2)|(l & E1 & E2)].
  - destruct l as [|y l]; [|injection E2 as <- E2; by apply (F h1 x l)]. destruct (N x). cbn in E2. rewrite <-E2. constructor.
  - destruct (N x). rewrite E2. apply elem_of_app. right. constructor.
Qed.
Lemma fair_seen h d : closes_reported h -> closes_reported (h ++ map Seen d).
Proof. intros F. apply fair_app; [done|]. intros x (o & ? & _)%elem_of_list_fmap. done. Qed.
Ltac fair := first [done | by apply fair_seen | apply fair_app; [fair|]; intros ?; rewrite ?elem_of_app, ?elem_of_cons, ?elem_of_nil; naive_solver].
(** Only AInsert matters of the other threads. *)
Lemma fits_ext T G ths T' G' ths' q g :
  fits T G ths q g -> (forall k, T' k = T k) ->
  (forall c p, q = AInsert c p -> G' p = G p) ->
  (forall j c p, ths' !! j = Some (AInsert c p) -> (exists j c, ths !! j = Some (AInsert c p)) \/ (forall c', q <> MSet c' p)) ->
  fits T' G' ths' q g.
Proof.
  intros F ET EG EH. destruct q; cbn in *; try done.
  - destruct F as (-> & k & v & K & E). split; [done|]. exists k, v. split; [done|]. by rewrite (EG _ _ eq_refl).
  - destruct F as (k & v & K & F). exists k, v. split; [done|]. destruct F as [(-> & E)|(-> & E & N)]; [left|right].
    + split; [done|]. by rewrite ET.
    + split; [done|]. split; [intros k'; by rewrite ET|]. intros j c' X. destruct (EH _ _ _ X) as [(j' & c'' & Y)|Y]; [by apply (N j' c'')|by apply (Y c)].
Qed.

Lemma stages_step i h g t g' : stages i h g -> ends i g t g' -> stages i (h ++ [t]) g'.
Proof. intros; by econstructor. Qed.
Lemma stages_effect j i h g c a : j <> i -> stages j h g -> stages j (h ++ [Effect i c a]) g.
Proof. intros N H. apply (stages_step _ _ g); [done|]. cbn. by rewrite decide_False. Qed.
Lemma stages_effected i h c a : stages i h (InCall c) -> stages i (h ++ [Effect i c a]) (Effected c a).
Proof. intros H. eapply stages_step; [done|]. cbn. by rewrite decide_True. Qed.
Lemma stages_closed j h g x : stages j h g -> stages j (h ++ [Closed x]) g.
Proof. intros H. by apply (stages_step _ _ g). Qed.

Definition shows (T : src -> option pid) (G : pid -> option (event N * poll_mode)) (h : list item) : Prop :=
  exists R, after h = Some R /\ (forall k, R !! k = p ← T k; G p) /\ forall k p, T k = Some p -> is_Some (G p).

Lemma ties_step T G ths h i q q' T' G' e :
  ties T G ths h -> ths !! i = Some q ->
  (forall j g, j <> i -> stages j h g -> exists g', stages j (h ++ e) g' /\ 
     (ths !! j = None -> g' = g) /\ forall r, ths !! j = Some r -> fits T G ths r g -> fits T' G' (<[i:=q']> ths) r g') ->
  shows T' G' (h ++ e) ->
  (forall g, stages i h g -> fits T G ths q g -> exists g', stages i (h ++ e) g' /\ fits T' G' (<[i:=q']> ths) q' g') ->
  ties T' G' (<[i:=q']> ths) (h ++ e).
Proof.
  intros [LR LI LO] Hq S R F. split; [exact R| |].
  - intros j r Hj. destruct (decide (j = i)) as [->|N].
    + rewrite list_lookup_insert in Hj by by eapply lookup_lt_Some. injection Hj as <-.
      destruct (LI _ _ Hq) as (g & Sg & Fg). by apply (F g).
    + rewrite list_lookup_insert_ne in Hj by done. destruct (LI _ _ Hj) as (g & Sg & Fg).
      destruct (S j g N Sg) as (g' & Sg' & _ & X). exists g'. split; [done|]. by apply X.
  - intros j Hj. destruct (decide (j = i)) as [->|N].
    + rewrite list_lookup_insert in Hj by by eapply lookup_lt_Some. done.
    + rewrite list_lookup_insert_ne in Hj by done. destruct (S j _ N (LO _ Hj)) as (g' & Sg' & E & _). by rewrite <-(E Hj).
Qed.
Lemma shows_ext T G T' G' h h' : shows T G h -> after h' = after h -> (forall k, T' k = T k) -> (forall k p, T k = Some p -> G' p = G p) -> shows T' G' h'.
Proof.
  intros (R & E & ER & EG) EA ET EG'. exists R. rewrite EA. split; [done|]. split.
  - intros k. rewrite ER, ET. destruct (T k) eqn:X; [|done]. cbn. by rewrite (EG' _ _ X).
  - intros k p. rewrite ET. intros X. rewrite (EG' _ _ X). by apply (EG k).
Qed.

(** A step of a thread that changes neither the tables nor what the packets were given. *)
Lemma ties_quiet T G ths h i q q' T' G' e :
  ties T G ths h -> ths !! i = Some q -> (forall k, T' k = T k) -> (forall p, G' p = G p) -> (forall c p, q' <> AInsert c p) ->
  (forall j g, j <> i -> stages j h g -> stages j (h ++ e) g) ->
  (forall g, stages i h g -> fits T G ths q g -> exists g', stages i (h ++ e) g' /\ fits T' G' (<[i:=q']> ths) q' g') ->
  (forall R g, after h = Some R -> (forall k, R !! k = p ← T k; G p) -> fits T G ths q g -> after (h ++ e) = Some R) ->
  ties T' G' (<[i:=q']> ths) (h ++ e).
Proof.
  intros I Hq ET EG N S F A. eapply (ties_step T G ths h i q); try done.
  - intros j g Nj Sg. exists g. split; [by apply S|]. split; [done|]. intros r Hr Fr. apply (fits_ext T G ths); try done.
    intros l c p X. left. destruct (decide (l = i)) as [->|].
    + rewrite list_lookup_insert in X by by eapply lookup_lt_Some. injection X as X. by apply N in X.
    + rewrite list_lookup_insert_ne in X by done. by exists l, c.
  - destruct (l_reg _ _ _ _ I) as (R & E & ER & EX). destruct (l_in _ _ _ _ I _ _ Hq) as (g & _ & Fg).
    apply (shows_ext T G _ _ h); try done; [by exists R|]. rewrite E. by apply (A R g).
Qed.

(** Modifies that found packet [p] take effect before it is removed. *)
Lemma helped T G ths h k p n :
  ties T G ths h -> T k = Some p -> (forall k', T k' = Some p -> k' = k) ->
  exists e, visible e = [] /\ (forall x, Closed x ∉ e)
  /\ (forall j, j < n -> forall c, ths !! j = Some (MSet c p) -> stages j (h ++ e) (Effected c Carried))
  /\ (forall j g, (n <= j \/ forall c, ths !! j <> Some (MSet c p)) -> stages j h g -> stages j (h ++ e) g)
  /\ exists R, after (h ++ e) = Some R /\ is_Some (R !! k) /\ forall k', k' <> k -> R !! k' = q ← T k'; G q.
Proof.
  intros I Tk U. induction n as [|n IH].
  - exists []. rewrite app_nil_r. split; [done|]. split; [intros x; apply not_elem_of_nil|]. split; [lia|]. split; [done|]. destruct (l_reg _ _ _ _ I) as (R & E & ER & EX).
    exists R. split; [done|]. split; [|done]. rewrite ER, Tk. cbn. by apply (EX k).
  - destruct IH as (e & E0 & EC & E1 & E2 & R & E3 & E4 & E5).
    assert (Hc : (exists c, ths !! n = Some (MSet c p)) \/ forall c, ths !! n <> Some (MSet c p)).
    { destruct (ths !! n) as [[]|]; try (right; by intros c' X). destruct (decide (p0 = p)) as [->|]; [left; by eexists|right; by intros c' [= _ ?]]. }
    destruct Hc as [[c Hc]|Hc].
    + destruct (l_in _ _ _ _ I _ _ Hc) as (g & Sg & Fg). cbn in Fg. destruct Fg as (k1 & v & K & [(-> & X)|(-> & X & _)]); [|by apply X in Tk].
      pose proof (U _ X) as ->. exists (e ++ [Effect n c Carried]). rewrite visible_app, E0. split; [done|].
      split; [intros x [X1|X1]%elem_of_app; [by apply EC in X1|by apply elem_of_list_singleton in X1]|]. rewrite !app_assoc. split_and!.
      * intros j Hj c' Hc'. destruct (decide (j = n)) as [->|].
        -- rewrite Hc in Hc'. injection Hc' as <-. apply stages_effected. apply E2; [by left|done].
        -- apply stages_effect; [done|]. apply E1; [lia|done].
      * intros j g Hj Sg'. destruct (decide (j = n)) as [->|]; [destruct Hj as [|Hj]; [lia|]; by destruct (Hj c)|].
        apply stages_effect; [done|]. apply E2; [|done]. destruct Hj; [left; lia|by right].
      * exists (<[k:=v]> R). split; [|split].
        -- rewrite after_snoc, E3. cbn. unfold perform. rewrite K. destruct E4 as [y ->]. done.
        -- exists v. apply lookup_insert.
        -- intros k' Nk. rewrite lookup_insert_ne by done. by apply E5.
    + exists e. split; [done|]. split; [done|]. split_and!.
      * intros j Hj c' Hc'. apply E1; [|done]. destruct (decide (j = n)) as [->|]; [by destruct (Hc c')|lia].
      * intros j g Hj Sg'. apply E2; [|done]. destruct Hj as [|]; [left; lia|by right].
      * by exists R.
Qed.
(** Removal of the packet of [k]. *)
Lemma ties_remove T G ths h k p ths' T' G' f t :
  ties T G ths h -> T k = Some p -> (forall k', T k' = Some p -> k' = k) -> (forall j c, ths !! j <> Some (AInsert c p)) ->
  T' k = None -> (forall k', k' <> k -> T' k' = T k') -> (forall p, G' p = G p) ->
  (* the moved thread, if any, and its item *)
  (forall j r, f j = false -> ths' !! j = Some r -> ths !! j = Some r) -> (forall j, ths' !! j = None -> ths !! j = None) ->
  (forall j c p, ths' !! j = Some (AInsert c p) -> ths !! j = Some (AInsert c p)) ->
  (forall j h g, f j = false -> stages j h g -> stages j (h ++ [t]) g) ->
  (forall j r g h, f j = true -> ths' !! j = Some r -> exists q, ths !! j = Some q /\ (forall c, q <> MSet c p) /\
     (fits T G ths q g -> stages j h g -> exists g', stages j (h ++ [t]) g' /\ fits T' G' ths' r g')) ->
  (forall j, f j = true -> is_Some (ths' !! j)) ->
  (forall R, is_Some (R !! k) -> reg_step (Some R) t = Some (delete k R)) ->
  exists e, visible e = [] /\ (forall x, Closed x ∉ e) /\ ties T' G' ths' (h ++ e ++ [t]).
Proof.
  intros I Tk U NA T1 T2 EG F1 F2 F4 F5 F6 F7 F8.
  destruct (helped T G ths h k p (length ths) I Tk U) as (e & E0 & EC & E1 & E2 & R & E3 & E4 & E5).
  exists e. split; [done|]. split; [done|]. rewrite app_assoc. split.
  - exists (delete k R). rewrite after_snoc, E3. split; [by apply F8|]. split.
    + intros k'. destruct (decide (k' = k)) as [->|Nk]; [by rewrite lookup_delete, T1|].
      rewrite lookup_delete_ne, E5, T2 by done. destruct (T k'); [|done]. cbn. by rewrite EG.
    + intros k' q Hq. rewrite EG. destruct (decide (k' = k)) as [->|Nk]; [by rewrite T1 in Hq|]. rewrite T2 in Hq by done.
      destruct (l_reg _ _ _ _ I) as (_ & _ & _ & EX). by apply (EX k').
  - intros j r Hj. destruct (f j) eqn:Fj.
    + destruct (F6 j r Idle' h Fj Hj) as (q & Hq & Nq & _). destruct (l_in _ _ _ _ I _ _ Hq) as (g & Sg & Fg).
      destruct (F6 j r g (h ++ e) Fj Hj) as (q' & Hq' & _ & X). rewrite Hq in Hq'. injection Hq' as <-. apply X; [done|].
      apply E2; [|done]. right. intros c Hc. rewrite Hq in Hc. injection Hc as Hc. by apply (Nq c).
    + pose proof (F1 _ _ Fj Hj) as Hr. destruct (l_in _ _ _ _ I _ _ Hr) as (g & Sg & Fg).
      assert (Hd : (exists c, r = MSet c p) \/ forall c, r <> MSet c p).
      { destruct r; try (right; by intros c' X). destruct (decide (p0 = p)) as [->|]; [left; by eexists|right; by intros c' [= _ ?]]. }
      destruct Hd as [[c ->]|Nd].
      * exists (Effected c Carried). split; [apply F5; [done|]; apply E1; [by eapply lookup_lt_Some|done]|]. cbn in Fg |- *.
        destruct Fg as (k1 & v & K & _). exists k1, v. split; [done|]. right. split; [done|]. split.
        -- intros k' X. destruct (decide (k' = k)) as [->|Nk]; [by rewrite T1 in X|]. rewrite T2 in X by done. by apply U in X.
        -- intros l c' X. apply F4 in X. by apply NA in X.
      * exists g. split; [apply F5; [done|]; apply E2; [right; intros c Hc; rewrite Hr in Hc; injection Hc as Hc; by apply (Nd c)|done]|].
        destruct r; cbn in Fg |- *; try done.
        -- destruct Fg as (-> & k1 & v & K & X). split; [done|]. exists k1, v. by rewrite EG.
        -- destruct Fg as (k1 & v & K & Fg). exists k1, v. split; [done|]. destruct Fg as [(-> & X)|(-> & X & Y)]; [left|right].
           ++ split; [done|]. rewrite T2; [done|]. intros ->. rewrite Tk in X. injection X as ->. by apply (Nd c).
           ++ split; [done|]. split.
              ** intros k' Z. destruct (decide (k' = k)) as [->|Nk]; [by rewrite T1 in Z|]. rewrite T2 in Z by done. by apply X in Z.
              ** intros l c' Z. apply F4 in Z. by apply Y in Z.
  - intros j Hj. assert (Fj : f j = false). { destruct (f j) eqn:Fj; [|done]. destruct (F7 _ Fj) as [? X]. congruence. }
    apply F5; [done|]. apply E2; [right; intros c Hc; rewrite (F2 _ Hj) in Hc; done|]. apply (l_out _ _ _ _ I). by apply F2.
Qed.

(** ** The steps *)

Lemma holds_inj s k k' p : tinv s -> holds s k = Some p -> holds s k' = Some p -> k' = k.
Proof.
  intros T H H'. destruct k as [x|x], k' as [y|y]; cbn in H, H'.
  - destruct (sources s !! x) as [n|] eqn:E; [|done]. destruct (sources s !! y) as [n'|] eqn:E'; [|done]. simplify_eq/=.
    destruct (t_src _ T _ _ E) as (k & E1 & <-). destruct (t_src _ T _ _ E') as (k' & E2 & <-). rewrite E1 in E2. by injection E2 as <-.
  - destruct (sources s !! x); [|done]. destruct (waitables s !! y); simplify_eq/=.
  - destruct (waitables s !! x); [|done]. destruct (sources s !! y); simplify_eq/=.
  - destruct (waitables s !! x) as [n|] eqn:E; [|done]. destruct (waitables s !! y) as [n'|] eqn:E'; [|done]. simplify_eq/=.
    destruct (t_wts _ T _ _ E) as (k & E1 & <-). destruct (t_wts _ T _ _ E') as (k' & E2 & <-). rewrite E1 in E2. by injection E2 as <-.
Qed.
Lemma holds_table s k p : holds s k = Some p -> p ∈ table_refs s.
Proof.
  intros H. apply table_in. destruct k as [x|x]; cbn in H.
  - destruct (sources s !! x) as [n|] eqn:E; [|done]. injection H as <-. by exists x.
  - destruct (waitables s !! x) as [n|] eqn:E; [|done]. injection H as <-. by exists x.
Qed.
Lemma insert_out s i c p k : kinv s -> threads s !! i = Some (AInsert c p) -> holds s k <> Some p.
Proof.
  intros [K _] Hq H. specialize (K p). unfold tok in K. pose proof (occ_in _ _ (holds_table _ _ _ H)).
  pose proof (occ_concat_in held p _ _ _ Hq) as X. cbn [held] in X. rewrite occ_one, decide_True in X by done. lia.
Qed.
Lemma insert_once s i c j c' p : kinv s -> threads s !! i = Some (AInsert c p) -> threads s !! j = Some (AInsert c' p) -> j = i.
Proof.
  intros [K _] Hi Hj. destruct (decide (j = i)) as [|N]; [done|]. exfalso. specialize (K p). unfold tok in K.
  pose proof (occ_concat held p _ _ _ Out Hi) as X. cbn [held] in X. rewrite occ_one, decide_True, occ_nil in X by done.
  assert (Hj' : <[i:=Out]> (threads s) !! j = Some (AInsert c' p)) by by rewrite list_lookup_insert_ne.
  pose proof (occ_concat_in held p _ _ _ Hj') as Y. cbn [held] in Y. rewrite occ_one, decide_True in Y by done. lia.
Qed.
Definition system_answer (r : res unit) : Prop := r = Ok tt \/ exists e, r = Err (EOs e).
Lemma update_answer m k p o : source m p -> system_answer (ef_res (update m k p o)).
Proof.
  unfold system_answer. intros S. unfold update, afd_poll, afd_cancel. destruct p as [n|n|n|]; cbn in S; try done; destruct S as [x ->]; repeat case_match; cbn; eauto.
Qed.
Lemma delete_answer m k p o : source m p -> system_answer (ef_res (begin_delete m k p o)).
Proof.
  unfold system_answer. intros S. unfold begin_delete, afd_cancel. destruct p as [n|n|n|]; cbn in S; try done; destruct S as [x ->]; repeat case_match; cbn; eauto.
Qed.
Lemma ustep_answer c s p u o s' r : source (pmem s) p -> upc_ok (pmem s) u -> ustep c s p u o = (s', inr r) -> system_answer r.
Proof.
  intros Sp Su H. unfold ustep in H. destruct u as [| | |[|n]|n q]; try done.
  - injection H as <- <-. by apply update_answer.
  - case_decide; [|done]. injection H as <- <-. by left.
  - by destruct (pending s).
  - pose proof (update_answer (pmem s) (sys s) q o Su) as X. cbn -[update] in H. destruct (ef_res _); simplify_eq; done.
Qed.

Lemma given_own p h d : Forall own d -> given p (h ++ d) = given p h.
Proof. intros F. apply given_same. intros e m X. rewrite Forall_forall in F. by destruct (F _ X). Qed.
Lemma ties_same T G ths h T' G' d :
  ties T G ths h -> (forall k, T' k = T k) -> (forall p, G' p = G p) -> Forall (fun o => call_obs o = false) d ->
  ties T' G' ths (h ++ map Seen d).
Proof.
  intros I ET EG F. split.
  - apply (shows_ext T G _ _ h); try done; [exact (l_reg _ _ _ _ I)|apply after_seen].
  - intros i q Hq. destruct (l_in _ _ _ _ I _ _ Hq) as (g & Sg & Fg). exists g. split; [by apply stages_seen|]. apply (fits_ext T G ths); try done.
    intros j c p X. left. by exists j, c.
  - intros i Hi. apply stages_seen; [|done]. by apply (l_out _ _ _ _ I).
Qed.
Lemma linv_same s s' d :
  linv s -> threads s' = threads s -> (forall k, holds s' k = holds s k) -> log s' = log s ++ d -> Forall own d -> linv s'.
Proof.
  intros (h & E & FR & I) ET EH EL F. exists (h ++ map Seen d). split; [by rewrite visible_app, visible_map, E, EL|]. split; [fair|]. rewrite ET.
  apply (ties_same (holds s) (fun p => given p (log s))); try done; [|by apply own_calls]. intros p. by rewrite EL, given_own.
Qed.
Lemma holds_same s s' : sources s' = sources s -> waitables s' = waitables s -> forall k, holds s' k = holds s k.
Proof. intros E1 E2 [x|x]; cbn; by rewrite ?E1, ?E2. Qed.

(** A step of thread [i] that leaves the tables and what was given, with an effect or not. *)
Lemma linv_quiet s i q s' q' d o :
  linv s -> threads s !! i = Some q -> threads s' = <[i:=q']> (threads s) -> (forall k, holds s' k = holds s k) ->
  log s' = log s ++ d -> Forall own d -> (forall c p, q' <> AInsert c p) ->
  (forall h g, stages i h g -> fits (holds s) (fun p => given p (log s)) (threads s) q g ->
     exists g', stages i (h ++ map (Effect i o.1) (option_list o.2)) g' /\ fits (holds s') (fun p => given p (log s')) (threads s') q' g') ->
  (forall R, (forall k, R !! k = p ← holds s k; given p (log s)) ->
     (forall k p, holds s k = Some p -> is_Some (given p (log s))) -> match o.2 with Some a => perform R o.1 a = Some R | None => True end) ->
  linv s'.
Proof.
  intros (h & E & FR & I) Hq ET EH EL F N S A. set (e := map (Effect i o.1) (option_list o.2)).
  exists ((h ++ map Seen d) ++ e).
  assert (I1 : ties (holds s) (fun p => given p (log s)) (threads s) (h ++ map Seen d)) by (apply (ties_same (holds s) (fun p => given p (log s))); try done; by apply own_calls).
  split; [rewrite !visible_app, visible_map, E, EL; unfold e; destruct o.2; cbn; by rewrite app_nil_r|].
  split; [apply fair_app; [by apply fair_seen|]; intros x (y & ? & _)%elem_of_list_fmap; done|]. rewrite ET.
  apply (ties_quiet (holds s) (fun p => given p (log s)) (threads s) _ i q); try done.
  - intros p. by rewrite EL, given_own.
  - intros j g Nj Sg. unfold e. destruct o.2 as [a|]; cbn; [by apply stages_effect|by rewrite app_nil_r].
  - intros g Sg Fg. destruct (S _ g Sg Fg) as (g' & Sg' & Fg'). exists g'. split; [done|]. by rewrite <-ET.
  - intros R g AR ER Fg. unfold e. destruct (l_reg _ _ _ _ I1) as (R1 & AR1 & _ & EX). specialize (A R ER EX).
    destruct o.2 as [a|]; cbn; [|by rewrite app_nil_r]. rewrite after_snoc, AR. exact A.
Qed.

Lemma look_kind s c p : is_modify c -> lookup_packet s c = p -> exists k v, kind_of c = KModify k v /\ holds s k = p.
Proof. intros M <-. destruct c; try done; cbn; eauto. Qed.
Lemma drop_kind s c p : is_delete c -> lookup_packet s c = p -> exists k, kind_of c = KDelete k /\ holds s k = p.
Proof. intros M <-. destruct c; try done; cbn; eauto. Qed.
Lemma add_kind c : is_add c -> exists k v, kind_of c = KAdd k v.
Proof. destruct c; try done; cbn; eauto. Qed.
Lemma holds_exists s k p : tinv s -> holds s k = Some p -> exists_in (pmem s) p.
Proof.
  intros T. destruct k as [x|x]; cbn.
  - destruct (sources s !! x) as [n|] eqn:E; [|done]. intros [= <-]. destruct (t_src _ T _ _ E) as (k & E1 & _). by exists k.
  - destruct (waitables s !! x) as [n|] eqn:E; [|done]. intros [= <-]. destruct (t_wts _ T _ _ E) as (k & E1 & _). by exists k.
Qed.
Lemma stages_seen1 i h g o : call_obs o = false -> stages i h g -> stages i (h ++ [Seen o]) g.
Proof. intros E H. apply (stages_seen i h g [o]); [done|by constructor]. Qed.

Lemma linv_call s i cl : linv s -> threads s !! i = Some Out -> linv (emit (set_pc s i (entry cl)) (Called i cl)).
Proof.
  intros (h & E & FR & I) Hq.
  assert (C : forall g, stages i h g -> fits (holds s) (fun p => given p (log s)) (threads s) Out g -> stages i (h ++ [Seen (Called i cl)]) (InCall cl)).
  { intros g Sg Fg. cbn in Fg. subst g. eapply stages_step; [done|]. cbn. by rewrite decide_True. }
  assert (O : forall j g, j <> i -> stages j h g -> stages j (h ++ [Seen (Called i cl)]) g).
  { intros j g N Sg. apply (stages_step _ _ g); [done|]. cbn. by rewrite decide_False. }
  assert (G : forall p, given p (log s ++ [Called i cl]) = given p (log s)) by (intros p; by rewrite given_app).
  assert (D : (exists g, forall T G ths, fits T G ths (entry cl) g /\ g = InCall cl) \/ (entry cl = Ret cl invalid_input /\ answers cl Aside invalid_input /\ forall R, perform R cl Aside = Some R)).
  { assert (Y : entry cl = Ret cl invalid_input \/ forall T G ths, fits T G ths (entry cl) (InCall cl)).
    { destruct cl; try (by right); destruct m; try (by right); by left. }
    destruct Y as [Y|Y]; [right|left; by exists (InCall cl)]. split; [done|]. destruct cl; cbn in Y; try done; cbn; auto. }
  destruct D as [[g D]|(D & A & P)].
  - exists (h ++ [Seen (Called i cl)]). split; [rewrite visible_app, E; done|]. split; [fair|]. cbn [threads log emit emits set_pc].
    apply (ties_quiet (holds s) (fun p => given p (log s)) (threads s) h i Out); try done.
    + destruct cl; cbn; try done; destruct m; done.
    + intros g' Sg Fg. exists (InCall cl). split; [by apply (C g')|]. destruct (D (holds s) (fun p => given p (log s ++ [Called i cl])) (<[i:=entry cl]> (threads s))) as [X ->]. exact X.
    + intros R g' AR _ _. by rewrite after_snoc.
  - exists (h ++ [Seen (Called i cl); Effect i cl Aside]). split; [rewrite visible_app, E; done|]. split; [fair|]. cbn [threads log emit emits set_pc].
    change [Seen (Called i cl); Effect i cl Aside] with ([Seen (Called i cl)] ++ [Effect i cl Aside]).
    apply (ties_quiet (holds s) (fun p => given p (log s)) (threads s) h i Out); try done.
    + by rewrite D.
    + intros j g N Sg. rewrite app_assoc. apply stages_effect; auto.
    + intros g' Sg Fg. exists (Effected cl Aside). rewrite app_assoc. split; [apply stages_effected; by apply (C g')|]. rewrite D. by exists Aside.
    + intros R g' AR _ _. rewrite app_assoc, !after_snoc, AR. apply P.
Qed.
Lemma linv_ret s i cl r : linv s -> threads s !! i = Some (Ret cl r) -> linv (emit (set_pc s i Out) (Returned i cl r)).
Proof.
  intros (h & E & FR & I) Hq. exists (h ++ [Seen (Returned i cl r)]). split; [rewrite visible_app, E; done|]. split; [fair|]. cbn [threads log emit emits set_pc].
  apply (ties_quiet (holds s) (fun p => given p (log s)) (threads s) h i (Ret cl r)); try done.
  - intros p. by rewrite given_app.
  - intros j g N Sg. apply (stages_step _ _ g); [done|]. cbn. by rewrite decide_False.
  - intros g Sg (a & -> & A). exists Idle'. split; [|done]. eapply stages_step; [done|]. cbn. rewrite decide_True by done. by exists a.
  - intros R g AR _ _. by rewrite after_snoc.
Qed.
(** A new packet. *)
Lemma linv_make s i cl m p ob :
  tinv s -> linv s -> threads s !! i = Some (AMake cl) -> new_packet (pmem s) cl = Some (m, p, ob) ->
  linv (set_pc (emit (set_mem s m) ob) i (AInsert cl p)).
Proof.
  intros T (h & E & FR & I) Hq H.
  assert (X : exists k v, kind_of cl = KAdd k v /\ ob = Armed p v.1 v.2 /\ ~ exists_in (pmem s) p).
  { destruct (t_dom _ T) as (D1 & D2 & D3). destruct cl; cbn in H; try done; injection H as <- <- <-; cbn.
    - eexists _, _. split; [done|]. split; [done|]. intros X%D1. lia.
    - eexists _, _. split; [done|]. split; [done|]. intros X%D2. lia. }
  destruct X as (k & v & K & -> & N). exists (h ++ [Seen (Armed p v.1 v.2)]). split; [rewrite visible_app, E; done|]. split; [fair|].
  cbn [threads log emit emits set_pc set_mem].
  change (holds (set_pc (emits (set_mem s m) [Armed p v.1 v.2]) i (AInsert cl p))) with (holds s).
  apply (ties_step (holds s) (fun p => given p (log s)) (threads s) h i (AMake cl)); try done.
  - intros j g Nj Sg. exists g. split; [by apply stages_seen1|]. split; [done|]. intros r Hr Fr. apply (fits_ext (holds s) (fun p => given p (log s)) (threads s)); try done.
    + intros c q ->. apply given_other. intros ->. apply N. pose proof (t_pc _ T _ _ Hr) as P. cbn in P. eapply source_exists, names_source, P.
    + intros l c q Hl. destruct (decide (l = i)) as [->|].
      * rewrite list_lookup_insert in Hl by by eapply lookup_lt_Some. injection Hl as <- <-. right. intros c' ->. apply N.
        pose proof (t_pc _ T _ _ Hr) as P. cbn in P. eapply source_exists, names_source, P.
      * rewrite list_lookup_insert_ne in Hl by done. left. by exists l, c.
  - apply (shows_ext (holds s) (fun p => given p (log s)) _ _ h); [exact (l_reg _ _ _ _ I)|by rewrite after_snoc|done|].
    intros k' q Hq'. apply given_other. intros ->. apply N. by eapply holds_exists.
  - intros g Sg Fg. cbn in Fg. subst g. exists (InCall cl). split; [by apply stages_seen1|]. split; [done|]. exists k, v. split; [done|].
    rewrite given_armed. by destruct v.
Qed.
(** It enters the table. *)
Lemma linv_insert s i cl p s' :
  tinv s -> kinv s -> linv s -> threads s !! i = Some (AInsert cl p) -> insert_packet s cl p = Some s' ->
  linv (set_pc s' i (Upd cl p ULoad)).
Proof.
  intros T K (h & E & FR & I) Hq H.
  assert (X : exists k v x, kind_of cl = KAdd k v /\ threads s' = threads s /\ log s' = log s ++ [Entered p x] /\ holds s k = None /\ holds s' k = Some p /\ forall k', k' <> k -> holds s' k' = holds s k').
  { destruct cl, p; cbn in H; try done; (case_in H; [done|]); injection H as <-; eexists _, _, _; (split; [done|]); cbn; do 2 (split; [done|]).
    - rewrite lookup_insert. split; [|split; [done|]].
      + match goal with E : sources s !! _ = None |- _ => by rewrite E end.
      + intros [y|y] Ny; [|done]. cbn. rewrite lookup_insert_ne by congruence. done.
    - rewrite lookup_insert. split; [|split; [done|]].
      + match goal with E : waitables s !! _ = None |- _ => by rewrite E end.
      + intros [y|y] Ny; [done|]. cbn. rewrite lookup_insert_ne by congruence. done. }
  clear H. destruct X as (k & v & x & Kd & ET & EL & H0 & H1 & H2).
  assert (EG : forall q, given q (log s') = given q (log s)) by (intros q; rewrite EL, given_app; done).
  exists (h ++ [Seen (Entered p x); Effect i cl Carried]). split; [rewrite visible_app, E; cbn; by rewrite EL|]. split; [fair|]. cbn [threads log set_pc]. rewrite ET.
  change [Seen (Entered p x); Effect i cl Carried] with ([Seen (Entered p x)] ++ [Effect i cl Carried]). rewrite app_assoc.
  change (holds (set_pc s' i (Upd cl p ULoad))) with (holds s').
  rewrite <-app_assoc. apply (ties_step (holds s) (fun p => given p (log s)) (threads s) h i (AInsert cl p)); try done; rewrite ?app_assoc.
  - intros j g Nj Sg. exists g. split; [apply stages_effect; [done|]; by apply stages_seen1|]. split; [done|]. intros r Hr Fr.
    destruct r; cbn in Fr |- *; try done.
    + destruct Fr as (-> & k' & v' & K' & G'). split; [done|]. exists k', v'. by rewrite EG.
    + destruct Fr as (k' & v' & K' & Fr). exists k', v'. split; [done|]. destruct Fr as [(-> & X)|(-> & X & Y)]; [left|right].
      * split; [done|]. rewrite H2; [done|]. intros ->. by rewrite H0 in X.
      * split; [done|]. split.
        -- intros k1 Z. destruct (decide (k1 = k)) as [->|]; [|rewrite H2 in Z by done; by apply X in Z].
           rewrite H1 in Z. injection Z as ->. by apply (Y i cl).
        -- intros l c' Z. destruct (decide (l = i)) as [->|]; [by rewrite list_lookup_insert in Z by by eapply lookup_lt_Some|].
           rewrite list_lookup_insert_ne in Z by done. by apply Y in Z.
  - destruct (l_in _ _ _ _ I _ _ Hq) as (g & Sg & (-> & k' & v' & K' & G')). rewrite Kd in K'. injection K' as <- <-.
    destruct (l_reg _ _ _ _ I) as (R & AR & ER & EX). exists (<[k:=v]> R). rewrite !after_snoc, AR. cbn. unfold perform. rewrite Kd, ER, H0. cbn.
    split; [done|]. split.
    + intros k'. destruct (decide (k' = k)) as [->|Nk]; [rewrite lookup_insert, H1; cbn; by rewrite EG|].
      rewrite lookup_insert_ne, ER, H2 by done. destruct (holds s k'); [|done]. cbn. by rewrite EG.
    + intros k' q Hk. rewrite EG. destruct (decide (k' = k)) as [->|Nk]; [|rewrite H2 in Hk by done; by apply (EX k')].
      rewrite H1 in Hk. injection Hk as <-. by exists v.
  - intros g Sg (-> & _). exists (Effected cl Carried). split; [|done]. apply stages_effected. by apply stages_seen1.
Qed.
(** A modify gives the packet its interest. *)
Lemma linv_set s i cl p s1 b q' :
  tinv s -> kinv s -> linv s -> threads s !! i = Some (MSet cl p) -> do_set s cl p = Some (s1, b) ->
  forall s', threads s' = <[i:=q']> (threads s) -> log s' = log s1 -> (forall k, holds s' k = holds s1 k) ->
  ((exists u, q' = Upd cl p u) \/ q' = Ret cl (Ok tt)) -> linv s'.
Proof.
  intros T K (h & E & FR & I) Hq H s' ET EL EH Q.
  assert (X : exists k v, kind_of cl = KModify k v /\ log s' = log s ++ [Armed p v.1 v.2] /\ forall k, holds s' k = holds s k).
  { destruct cl, p; cbn in H; try done; (case_in H; [|done]); cbn in H; injection H as <- _; cbn in EL; eexists _, _; (split; [done|]); (split; [exact EL|]); exact EH. }
  clear H EL EH s1. destruct X as (k & v & Kd & EL & EH).
  assert (Fq : forall T G ths, fits T G ths q' (Effected cl Carried)).
  { intros T' G' ths. destruct Q as [[u ->]| ->]; [done|]. exists Carried. split; [done|]. by left. }
  assert (NQ : forall c' p', q' <> AInsert c' p') by by destruct Q as [[u ->]| ->].
  destruct (l_in _ _ _ _ I _ _ Hq) as (g & Sg & (k' & v' & K' & Fg)). rewrite Kd in K'. injection K' as <- <-.
  assert (OT : forall j r g, j <> i -> threads s !! j = Some r -> fits (holds s) (fun p => given p (log s)) (threads s) r g ->
     fits (holds s') (fun p => given p (log s')) (<[i:=q']> (threads s)) r g).
  { intros j r g' Nj Hr Fr. apply (fits_ext (holds s) (fun p => given p (log s)) (threads s)); try done.
    - intros c q ->. rewrite EL. apply given_other. intros ->. destruct Fg as [(_ & X)|(_ & _ & X)]; [by eapply insert_out in X|by apply X in Hr].
    - intros l c q Hl. left. destruct (decide (l = i)) as [->|]; [rewrite list_lookup_insert in Hl by (by eapply lookup_lt_Some); injection Hl as Hl; by apply NQ in Hl|].
      rewrite list_lookup_insert_ne in Hl by done. by exists l, c. }
  destruct (l_reg _ _ _ _ I) as (R & AR & ER & EX).
  destruct Fg as [(-> & X)|(-> & X & Y)].
  - exists (h ++ [Seen (Armed p v.1 v.2); Effect i cl Carried]). split; [rewrite visible_app, E; cbn; by rewrite EL|]. split; [fair|]. rewrite ET.
    change [Seen (Armed p v.1 v.2); Effect i cl Carried] with ([Seen (Armed p v.1 v.2)] ++ [Effect i cl Carried]).
    apply (ties_step (holds s) (fun p => given p (log s)) (threads s) h i (MSet cl p)); try done; rewrite ?app_assoc.
    + intros j g Nj Sj. exists g. split; [apply stages_effect; [done|]; by apply stages_seen1|]. split; [done|]. intros r. by apply OT.
    + exists (<[k:=v]> R). rewrite !after_snoc, AR. cbn. unfold perform. rewrite Kd, ER, X. cbn.
      destruct (EX _ _ X) as [w Hw]. rewrite Hw. split; [done|]. split.
      * intros k1. rewrite EH. destruct (decide (k1 = k)) as [->|Nk]; [rewrite lookup_insert, X; cbn; rewrite EL, given_armed; by destruct v|].
        rewrite lookup_insert_ne, ER by done. destruct (holds s k1) as [q|] eqn:Hk; [|done]. cbn. rewrite EL, given_other; [done|].
        intros ->. apply Nk. by apply (holds_inj s _ _ p).
      * intros k1 q. rewrite EH. intros Hk. rewrite EL. destruct (decide (q = p)) as [->|]; [rewrite given_armed; done|]. rewrite given_other by done. by apply (EX k1).
    + intros g _ _. exists (Effected cl Carried). split; [|apply Fq]. apply stages_effected. by apply stages_seen1.
  - exists (h ++ [Seen (Armed p v.1 v.2)]). split; [rewrite visible_app, E; cbn; by rewrite EL|]. split; [fair|]. rewrite ET.
    apply (ties_step (holds s) (fun p => given p (log s)) (threads s) h i (MSet cl p)); try done.
    + intros j g Nj Sj. exists g. split; [by apply stages_seen1|]. split; [done|]. intros r. by apply OT.
    + apply (shows_ext (holds s) (fun p => given p (log s)) _ _ h); [by exists R|by rewrite after_snoc|done|].
      intros k' q Hk. rewrite EL. apply given_other. intros ->. by apply X in Hk.
    + intros g _ _. exists (Effected cl Carried). split; [|apply Fq]. by apply stages_seen1.
Qed.

Lemma no_insert_held s k p : kinv s -> holds s k = Some p -> forall j c, threads s !! j <> Some (AInsert c p).
Proof. intros K H j c X. by apply (insert_out _ _ _ _ k K X). Qed.

Lemma linv_thread c s i q a s' :
  tinv s -> kinv s -> linv s -> threads s !! i = Some q -> thread_step c s i q a = Some s' -> linv s'.
Proof.
  intros T K I Hq H. pose proof (t_pc _ T _ _ Hq) as P.
  (* an effect that leaves the registry, or none *)
  assert (N : forall s2 q2 cl x d, threads s2 = threads s -> (forall k, holds s2 k = holds s k) -> log s2 = log s ++ d -> Forall own d ->
     (forall c p, q2 <> AInsert c p) ->
     (forall h g, stages i h g -> fits (holds s) (fun p => given p (log s)) (threads s) q g ->
       exists g', stages i (h ++ map (Effect i cl) (option_list x)) g' /\ forall G ths, fits (holds s) G ths q2 g') ->
     (forall R, (forall k, R !! k = p ← holds s k; given p (log s)) -> (forall k p, holds s k = Some p -> is_Some (given p (log s))) ->
        match x with Some b => perform R cl b = Some R | None => True end) -> linv (set_pc s2 i q2)).
  { intros s2 q2 cl x d E1 E2 E3 F N S A. apply (linv_quiet s i q _ q2 d (cl, x)); try done; [cbn; by rewrite E1|].
    intros h g Sg Fg. destruct (S h g Sg Fg) as (g' & Sg' & Fg'). exists g'. split; [done|].
    apply (fits_ext (holds s) (fun p => given p (log (set_pc s2 i q2))) (threads (set_pc s2 i q2))); try done.
    intros j c0 p X. left. by exists j, c0. }
  destruct q, a; try done; unfold thread_step in H; cbn in P.
  - injection H as <-. by apply linv_call.
  - destruct o as [e|].
    + injection H as <-. apply (N s (Ret c0 (Err (EOs e))) c0 (Some Aside) []); try done; [by rewrite app_nil_r| |].
      * intros h g Sg ->. exists (Effected c0 Aside). split; [by apply stages_effected|]. intros G ths. exists Aside. split; [done|].
        destruct (add_kind _ P) as (k & v & Kd). unfold answers. rewrite Kd. right. by eexists.
      * intros R _ _. destruct (add_kind _ P) as (k & v & Kd). unfold perform. by rewrite Kd.
    + destruct (new_packet _ _) as [[[m p] ob]|] eqn:E; [|done]. cbn [mbind option_bind] in H. injection H as <-. by apply linv_make.
  - destruct P as [P1 P2]. destruct (insert_packet _ _ _) as [s1|] eqn:E; injection H as <-; [by eapply linv_insert|].
    assert (X : exists k v q, kind_of c0 = KAdd k v /\ holds s k = Some q).
    { destruct c0, p; cbn in E; try done; (case_in E; [|done]); eexists _, _, _; (split; [done|]); cbn;
        match goal with E : _ !! _ = Some _ |- _ => by rewrite E end. }
    destruct X as (k & v & r & Kd & Hk). apply (N _ _ c0 (Some Unfit) []); try done; [cbn; by rewrite app_nil_r| |].
    + intros h g Sg (-> & _). exists (Effected c0 Unfit). split; [by apply stages_effected|]. intros G ths. exists Unfit. split; [done|]. unfold answers. by rewrite Kd.
    + intros R ER EX. unfold perform. rewrite Kd, ER, Hk. cbn. destruct (EX _ _ Hk) as [w ->]. done.
  - destruct (lookup_packet _ _) as [p|] eqn:E; injection H as <-; destruct (look_kind _ _ _ P E) as (k & v & Kd & Hk).
    + apply (N _ _ c0 None []); try done; [cbn; by rewrite app_nil_r|]. intros h g Sg ->. exists (InCall c0). cbn. rewrite app_nil_r. split; [done|].
      intros G ths. exists k, v. split; [done|]. by left.
    + apply (N _ _ c0 (Some Unfit) []); try done; [cbn; by rewrite app_nil_r| |].
      * intros h g Sg ->. exists (Effected c0 Unfit). split; [by apply stages_effected|]. intros G ths. exists Unfit. split; [done|]. unfold answers. by rewrite Kd.
      * intros R ER EX. unfold perform. rewrite Kd, ER, Hk. done.
  - destruct (do_set _ _ _) as [[s1 b]|] eqn:E; [|done]. cbn [mbind option_bind] in H. injection H as <-.
    assert (X : threads s1 = threads s). { destruct c0, p; cbn in E; try done; (case_in E; [|done]); cbn in E; injection E as <- _; done. }
    destruct b.
    + eapply (linv_set s i c0 p s1 true (Upd c0 p ULoad)); try done; [cbn; by rewrite X|left; by eexists].
    + eapply (linv_set s i c0 p s1 false (Ret c0 (Ok tt))); try done; [cbn; by rewrite X|by right].
  - destruct P as (P1 & P2 & P3). destruct (ustep _ _ _ _ _) as [s1 x] eqn:E. injection H as <-.
    destruct (ustep_frame _ _ _ _ _ _ _ E) as (X1 & X2 & X3 & X4 & _).
    destruct (ustep_log _ _ _ _ _ _ _ (names_source _ _ _ P2) P3 E) as (_ & d & D1 & D2 & _).
    apply (N _ _ c0 None d); try done; [by apply holds_same|by apply aside_own|by destruct x|].
    intros h g Sg ->. exists (Effected c0 Carried). cbn. rewrite app_nil_r. split; [done|]. intros G ths. destruct x as [u'|r]; [done|].
    exists Carried. split; [done|]. by eapply ustep_answer; [eapply names_source| |].
  - destruct (lookup_packet _ _) as [p|] eqn:E; injection H as <-; destruct (drop_kind _ _ _ P E) as (k & Kd & Hk).
    + destruct I as (h & EL & FR & I).
      assert (X : holds (remove_packet s c0) k = None /\ forall k', k' <> k -> holds (remove_packet s c0) k' = holds s k').
      { destruct c0; cbn in Kd; try done; injection Kd as <-; cbn.
        - rewrite lookup_delete. split; [done|]. intros [y|y] Ny; [|done]. cbn. by rewrite lookup_delete_ne by congruence.
        - rewrite lookup_delete. split; [done|]. intros [y|y] Ny; [done|]. cbn. by rewrite lookup_delete_ne by congruence. }
      assert (Y : log (remove_packet s c0) = log s /\ threads (remove_packet s c0) = threads s) by by destruct c0.
      destruct X as [X1 X2]. destruct Y as [Y1 Y2]. remember (remove_packet s c0) as s1 eqn:ES. clear ES.
      destruct (ties_remove (holds s) (fun p => given p (log s)) (threads s) h k p (<[i:=DBegin c0 p]> (threads s)) (holds s1) (fun p => given p (log s1))
         (fun j => bool_decide (j = i)) (Effect i c0 Carried)) as (e & E1 & EC & E2); try done.
      * intros k' Hk'. by eapply holds_inj.
      * by eapply no_insert_held.
      * intros q. by rewrite Y1.
      * intros j r Fj Hj. apply bool_decide_eq_false in Fj. by rewrite list_lookup_insert_ne in Hj.
      * intros j Hj. destruct (decide (j = i)) as [->|]; [by rewrite list_lookup_insert in Hj by by eapply lookup_lt_Some|]. by rewrite list_lookup_insert_ne in Hj.
      * intros j c1 q Hj. destruct (decide (j = i)) as [->|]; [by rewrite list_lookup_insert in Hj by by eapply lookup_lt_Some|]. by rewrite list_lookup_insert_ne in Hj.
      * intros j h' g Fj Sg. apply bool_decide_eq_false in Fj. by apply stages_effect.
      * intros j r g h' Fj Hj. apply bool_decide_eq_true in Fj as ->. rewrite list_lookup_insert in Hj by (by eapply lookup_lt_Some). injection Hj as <-.
        exists (DRemove c0). split; [done|]. split; [done|]. intros -> Sg. exists (Effected c0 Carried). split; [by apply stages_effected|done].
      * intros j Fj. apply bool_decide_eq_true in Fj as ->. rewrite list_lookup_insert by (by eapply lookup_lt_Some). done.
      * intros R [w Hw]. cbn. unfold perform. rewrite Kd, Hw. done.
      * exists (h ++ e ++ [Effect i c0 Carried]). split; [rewrite !visible_app, E1, EL; cbn; by rewrite app_nil_r|].
        split; [apply fair_app; [done|]; intros x [X3|X3]%elem_of_app; [by apply EC in X3|by apply elem_of_list_singleton in X3]|]. cbn [threads log set_pc]. rewrite Y2. exact E2.
    + apply (N _ _ c0 (Some Unfit) []); try done; [by rewrite app_nil_r| |].
      * intros h g Sg ->. exists (Effected c0 Unfit). split; [by apply stages_effected|]. intros G ths. exists Unfit. split; [done|]. unfold answers. by rewrite Kd.
      * intros R ER EX. unfold perform. rewrite Kd, ER, Hk. done.
  - destruct P as [P1 P2]. destruct (delete_log s p o (names_source _ _ _ P2)) as (_ & _ & d & D1 & D2 & _).
    pose proof (delete_answer (pmem s) (sys s) p o (names_source _ _ _ P2)) as A.
    assert (X : (do_delete s p o).1 = ef_res (begin_delete (pmem s) (sys s) p o)) by done.
    assert (Y : threads (do_delete s p o).2 = threads s /\ forall k, holds (do_delete s p o).2 k = holds s k) by (split; [done|]; by apply holds_same).
    destruct (do_delete s p o) as [r s1]. cbn [fst snd] in *. injection H as <-. destruct Y as [Y1 Y2].
    apply (N _ _ c0 None (d ++ [Removed p])); try done; [apply Forall_app; split; [by apply aside_own|by repeat constructor]|].
    intros h g Sg ->. exists (Effected c0 Carried). cbn. rewrite app_nil_r. split; [done|]. intros G ths. exists Carried. split; [done|]. by rewrite X.
  - subst c0. destruct (notified s); injection H as <-.
    + apply (N _ _ CNotify (Some Aside) []); try done; [by rewrite app_nil_r|]. intros h g Sg ->. exists (Effected CNotify Aside). split; [by apply stages_effected|].
      intros G ths. exists Aside. split; [done|]. by left.
    + apply (N _ _ CNotify None []); try done; [cbn; by rewrite app_nil_r|]. intros h g Sg ->. exists (InCall CNotify). cbn. rewrite app_nil_r. by split.
  - assert (KO : kind_of c0 = KOther) by (destruct p; try done; [destruct P as [-> _]|subst c0]; done).
    assert (X : exists s1 r d, do_post (set_mem s (clone (pmem s) p)) p o = (r, s1) /\ system_answer r /\ threads s1 = threads s /\ (forall k, holds s1 k = holds s k) /\ log s1 = log s ++ [d] /\ (d = Fault p \/ d = Posted p)).
    { destruct o as [e|]; cbn; eexists _, _, _; (split; [done|]); (split; [unfold system_answer; eauto|]); do 2 (split; [done|]); cbn; auto. }
    destruct X as (s1 & r & d & X1 & X2 & X3 & X4 & X5 & X6). rewrite X1 in H. injection H as <-. clear X1.
    destruct I as (h & EL & FR & I). exists ((h ++ [Seen d]) ++ [Effect i c0 Aside]).
    split; [rewrite !visible_app, EL; cbn; rewrite X5, app_nil_r; done|]. split; [fair|]. cbn [threads log set_pc]. rewrite X3.
    assert (CO : call_obs d = false) by by destruct X6 as [->| ->].
    rewrite <-app_assoc. apply (ties_quiet (holds s) (fun p => given p (log s)) (threads s) h i (Post c0 p)); try done; rewrite ?app_assoc.
    + intros q. rewrite X5. apply given_same. intros e m Z%elem_of_list_singleton. destruct X6 as [->| ->]; done.
    + intros j g Nj Sg. apply stages_effect; [done|]. by apply stages_seen1.
    + intros g Sg ->. exists (Effected c0 Aside). split; [apply stages_effected; by apply stages_seen1|]. exists Aside. split; [done|]. unfold answers. by rewrite KO.
    + intros R g AR ER Fg. rewrite !after_snoc, AR. cbn. unfold perform. by rewrite KO.
  - injection H as <-. by apply linv_ret.
Qed.

Lemma closed_feed c s l z j b k k' : reachable c s -> waiter s = WOpen l z (PSock j) b -> socks (pmem s) !! j = Some k -> feed_sock k = FClosed k' ->
  close_reported (log s).
Proof.
  intros Hr E Ek F. unfold feed_sock in F. destruct (sk_deleting k); [done|]. destruct (reported k) as [[[r w] f]|] eqn:R; [by destruct (_ || _)|].
  assert (A := ainv_reach _ _ _ _ Hr Ek). rewrite E in A. cbn [opened] in A.
  destruct (a_done _ _ _ _ _ _ A) as (B1 & _ & B3); [rewrite occ_one, decide_True by done; lia|].
  exists j, (sk_iosb k), (flags_of (sk_count k) (sk_events k)). split; [by apply last_done_in|]. unfold reported in R. unfold flags_of.
  destruct (sk_iosb k); try done; case_decide; try done; destruct (intersects _ AFD_LOCAL_CLOSE); try done; by destruct (afd_mask_to_event _).
Qed.
Lemma linv_wait c s a s' : reachable c s -> tinv s -> kinv s -> linv s -> wait_step c s a = Some s' -> linv s'.
Proof.
  intros Hr T K I H. pose proof (t_wait _ T) as TW.
  assert (KD : sources s' = sources s -> waitables s' = waitables s -> linv s').
  { intros E1 E2. destruct (wait_keeps _ _ _ _ T H) as (d & D0 & D1 & D2 & _). by apply (linv_same s s' d); [|  |apply holds_same| |]. }
  destruct (waiter s) as [|l|l|l q|l z|l z b|l z b|l z p b|l z b ret p u|l e g|l|d own b] eqn:E, a;
    unfold wait_step in H; rewrite E in H; try done; try (by destruct b); cbn in TW; try (injection H as <-; by apply KD).
  - destruct (pending s); injection H as <-; by apply KD.
  - case_decide; [done|]. injection H as <-. by apply KD.
  - destruct b; [case_match|]; injection H as <-; by apply KD.
  - destruct p as [j|j|j|]; unfold feed_step in H.
    + destruct (socks (pmem s) !! j) as [k|] eqn:Ek; [|done]. cbn [mbind option_bind] in H.
      destruct (feed_sock k) as [k'|k'|k' r] eqn:F; [|injection H as <-; by apply KD..].
      destruct (sources s !! sk_socket k) as [n'|] eqn:Es; [|injection H as <-; by apply KD].
      destruct (wait_keeps c s (WGo o) s' T) as (d & D0 & D1 & D2 & _); [unfold wait_step; rewrite E; unfold feed_step; rewrite Ek; cbn [mbind option_bind]; by rewrite F, Es|].
      assert (X : sources s' = delete (sk_socket k) (sources s) /\ waitables s' = waitables s).
      { case_decide; [by injection H as <-|]. 
        match type of H with context [do_delete ?a ?b ?c] => assert (X : sources (do_delete a b c).2 = delete (sk_socket k) (sources s) /\ waitables (do_delete a b c).2 = waitables s) by done;
          destruct (do_delete a b c) as [r s3] end. injection H as <-. by destruct r. }
      destruct X as [X1 X2]. destruct I as (h & EL & FR & I).
      destruct (ties_remove (holds s) (fun p => given p (log s)) (threads s) h (inl (sk_socket k)) (PSock n') (threads s) (holds s') (fun p => given p (log s))
         (fun _ => false) (Closed (sk_socket k))) as (e & E1 & EC & E2); try done.
      * cbn. by rewrite Es.
      * intros k1 Hk1. eapply (holds_inj s); [done| |done]. cbn. by rewrite Es.
      * apply (no_insert_held s (inl (sk_socket k))); [done|]. cbn. by rewrite Es.
      * cbn. rewrite X1, lookup_delete. done.
      * intros [y|y] Ny; cbn; [rewrite X1, lookup_delete_ne by congruence; done|by rewrite X2].
      * intros. by apply stages_closed.
      * exists ((h ++ e ++ [Closed (sk_socket k)]) ++ map Seen d). split; [rewrite !visible_app, visible_map, E1, EL, D1; cbn; by rewrite app_nil_r|].
        split.
        { apply fair_seen. rewrite app_assoc. intros h1 x h2 Eh. apply app_eq_inv in Eh as [(l0 & Y1 & Y2)|(l0 & Y1 & Y2)].
          - destruct l0 as [|y l0]; [|injection Y2 as <- Y2; by apply (fair_app h e FR EC h1 x l0)]. rewrite app_nil_r in Y1. subst h1.
            rewrite visible_app, E1, app_nil_r, EL. by eapply closed_feed.
          - destruct l0 as [|y l0]; [|by destruct l0]. rewrite app_nil_r in Y1. subst h1. rewrite visible_app, E1, app_nil_r, EL. by eapply closed_feed. }
        rewrite D0. apply (ties_same (holds s') (fun p => given p (log s))); try done; [|by apply own_calls]. intros p. rewrite D1. by apply given_own.
    + destruct (wtbs (pmem s) !! j) as [k|] eqn:Ek; [|done]. cbn in H. injection H as <-. by apply KD.
    + destruct (customs (pmem s) !! j) as [k|] eqn:Ek; [|done]. cbn in H. injection H as <-. by apply KD.
    + injection H as <-. by apply KD.
  - destruct (ustep _ _ _ _ _) as [s1 x] eqn:Eu. destruct (ustep_frame _ _ _ _ _ _ _ Eu) as (_ & _ & X3 & X4 & _). injection H as <-.
    apply KD; by destruct x as [|[]].
Qed.

Lemma linv_init n : linv (init n).
Proof.
  exists []. split; [done|]. split; [by intros [] x h2|]. split.
  - exists ∅. split; [done|]. split; [|intros [x|x] p; cbn; by rewrite lookup_empty]. intros [x|x]; cbn; by rewrite !lookup_empty.
  - intros i q Hq. cbn in Hq. apply lookup_replicate in Hq as [-> _]. exists Idle'. split; [constructor|done].
  - intros i _. constructor.
Qed.
Lemma linv_reach c s : reachable c s -> linv s.
Proof.
  induction 1 as [n|s l s' Hr IH L H]; [apply linv_init|]. pose proof (tinv_reach _ _ Hr) as T. pose proof (kinv_reach _ _ Hr) as K.
  destruct (step_cases _ _ _ _ H) as [(i & q & a & _ & Hq & X)|[(a & _ & X)|[(cap & d & old & E & ->)|X]]].
  - by eapply linv_thread.
  - by eapply linv_wait.
  - apply (linv_same s _ [WaitBegun d old]); try done. by repeat constructor.
  - destruct (env_calls _ _ _ _ H X) as (d & D1 & D2). apply (linv_same s _ d); try done.
    + by destruct (env_log _ _ _ _ H X) as (_ & ? & _).
    + clear D1 D2 d. assert (Y : sources s' = sources s /\ waitables s' = waitables s); [|destruct Y; by apply holds_same].
      destruct l; try done; cbn -[do_post] in H.
      * by injection H as <-.
      * case_in H; [|done]. cbn in H. case_in H; [|done]. cbn in H. by injection H as <-.
      * case_in H; [|done]. cbn in H. by injection H as <-.
      * case_in H; [|done]. cbn -[do_post] in H. destruct c0 as [m|m].
        -- case_in H; [|done]. cbn in H. by injection H as <-.
        -- injection H as <-. by destruct o.
Qed.
Lemma explained c s : reachable c s -> exists h, explains h s.
Proof.
  intros (h & E & FR & [LR LI LO])%linv_reach. exists h. split; [done|]. split.
  - intros i. destruct (threads s !! i) as [q|] eqn:Hq; [destruct (LI _ _ Hq) as (g & ? & _); by exists g|exists Idle'; by apply LO].
  - split; [done|]. destruct LR as (R & ? & ? & _). by exists R.
Qed.
