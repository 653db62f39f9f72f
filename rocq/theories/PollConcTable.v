(** Proofs about [PollConcModel]: the descriptor table and the order of its changes. *)
From stdpp Require Import prelude list gmap.
From Verif Require Import Bits Types EventModel PollModel PollSpec PollProofs.
From Verif Require Import Pool PollConcModel PollConcSpec PollConcProofs.
Local Open Scope nat_scope.

Lemma crit_unique c n s i j p q :
  reachable c n s -> threads s !! i = Some p -> threads s !! j = Some q ->
  crit p = true -> crit q = true -> i = j.
Proof.
  intros Hr Hi Hj Hp Hq. destruct (decide (i = j)) as [|Hne]; [done|].
  pose proof (cnt_two crit _ i j p q Hi Hj Hp Hq Hne).
  destruct (base_inv c n s Hr) as [B1 _ _ _]. pose proof (n_opt_le (mutex s)). lia.
Qed.

Lemma uses_crit p : uses_table p -> crit p = true.
Proof. by destruct p. Qed.
Lemma polling_crit p : polling p -> crit p = true.
Proof. by destruct p. Qed.

Definition obs_thread (o : obs) : nat :=
  match o with
  | NotifyCall i | NotifyOk i | NotifyErr i | OpCall i _ | OpEffect i _ _ | OpRet i _
  | WaitCall i | WaitContended i | PollStart i _ | TurnEffect i _ _ _ | WaitOk i _ | WaitError i _ => i
  end.

Lemma log_ext c s i a s' :
  step c s (i, a) = Some s' -> exists k, log s' = log s ++ k /\ forall o, o ∈ k -> obs_thread o = i.
Proof.
  intros Hs. step_cases Hs as Hp.
  all: first
    [ exists []; rewrite app_nil_r; split; [done|by intros o Ho%elem_of_nil]
    | eexists [_]; split; [reflexivity|by intros o ->%elem_of_list_singleton]
    | eexists [_; _]; rewrite <-(assoc_L (++)); split;
        [reflexivity|intros o Ho; rewrite !elem_of_cons, elem_of_nil in Ho; by destruct Ho as [->|[->|[]]]] ].
Qed.

Lemma other_thread c s i a s' j p :
  step c s (i, a) = Some s' -> j <> i -> threads s' !! j = Some p ->
  threads s !! j = Some p \/ (p = WWoken /\ threads s !! j = Some WSleep).
Proof.
  intros Hs Hne. step_cases Hs as Hp.
  all: rewrite !list_lookup_insert_ne by done; try (by left).
  all: match goal with
       | |- <[?k:=WWoken]> _ !! _ = _ -> _ =>
           destruct (decide (k = j)) as [->|];
           [rewrite list_lookup_insert by (eapply lookup_lt_Some; eauto); intros [= <-]; by right
           |rewrite list_lookup_insert_ne by done; by left]
       end.
Qed.

Lemma table_frame c s i a s' :
  step c s (i, a) = Some s' ->
  table s' = table s \/
  (exists cl, threads s !! i = Some (OApply cl)) \/ (exists an, threads s !! i = Some (WSwap3 an)).
Proof. intros Hs. step_cases Hs as Hp; try (by left); eauto. Qed.

Lemma own_call o t cl : has_fd o (call_fd cl) = true -> (do_call o t cl).2 = t.
Proof. destruct cl; simpl; unfold poll_add, poll_modify, poll_delete; by intros ->. Qed.

Lemma replay_app o t h1 h2 : replay o t (h1 ++ h2) = replay o (replay o t h1) h2.
Proof. revert t. induction h1 as [|x h1 IH]; intros t; [done|]. destruct x; simpl; apply IH. Qed.

Lemma replay_ok c n s : reachable c n s -> table s = table_after c (log s).
Proof.
  unfold table_after. induction 1 as [|s l s' Hr IH Hl Hs]; [done|]. clear Hr Hl.
  step_cases Hs as Hp; rewrite ?replay_app; cbn [replay]; rewrite <-?IH; try done.
  all: try (by rewrite own_call).
  all: match goal with
       | H : do_call _ _ _ = _ |- _ => rewrite H
       | H : poll_turn _ _ _ _ = _ |- _ => cbn [fst snd] in *; rewrite H
       end; done.
Qed.

Lemma lookup_self (l : list pc) (i : nat) (p q : pc) : l !! i = Some p -> <[i:=q]> l !! i = Some q.
Proof. intros H. apply list_lookup_insert. by eapply lookup_lt_Some. Qed.

Definition held_answer (p : pc) : option answer :=
  match p with WPopAll a _ | WSwap3 a => Some a | _ => None end.
Lemma held_crit p a : held_answer p = Some a -> crit p = true.
Proof. by destruct p. Qed.

Record tab_inv (c : config) (s : state) : Prop := TabInv {
  ti_reach : PollSpec.reachable (own c) (table s);
  ti_ans : forall i p a, threads s !! i = Some p -> held_answer p = Some a ->
    posix_answer (table s) (PollRet a.1 a.2) /\ length a.1 <> 0
}.

Lemma step_self c s i a s' p a' :
  step c s (i, a) = Some s' -> threads s' !! i = Some p -> held_answer p = Some a' ->
  (a = KRet a' \/ exists q, threads s !! i = Some q /\ held_answer q = Some a') /\ table s' = table s.
Proof.
  intros Hs. step_cases Hs as Hp.
  all: try (erewrite lookup_self by exact Hp).
  all: try match goal with
       | Hj : ?l !! ?j = Some WSleep |- <[?i:=_]> (<[?j:=WWoken]> _) !! ?i = _ -> _ =>
         erewrite lookup_self by
          (rewrite list_lookup_insert_ne by (intros ->; congruence); exact Hp)
       end.
  all: intros [= <-]; cbn [held_answer]; intros HH; simplify_eq/=; split; eauto.
Qed.

Lemma posix_nonempty o t a : PollSpec.reachable o t -> posix_answer t (PollRet a.1 a.2) -> length a.1 <> 0.
Proof.
  intros Hr [Hl _]. apply reachable_wf in Hr. destruct (wf_head _ _ Hr) as (pf & Hp & _).
  rewrite Hl. destruct (poll_fds t); simpl; [done|lia].
Qed.

Lemma tab_inv_ok c n s : reachable c n s -> tab_inv c s.
Proof.
  induction 1 as [|s [i a] s' Hr [H1 H2] Hl Hs].
  - split; [constructor|]. intros i p a Hi. simpl in Hi. apply lookup_replicate in Hi as [-> _]. done.
  - split.
    + clear Hr. pose proof Hs as Hs0. unfold legal in Hl. step_cases Hs as Hp; try done.
      all: cbn [snd fst] in Hl.
      all: match goal with
           | H : do_call ?o ?t ?cl = (_, ?t') |- _ =>
               replace t' with (do_call o t cl).2 by (by rewrite H); by constructor
           | H : poll_turn ?t ?a ?f ?o = (_, ?t') |- _ =>
               replace t' with (poll_turn t a f o).2 by (by rewrite H); constructor;
               [done|by apply (H2 _ _ _ Hp)|done]
           end.
    + intros j p an Hj Hh. destruct (decide (j = i)) as [->|Hne].
      * destruct (step_self c s i a s' p an Hs Hj Hh) as [[->|(q & Hq & Hq')] Ht]; rewrite Ht.
        -- unfold legal in Hl. simpl in Hl. split; [done|]. by eapply posix_nonempty.
        -- by apply (H2 i q).
      * destruct (other_thread c s i a s' j p Hs Hne Hj) as [Hj'|[-> _]]; [|done].
        assert (Ht : table s' = table s).
        { destruct (table_frame c s i a s' Hs) as [|[[cl Hi]|[b Hi]]]; [done| |];
          destruct Hne; eapply (crit_unique c n s); eauto using held_crit. }
        rewrite Ht. by apply (H2 j p).
Qed.

(** *** The log *)
Lemma snoc_split {A} (h : list A) y a x b :
  h ++ [y] = a ++ x :: b -> (b = [] /\ y = x /\ h = a) \/ exists b', b = b' ++ [y] /\ h = a ++ x :: b'.
Proof.
  intros H. destruct b as [|z b _] using rev_ind.
  - left. apply app_inj_tail in H as [-> ->]. done.
  - right. exists b. rewrite app_comm_cons, (assoc_L (++)) in H. apply app_inj_tail in H as [-> ->]. done.
Qed.

Definition effects_ok (c : config) (h : list obs) : Prop :=
  forall h1 i cl r h2, h = h1 ++ OpEffect i cl r :: h2 ->
    (do_call (own c) (table_after c h1) cl).1 = r.
Definition starts_ok (c : config) (h : list obs) : Prop :=
  forall h1 i t h2, h = h1 ++ PollStart i t :: h2 -> t = table_after c h1.

Lemma effects_snoc c h x :
  effects_ok c h ->
  (forall i cl r, x = OpEffect i cl r -> (do_call (own c) (table_after c h) cl).1 = r) ->
  effects_ok c (h ++ [x]).
Proof.
  intros H Hx h1 i cl r h2 E. apply snoc_split in E as [(-> & -> & <-)|(b' & -> & E)]; eauto.
Qed.
Lemma starts_snoc c h x :
  starts_ok c h ->
  (forall i t, x = PollStart i t -> t = table_after c h) ->
  starts_ok c (h ++ [x]).
Proof.
  intros H Hx h1 i t h2 E. apply snoc_split in E as [(-> & -> & <-)|(b' & -> & E)]; eauto.
Qed.

Lemma effects_inv c n s : reachable c n s -> effects_ok c (log s).
Proof.
  induction 1 as [|s l s' Hr IH Hl Hs]; [by intros [|? h1] i cl r h2 E|].
  pose proof (replay_ok _ _ _ Hr) as Ht. clear Hr Hl.
  step_cases Hs as Hp; try done.
  all: repeat apply effects_snoc; try done; intros ? ? ? [= -> -> <-].
  all: unfold table_after in *; rewrite ?replay_app; cbn [replay]; rewrite <-Ht.
  all: try done.
  all: match goal with H : do_call _ _ _ = _ |- _ => by rewrite H end.
Qed.
Lemma starts_inv c n s : reachable c n s -> starts_ok c (log s).
Proof.
  induction 1 as [|s l s' Hr IH Hl Hs]; [by intros [|? h1] i t h2 E|].
  pose proof (replay_ok _ _ _ Hr) as Ht. clear Hr Hl.
  step_cases Hs as Hp; try done.
  all: repeat apply starts_snoc; try done; intros ? ? [= -> <-].
  done.
Qed.

(** Thread-local facts about the log. *)
Definition called (i : nat) (cl : call) (h : list obs) : Prop :=
  exists a b, h = a ++ OpCall i cl :: b /\ has_none (op_boundary i) b.
Definition performed (i : nat) (r : res unit) (h : list obs) : Prop :=
  exists cl a b d, h = a ++ OpCall i cl :: b ++ OpEffect i cl r :: d /\
    has_none (op_boundary i) b /\ has_none (op_boundary i) d.
Definition stored (c : config) (i : nat) (evs : list (Z * event N)) (h : list obs) : Prop :=
  exists a an fl ord b, h = a ++ TurnEffect i an fl ord :: b /\ has_none (wait_boundary i) b /\
    (poll_turn (table_after c a) (PollRet an.1 an.2) fl ord).1 = TDone evs.
(** The table handed to the poll(2) call in progress is the one the log ends with. *)
Definition started (c : config) (i : nat) (h : list obs) : Prop :=
  exists a b, h = a ++ PollStart i (table_after c h) :: b /\ has_none (wait_boundary i) b.

Lemma none_app f h k : has_none f h -> (forall o, o ∈ k -> f o = false) -> has_none f (h ++ k).
Proof. intros H1 H2 o [|]%elem_of_app; eauto. Qed.

Lemma called_app i cl h k :
  called i cl h -> (forall o, o ∈ k -> op_boundary i o = false) -> called i cl (h ++ k).
Proof.
  intros (a & b & -> & Hb) Hk. exists a, (b ++ k). rewrite <-(assoc_L (++)), <-app_comm_cons.
  split; [done|by apply none_app].
Qed.
Lemma performed_app i r h k :
  performed i r h -> (forall o, o ∈ k -> op_boundary i o = false) -> performed i r (h ++ k).
Proof.
  intros (cl & a & b & d & -> & Hb & Hd) Hk. exists cl, a, b, (d ++ k).
  split; [|split; [done|by apply none_app]].
  rewrite <-(assoc_L (++)), <-app_comm_cons, <-(assoc_L (++)), <-app_comm_cons. done.
Qed.
Lemma stored_app c i evs h k :
  stored c i evs h -> (forall o, o ∈ k -> wait_boundary i o = false) -> stored c i evs (h ++ k).
Proof.
  intros (a & an & fl & ord & b & -> & Hb & Ht) Hk. exists a, an, fl, ord, (b ++ k).
  rewrite <-(assoc_L (++)), <-app_comm_cons. split; [done|]. split; [by apply none_app|done].
Qed.
Lemma called_performed i cl r h : called i cl h -> performed i r (h ++ [OpEffect i cl r]).
Proof.
  intros (a & b & -> & Hb). exists cl, a, b, []. rewrite <-(assoc_L (++)), <-app_comm_cons.
  split; [done|]. split; [done|]. by intros o Ho%elem_of_nil.
Qed.

Lemma other_boundary i j (k : list obs) :
  (forall o, o ∈ k -> obs_thread o = j) -> i <> j -> forall o, o ∈ k -> op_boundary i o = false.
Proof.
  intros H Hne o Ho. specialize (H o Ho). destruct o; simpl in *; subst; try done;
    by apply bool_decide_eq_false.
Qed.
Lemma other_turn i j (k : list obs) :
  (forall o, o ∈ k -> obs_thread o = j) -> i <> j -> forall o, o ∈ k -> wait_boundary i o = false.
Proof.
  intros H Hne o Ho. specialize (H o Ho). destruct o; simpl in *; subst; try done;
    by apply bool_decide_eq_false.
Qed.

Definition local_ok (c : config) (i : nat) (p : pc) (h : list obs) : Prop :=
  match p with
  | OInc cl | OWrite cl | OLock cl _ | OPop cl | OApply cl => called i cl h
  | ODec r | OSignal r | OUnlock r | ORet r => performed i r h
  | WPoll | WPopAll _ _ | WSwap3 _ => started c i h
  | WUnlock evs | WFlag evs | WRet evs => evs = [] \/ stored c i evs h
  | _ => True
  end.

Lemma started_app c i h k :
  started c i h -> (forall o, o ∈ k -> wait_boundary i o = false) ->
  table_after c (h ++ k) = table_after c h -> started c i (h ++ k).
Proof.
  intros (a & b & E & Hb) Hk Ht. exists a, (b ++ k). rewrite Ht.
  rewrite E at 1. rewrite <-(assoc_L (++)), <-app_comm_cons. split; [done|]. by apply none_app.
Qed.

Lemma local_frame c i j p h (k : list obs) :
  local_ok c i p h -> i <> j -> (forall o, o ∈ k -> obs_thread o = j) ->
  (polling p -> table_after c (h ++ k) = table_after c h) ->
  local_ok c i p (h ++ k).
Proof.
  intros H Hne Hk Ht.
  pose proof (other_boundary i j k Hk Hne). pose proof (other_turn i j k Hk Hne).
  destruct p; simpl in *; eauto using called_app, performed_app, started_app.
  all: destruct H as [->|H]; [by left|right; eauto using stored_app].
Qed.

Lemma none_nil f : has_none f [].
Proof. by intros o Ho%elem_of_nil. Qed.

Lemma local_self c s i a s' p p' :
  table s = table_after c (log s) ->
  threads s !! i = Some p -> local_ok c i p (log s) -> step c s (i, a) = Some s' ->
  threads s' !! i = Some p' -> local_ok c i p' (log s').
Proof.
  intros Htab Hi HL Hs. step_cases Hs as Hp.
  all: try (erewrite lookup_self by exact Hp).
  all: try match goal with
       | Hj : ?l !! ?j = Some WSleep |- <[?i:=_]> (<[?j:=WWoken]> _) !! ?i = _ -> _ =>
         erewrite lookup_self by
          (rewrite list_lookup_insert_ne by (intros ->; congruence); exact Hp)
       end.
  all: intros [= <-]; cbn [local_ok] in *; try done; try (by left).
  all: try (exists (log s), []; split; [done|apply none_nil]).
  - apply called_performed. exists (log s), []. split; [done|apply none_nil].
  - by apply called_performed.
  - exists (log s), []. unfold table_after in *. rewrite replay_app. cbn [replay]. rewrite <-Htab.
    split; [done|apply none_nil].
  - right. match goal with H : poll_turn _ _ ?f ?o = _ |- stored _ _ _ (_ ++ [TurnEffect _ ?a _ _]) =>
      exists (log s), a, f, o, [] end.
    split; [done|]. split; [apply none_nil|]. rewrite <-Htab.
    match goal with H : poll_turn _ _ _ _ = _ |- _ => by rewrite H end.
Qed.

Lemma local_inv c n s i p : reachable c n s -> threads s !! i = Some p -> local_ok c i p (log s).
Proof.
  intros Hr. revert i p. induction Hr as [|s [j a] s' Hr IH Hl Hs].
  - intros i p Hi. simpl in Hi. apply lookup_replicate in Hi as [-> _]. done.
  - intros i p Hi. destruct (decide (i = j)) as [->|Hne].
    + destruct (threads s !! j) as [q|] eqn:Hj.
      * eapply local_self; eauto using replay_ok.
      * unfold step in Hs. by rewrite Hj in Hs.
    + destruct (other_thread c s j a s' i p Hs Hne Hi) as [Hi'|[-> _]]; [|done].
      destruct (log_ext c s j a s' Hs) as (k & E & Hk). rewrite E.
      apply (local_frame c i j); eauto. intros Hpoll.
      rewrite <-E, <-(replay_ok c n s Hr), <-(replay_ok c n s') by (econstructor; eauto).
      destruct (table_frame c s j a s' Hs) as [|[[cl Hx]|[b Hx]]]; [done| |];
        destruct Hne; eapply (crit_unique c n s); eauto using polling_crit.
Qed.

Definition returns_ok (h : list obs) : Prop :=
  forall h1 i r h2, h = h1 ++ OpRet i r :: h2 -> performed i r h1.
Definition turns_ok (c : config) (h : list obs) : Prop :=
  forall h1 i an fl ord h2, h = h1 ++ TurnEffect i an fl ord :: h2 -> started c i h1.
Definition waits_ok (c : config) (h : list obs) : Prop :=
  forall h1 i evs h2, h = h1 ++ WaitOk i evs :: h2 -> evs = [] \/ stored c i evs h1.

Lemma returns_snoc h x :
  returns_ok h -> (forall i r, x = OpRet i r -> performed i r h) -> returns_ok (h ++ [x]).
Proof.
  intros H Hx h1 i r h2 E. apply snoc_split in E as [(-> & -> & <-)|(b' & -> & E)]; eauto.
Qed.
Lemma turns_snoc c h x :
  turns_ok c h -> (forall i an fl ord, x = TurnEffect i an fl ord -> started c i h) ->
  turns_ok c (h ++ [x]).
Proof.
  intros H Hx h1 i an fl ord h2 E. apply snoc_split in E as [(-> & -> & <-)|(b' & -> & E)]; eauto.
Qed.
Lemma waits_snoc c h x :
  waits_ok c h -> (forall i evs, x = WaitOk i evs -> evs = [] \/ stored c i evs h) ->
  waits_ok c (h ++ [x]).
Proof.
  intros H Hx h1 i evs h2 E. apply snoc_split in E as [(-> & -> & <-)|(b' & -> & E)]; eauto.
Qed.

Lemma logs_inv c n s : reachable c n s -> returns_ok (log s) /\ turns_ok c (log s) /\ waits_ok c (log s).
Proof.
  induction 1 as [|s l s' Hr IH Hl Hs].
  { repeat split; intros [|? h1] **; done. }
  pose proof (fun i p => local_inv c n s i p Hr) as HL. clear Hr Hl.
  destruct IH as (I1 & I2 & I3).
  step_cases Hs as Hp; try done.
  all: specialize (HL _ _ Hp); cbn [local_ok] in HL.
  all: split; [|split].
  all: repeat first [apply returns_snoc|apply turns_snoc|apply waits_snoc]; try done.
  all: intros; simplify_eq; done.
Qed.
