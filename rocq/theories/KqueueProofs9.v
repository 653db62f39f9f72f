(** Proofs about the kqueue model: the keys of reports. *)
From stdpp Require Import prelude list gmap.
From Verif Require Import Bits Types EventModel EventSpec EventProofs KqueueModel KqueueSpec KqueueProofs
  KqueueProofs2 KqueueProofs3 KqueueProofs4 KqueueProofs5 KqueueProofs6 KqueueProofs7 KqueueProofs8.
Local Open Scope nat_scope.

(** The call a thread is in was made. *)
Definition was_called (p : list pc) (h : list obs) : Prop :=
  forall i q cl, p !! i = Some q -> call_of q = Some cl -> Called i cl ∈ h.
Lemma called_pc i p h p' h' q0 q : was_called p h -> p !! i = Some q0 -> p' = <[i:=q]> p ->
  (forall o, o ∈ h -> o ∈ h') -> (forall cl, call_of q = Some cl -> call_of q0 = Some cl \/ Called i cl ∈ h') ->
  was_called p' h'.
Proof.
  intros Hc Hp -> Hh Hq j r cl Hj Hr. apply list_lookup_insert_Some in Hj as [(-> & <- & _)|[_ Hj]].
  - destruct (Hq _ Hr) as [H|H]; [|done]. apply Hh. by eapply Hc.
  - apply Hh. by eapply Hc.
Qed.
Lemma called_log p h o : was_called p h -> was_called p (h ++ [o]).
Proof. intros Hc j r cl Hj Hr. apply elem_of_app. left. by eapply Hc. Qed.
Lemma called_step c s l s' : was_called (threads s) (log s) -> step c s l = Some s' ->
  was_called (threads s') (log s').
Proof.
  intros Hc Hs. destruct l as [j a|f st w|fd|sl max|fs|e|fts]; cbn [step] in Hs.
  - destruct (threads s !! j) as [p|] eqn:Ep; [|done].
    destruct p as [|cl0|cl0|cl0|cl0|cl0 r0| |], a as [cl'| | |fts|n fts e]; cbn [thread_step] in Hs; try done.
    all: try (destruct (kevent _ _ _ _)). all: try (destruct (decide _)).
    all: try (match goal with H : context [noti ?x] |- _ => destruct (noti x) end).
    all: simplify_eq; cbn [threads log emit set_pc set_kern set_sources].
    all: eapply (called_pc j _ _ _ _ _ _ Hc Ep); [reflexivity|intros o Ho; rewrite ?elem_of_app; by auto|].
    all: intros cl Hcl; rewrite ?entry_call, ?after_call in Hcl; try (destruct (call_changes c _)); try done.
    all: try (by left). simplify_eq. right. apply elem_of_app. right. by left.
  - simplify_eq. by apply called_log.
  - simplify_eq. by apply called_log.
  - destruct (wait s); simplify_eq. by apply called_log.
  - destruct (wait s); try done. destruct (_ && _); simplify_eq. by apply called_log.
  - destruct (wait s), e; simplify_eq; try done; by apply called_log.
  - unfold wait_step in Hs. destruct (wait s); try done; try (destruct (noti c)); try done.
    all: try (destruct (decide _)). all: try (destruct (kevent _ _ _ _); destruct (check_receipts _)).
    all: simplify_eq; try done; by apply called_log.
Qed.
Lemma called_reach c excl s : reachable c excl s -> was_called (threads s) (log s).
Proof.
  induction 1 as [n|s l s' Hr IH Hl Hs]; [|by eapply called_step].
  intros i q cl Hi Hq. unfold init in Hi. destruct (noti c); simpl in Hi;
    apply lookup_replicate in Hi as [-> _]; done.
Qed.

(** What is granted was asked for in a call. *)
Lemma granted_called c excl s f o w : reachable c excl s -> o ∈ log s -> granted f o = Some (Some w) ->
  exists i cl, Called i cl ∈ log s /\ asks cl f = Some (Some w) /\ key_ok cl.
Proof.
  intros Hr Ho Hg. apply elem_of_list_split in Ho as (h & h' & E).
  destruct (log_step _ _ _ _ _ _ Hr E) as (s1 & l & s2 & Hr1 & Hl & Hs & E1 & E2). rewrite <- E1 in E2.
  pose proof (inv_reach _ _ _ Hr1) as Hi.
  assert (exists i cl, threads s1 !! i = Some (PSubmit cl) /\ asks cl f = Some (Some w)) as (i & cl & Hp & Ha).
  { destruct o as [| |j cl a|j cl a e| |fd| | | | | |]; try done; simpl in Hg.
    3:{ by case_decide. }
    all: destruct (a !! slot f) as [[|]|]; try done.
    all: destruct (answered_call _ _ _ _ _ Hs E2) as (i & Hp); eauto. }
  exists i, cl. split; [|split; [done|]].
  - rewrite E. apply elem_of_app. left. rewrite <- E1. by apply (called_reach _ _ _ Hr1 i (PSubmit cl)).
  - by apply (iv_call _ _ Hi i _ cl Hp eq_refl).
Qed.

Lemma armed_key_all ks (P : N -> Prop) f h :
  Forall (fun o => forall k m, granted f o = Some (Some (k, m)) -> P k) h ->
  forall k m, armed ks f h = Some (k, m) -> P k.
Proof.
  induction h as [|o h IH] using rev_ind; intros Hg; [done|].
  apply Forall_app in Hg as [Hg Ho]. rewrite Forall_singleton in Ho. specialize (IH Hg).
  rewrite armed_snoc. unfold arm. intros k m. destruct (granted f o) as [[[k' m']|]|] eqn:E.
  - destruct (armed ks f h) as [[k0 m0]|]; [destruct ks|]; intros [= <- <-]; eauto.
  - done.
  - destruct (armed ks f h) as [[k0 m0]|].
    + destruct o; try (intros [= <- <-]; eauto). case_decide; [|intros [= <- <-]; eauto].
      destruct m0; try done; intros [= <- <-]; eauto.
    + by destruct o.
Qed.

Lemma armed_not_reserved c excl s f k m : reachable c excl s ->
  (forall i u k m, Called i (CAddFilter u k m) ∈ log s \/ Called i (CModifyFilter u k m) ∈ log s -> k <> NOTIFY_KEY) ->
  armed (keeps c) f (log s) = Some (k, m) -> k <> NOTIFY_KEY.
Proof.
  intros Hr Hno. revert k m. apply armed_key_all. apply Forall_forall. intros o Ho k m Hg.
  destruct (granted_called _ _ _ _ _ _ Hr Ho Hg) as (i & cl & Hc & Ha & Hk).
  destruct cl as [fd e m0|fd e m0|fd|u k0 m0|u k0 m0|u]; cbn [asks key_ok] in *.
  1-2: destruct Hk as [Hk _]; destruct (decide (f = FRead fd)); [|destruct (decide (f = FWrite fd)); [|done]];
    unfold wants in Ha; [destruct (ev_readable e)|destruct (ev_writable e)]; by simplify_eq.
  - by destruct (decide _).
  - destruct (decide _); [|done]. simplify_eq. eauto.
  - destruct (decide _); [|done]. simplify_eq. eauto.
  - by destruct (decide _).
Qed.
