(** Proofs about [PollConcModel]: notifications. *)
From stdpp Require Import prelude list gmap.
From Verif Require Import Bits Types EventModel PollModel PollSpec PollProofs.
From Verif Require Import Pool PollConcModel PollConcSpec PollConcProofs PollConcProofs2 PollConcTable.
Local Open Scope nat_scope.

Definition is_wret (p : pc) : bool := match p with WRet _ => true | _ => false end.
Definition consuming (p : pc) : bool :=
  match p with WPop | WUnlock _ | WFlag _ => true | _ => false end.
Definition post_cas (p : pc) : bool :=
  match p with NSwap | NWrite | NSignal | NRet => true | _ => false end.
Definition waiter_rest (p : pc) : bool := waiter p && negb (is_wret p || consuming p).

Lemma waiter_split l : cnt is_wret l + cnt consuming l + cnt waiter_rest l = cnt waiter l.
Proof.
  induction l as [|p l IH]; [done|]. cbn [cnt]. rewrite <-IH. destruct p; cbn; lia.
Qed.

(** *** Logs *)
Definition fresh_in (h : list obs) (i : nat) : Prop :=
  exists h1 h2, h = h1 ++ [NotifyCall i] ++ h2 /\ NotifyCall i ∉ h2 /\
    (forall j evs, WaitOk j evs ∉ h2).

Lemma fresh_snoc h x i :
  fresh_in (h ++ [x]) i -> x = NotifyCall i \/ (fresh_in h i /\ (forall j evs, x <> WaitOk j evs)).
Proof.
  intros (h1 & h2 & E & Hn & Hw).
  destruct h2 as [|y h2 _] using rev_ind.
  - rewrite app_nil_r in E. apply app_inj_tail in E as [_ ->]. by left.
  - right. rewrite !(assoc_L (++)) in E. apply app_inj_tail in E as [-> ->]. split.
    + exists h1, h2. rewrite (assoc_L (++)). split; [done|]. split; [set_solver|].
      intros j evs. specialize (Hw j evs). set_solver.
    + intros j evs ->. specialize (Hw j evs). set_solver.
Qed.

Lemma owed_snoc h x :
  owed (h ++ [x]) ->
  (forall j evs, x <> WaitOk j evs) /\ (owed h \/ exists i, x = NotifyOk i /\ fresh_in h i).
Proof.
  intros (h1 & i & h2 & h3 & E & Hn & Hw).
  destruct h3 as [|y h3 _] using rev_ind.
  - rewrite app_nil_r in E. rewrite !(assoc_L (++)) in E. apply app_inj_tail in E as [-> ->].
    split; [done|]. right. exists i. split; [done|]. exists h1, h2.
    rewrite (assoc_L (++)). split; [done|]. split; [done|].
    intros j evs. specialize (Hw j evs). set_solver.
  - rewrite !(assoc_L (++)) in E. apply app_inj_tail in E as [-> ->]. split.
    + intros j evs ->. specialize (Hw j evs). set_solver.
    + left. exists h1, i, h2, h3. rewrite !(assoc_L (++)). split; [done|]. split; [done|].
      intros j evs. specialize (Hw j evs). set_solver.
Qed.

Lemma owed_nil : ~ owed [].
Proof. intros (h1 & i & h2 & h3 & E & _). destruct h1; done. Qed.

(** *** The flag of src/lib.rs *)
Lemma store_outcome c n s i an order :
  reachable c n s -> threads s !! i = Some (WSwap3 an) -> hash_order (table s) order ->
  (exists evs t, poll_turn (table s) (PollRet an.1 an.2) true order = (TDone evs, t)) /\
  (forall t, (poll_turn (table s) (PollRet an.1 an.2) (notified s) order).1 <> TPanic /\
             (poll_turn (table s) (PollRet an.1 an.2) (notified s) order).1 <> TErr t).
Proof.
  intros Hr Hi Ho. destruct (tab_inv_ok c n s Hr) as [H1 H2].
  destruct (H2 _ _ _ Hi eq_refl) as [Ha _]. pose proof (reachable_wf _ _ H1) as Hw.
  split.
  - destruct (poll_turn (table s) (PollRet an.1 an.2) true order) as [t s'] eqn:E.
    destruct (turn_wf _ _ _ _ _ _ _ Hw Ha Ho E) as [Hn _].
    unfold poll_turn in E. repeat (case_match; simplify_eq/=); eauto.
  - intros t. destruct (poll_turn (table s) (PollRet an.1 an.2) (notified s) order) as [t' s'] eqn:E.
    destruct (turn_wf _ _ _ _ _ _ _ Hw Ha Ho E) as [Hn _]. split; [done|]. simpl.
    unfold poll_turn in E. repeat (case_match; simplify_eq/=); done.
Qed.

Ltac counts3 Hp := counts2 Hp; cbn [b2n is_wret consuming waiter_rest waiter] in *.

Lemma flag_inv c n s : reachable_ok c n s -> lib_flag s = true ->
  0 < cnt is_nswap (threads s) + b2n (notified s) + cnt consuming (threads s).
Proof.
  induction 1 as [|s l s' Hr IH Hl Hs Hw Hpf]; [done|].
  assert (Hge : forall f, forall p, threads s !! l.1 = Some p -> b2n (f p) <= cnt f (threads s))
      by (intros f p; apply cnt_ge).
  apply reachable_ok_w, reachable_w_reachable in Hr.
  pose proof (store_outcome c n s) as Hst. specialize (fun i an o => Hst i an o Hr).
  destruct (base_inv c n s Hr) as [B1 B2 B3 B4]. pose proof (n_opt_le (lib_lock s)) as L1.
  pose proof (waiter_split (threads s)) as L2.
  clear Hr. unfold legal in Hl. step_cases Hs as Hp.
  all: cbn [fst snd] in *.
  all: pose proof (Hge waiter _ Hp) as G1; pose proof (Hge consuming _ Hp) as G2;
       pose proof (Hge is_nswap _ Hp) as G3; clear Hge.
  all: try (exfalso; apply Hpf; split; [done|]; by eauto).
  all: clear Hpf Hw.
  all: intros Hf; try discriminate Hf; try specialize (IH Hf).
  all: counts3 Hp.
  all: repeat match goal with H : notified ?s = _ |- _ => rewrite H in * end; cbn [b2n] in *.
  all: try lia.
  all: try (destruct (Hst _ _ _ Hp Hl) as [(evs' & t' & E') Hne]; destruct (notified s);
            cbn [b2n] in *; [congruence|lia]).
Qed.

Definition pending (s : state) : Prop := lib_flag s = true \/ 0 < cnt is_wret (threads s).

Lemma pending_keep c s i a s' k :
  step c s (i, a) = Some s' -> log s' = log s ++ k -> (forall j evs, WaitOk j evs ∉ k) ->
  pending s -> pending s'.
Proof.
  intros Hs Hk Hno Hpe. unfold pending in *.
  step_cases Hs as Hp; pose proof (cnt_ge is_wret _ _ _ Hp) as G1; cbn [is_wret b2n] in G1; counts3 Hp;
    try (right; lia); try (by left).
  all: try (destruct Hpe as [Hpe|Hpe]; [by left|right; lia]).
  all: exfalso; apply app_inv_head in Hk; subst k; eapply Hno; by left.
Qed.

Lemma fresh_app h k i :
  fresh_in (h ++ k) i -> NotifyCall i ∉ k -> fresh_in h i /\ (forall j evs, WaitOk j evs ∉ k).
Proof.
  induction k as [|x k IH] using rev_ind.
  - rewrite app_nil_r. intros H _. split; [done|]. intros j evs. apply not_elem_of_nil.
  - rewrite (assoc_L (++)). intros [->|[Hf Hx]]%fresh_snoc Hn; [set_solver|].
    destruct (IH Hf ltac:(set_solver)) as [H1 H2]. split; [done|].
    intros j evs. specialize (H2 j evs). specialize (Hx j evs). set_solver.
Qed.
Lemma owed_app h k :
  owed (h ++ k) -> (forall i, NotifyOk i ∉ k) -> owed h /\ (forall j evs, WaitOk j evs ∉ k).
Proof.
  induction k as [|x k IH] using rev_ind.
  - rewrite app_nil_r. intros H _. split; [done|]. intros j evs. apply not_elem_of_nil.
  - rewrite (assoc_L (++)). intros [Hx [Hf|(i & -> & _)]]%owed_snoc Hn.
    + destruct (IH Hf) as [H1 H2]; [intros i; specialize (Hn i); set_solver|]. split; [done|].
      intros j evs. specialize (H2 j evs). specialize (Hx j evs). set_solver.
    + specialize (Hn i). set_solver.
Qed.

Lemma post_cas_step c s i a s' p :
  step c s (i, a) = Some s' -> threads s' !! i = Some p -> post_cas p = true ->
  lib_flag s' = true \/
  (log s' = log s /\ exists q, threads s !! i = Some q /\ post_cas q = true).
Proof.
  intros Hs. step_cases Hs as Hp.
  all: try (erewrite lookup_self by exact Hp).
  all: try match goal with
       | Hj : ?l !! ?j = Some WSleep |- <[?i:=_]> (<[?j:=WWoken]> _) !! ?i = _ -> _ =>
         erewrite lookup_self by
          (rewrite list_lookup_insert_ne by (intros ->; congruence); exact Hp)
       end.
  all: intros [= <-]; cbn [post_cas]; intros Hc; try discriminate Hc; try (by left); right; eauto.
Qed.

Lemma fresh_inv c n s i p : reachable c n s ->
  threads s !! i = Some p -> post_cas p = true -> fresh_in (log s) i -> pending s.
Proof.
  intros Hr. revert i p. induction Hr as [|s [j a] s' Hr IH Hl Hs].
  - intros i p Hi. simpl in Hi. apply lookup_replicate in Hi as [-> _]. done.
  - intros i p Hi Hc Hf. destruct (decide (i = j)) as [->|Hne].
    + destruct (post_cas_step c s j a s' p Hs Hi Hc) as [|(E & q & Hq & Hq')]; [by left|].
      rewrite E in Hf. apply (pending_keep c s j a s' []); [done|by rewrite app_nil_r| |eauto].
      intros ? ?. apply not_elem_of_nil.
    + destruct (other_thread c s j a s' i p Hs Hne Hi) as [Hi'|[-> _]]; [|done].
      destruct (log_ext c s j a s' Hs) as (k & E & Hk). rewrite E in Hf.
      apply fresh_app in Hf as [Hf Hno]; [|intros Hin; specialize (Hk _ Hin); done].
      eapply pending_keep; eauto.
Qed.

Lemma owed_step c s i a s' :
  step c s (i, a) = Some s' -> owed (log s') ->
  (exists k, log s' = log s ++ k /\ owed (log s) /\ (forall j evs, WaitOk j evs ∉ k)) \/
  (fresh_in (log s) i /\ threads s !! i = Some NRet /\ log s' = log s ++ [NotifyOk i]).
Proof.
  intros Hs Ho. destruct (log_ext c s i a s' Hs) as (k & E & Hk).
  assert (Hcase : (forall j, NotifyOk j ∉ k) \/ (threads s !! i = Some NRet /\ k = [NotifyOk i])).
  { step_cases Hs as Hp.
    all: try (rewrite <-(app_nil_r (log s)) in E at 1).
    all: rewrite <-?(assoc_L (++)) in E; apply app_inv_head in E; subst k; cbn [app].
    all: try (by right); left; intros j; set_solver. }
  rewrite E in Ho. destruct Hcase as [Hno|[Hi ->]].
  - left. exists k. apply owed_app in Ho as [Ho1 Ho2]; done.
  - apply owed_snoc in Ho as [Hnw [Ho|(m & [= <-] & Hf)]].
    + left. exists [NotifyOk i]. split; [done|]. split; [done|]. intros j evs. set_solver.
    + right. done.
Qed.

Lemma owed_inv c n s : reachable c n s -> owed (log s) -> pending s.
Proof.
  induction 1 as [|s [j a] s' Hr IH Hl Hs]; [intros H; by destruct (owed_nil H)|].
  intros Ho. destruct (owed_step c s j a s' Hs Ho) as [(k & E & Ho' & Hno)|(Hf & Hi & E)].
  - eapply pending_keep; eauto.
  - apply (pending_keep c s j a s' [NotifyOk j]); [done|done| |].
    + intros i evs. set_solver.
    + by eapply (fresh_inv c n s j NRet).
Qed.

(** The main lemma: where a notification is. *)
Lemma notification_kept c n s i p :
  reachable_ok c n s -> owed (log s) -> threads s !! i = Some p -> waiter_rest p = true ->
  notified s = true \/ exists j, threads s !! j = Some NSwap.
Proof.
  intros Hr Ho Hi Hw. pose proof (reachable_w_reachable _ _ _ (reachable_ok_w _ _ _ Hr)) as Hr'.
  destruct (base_inv c n s Hr') as [B1 B2 B3 B4]. pose proof (n_opt_le (lib_lock s)) as L1.
  pose proof (waiter_split (threads s)) as L2. pose proof (cnt_ge waiter_rest _ _ _ Hi) as L3.
  rewrite Hw in L3. simpl in L3.
  destruct (owed_inv c n s Hr' Ho) as [Hf|Hf]; [|lia].
  pose proof (flag_inv c n s Hr Hf) as H. destruct (notified s); [by left|]. right. simpl in H.
  destruct (cnt_pos is_nswap (threads s) ltac:(lia)) as (j & q & Hj & Hq). exists j. by destruct q.
Qed.

Lemma poll_not_lost c n s i :
  reachable_ok c n s -> owed (log s) -> threads s !! i = Some WPoll -> 0 < bytes s \/ notifying s.
Proof.
  intros Hr Ho Hi. destruct (notification_kept c n s i WPoll Hr Ho Hi eq_refl) as [Hn|[j Hj]].
  - pose proof (note_inv c n s (reachable_ok_w _ _ _ Hr)) as H.
    pose proof (cnt_ge is_wpoll _ _ _ Hi) as L. simpl in L.
    specialize (H ltac:(lia) Hn). destruct (decide (0 < bytes s)); [by left|]. right.
    destruct (cnt_pos is_nwrite (threads s) ltac:(lia)) as (j & q & Hj & Hq). exists j. right.
    by destruct q.
  - right. exists j. by left.
Qed.

Lemma esp_ok c n s : chan c = EspEventfd -> reachable_w c n s -> reachable_ok c n s.
Proof.
  intros He. induction 1; [constructor|]. econstructor; eauto.
  intros [_ (b & Hb)]. rewrite He in Hb. done.
Qed.

(** *** Failed pops *)
Definition eagain_pc (p : pc) : bool :=
  match p with WPop | WUnlockErr (EOs EAGAIN) | WErr (EOs EAGAIN) => true | _ => false end.
Definition is_ncas (p : pc) : bool := match p with NCas => true | _ => false end.

Lemma count_snoc f h o : count f (h ++ [o]) = count f h + b2n (f o).
Proof. unfold count. rewrite List.filter_app, app_length. simpl. destruct (f o); simpl; lia. Qed.

Lemma reachable_but_reachable bad c n s : reachable_but bad c n s -> reachable c n s.
Proof. induction 1; econstructor; eauto. Qed.

Lemma errors_inv c n s : reachable_but poll_eagain c n s ->
  count is_pop_error (log s) + cnt eagain_pc (threads s) + b2n (notified s)
    + cnt is_ncas (threads s) + cnt is_nswap (threads s) <= count is_notify_call (log s).
Proof.
  induction 1 as [|s l s' Hr IH Hl Hs Hb].
  { simpl. rewrite !cnt_replicate. simpl. lia. }
  apply reachable_but_reachable in Hr.
  pose proof (store_outcome c n s) as Hst. specialize (fun i an o => Hst i an o Hr).
  clear Hr. unfold legal in Hl. unfold poll_eagain in Hb. step_cases Hs as Hp.
  all: cbn [fst snd] in *.
  all: rewrite ?count_snoc.
  all: counts3 Hp; cbn [eagain_pc is_ncas is_pop_error is_notify_call] in *.
  all: repeat match goal with H : notified ?s = _ |- _ => rewrite H in * end; cbn [b2n] in *.
  all: try lia.
  all: try (destruct (Hst _ _ _ Hp Hl) as [_ Hne]; exfalso;
            match goal with E : poll_turn _ _ _ _ = (TErr ?e, _) |- _ => 
              destruct (Hne e) as [_ Hq]; rewrite E in Hq; by apply Hq end).
  all: repeat match goal with
       | |- context [match ?e with _ => _ end] => is_var e; destruct e
       | H : context [match ?e with _ => _ end] |- _ => is_var e; destruct e
       end; cbn [b2n] in *; try lia; try (exfalso; by apply Hb).
Qed.

(** *** Errors of wait() *)
Definition failing (p : pc) : bool := match p with WUnlockErr _ | WErr _ => true | _ => false end.

Lemma no_errors c n s : reachable_but (fun s l => poll_fault s l \/ pop_fails c s l) c n s ->
  cnt failing (threads s) = 0 /\ (forall j e, WaitError j e ∉ log s).
Proof.
  induction 1 as [|s l s' Hr [IH1 IH2] Hl Hs Hb].
  { simpl. rewrite cnt_replicate. split; [simpl; lia|]. intros j e. apply not_elem_of_nil. }
  apply reachable_but_reachable in Hr.
  pose proof (store_outcome c n s) as Hst. specialize (fun i an o => Hst i an o Hr).
  clear Hr. unfold legal in Hl. unfold poll_fault, pop_fails in Hb. step_cases Hs as Hp.
  all: cbn [fst snd] in *.
  all: pose proof (cnt_ge failing _ _ _ Hp) as G; cbn [failing b2n] in G; try lia.
  all: split; [|try (by intros j' e'; specialize (IH2 j' e'); set_solver)].
  all: counts3 Hp; cbn [failing b2n] in *; try lia.
  all: try (destruct (Hst _ _ _ Hp Hl) as [_ Hne]; exfalso;
            match goal with E : poll_turn _ _ _ _ = (TErr ?e, _) |- _ => 
              destruct (Hne e) as [_ Hq]; rewrite E in Hq; by apply Hq end).
  all: repeat case_match; simplify_eq; cbn [failing b2n] in *; try lia.
  all: exfalso; apply Hb; eauto.
Qed.
