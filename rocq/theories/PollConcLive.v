(** Progress of the poll backend: every run without new calls ends, and ends with every call
    returned or waiting in poll(2) with nothing to wake it. *)
From stdpp Require Import prelude list gmap.
From Verif Require Import Bits Types EventModel Pool PollModel PollSpec PollProofs
  PollConcModel PollConcSpec PollConcProofs PollConcProofs2 PollConcTable PollConcNotify.
Local Open Scope nat_scope.

(** Steps a thread can still take without help; a byte in the channel is worth six. *)
Definition weight (p : pc) : nat :=
  match p with
  | Idle | WPanic => 0
  | NRet | NFail | ORet _ | WRet _ | WErr _ => 1
  | OUnlock _ | WFlag _ => 2
  | WUnlock _ => 3
  | WUnlockErr e => match kind e with KInterrupted => 10 | _ => 3 end
  | WPop => 4
  | WSwap3 a => if reports_notifier a then 9 else 4
  | WPopAll _ got => if got then 10 else 5
  | NSignal => 5
  | OSignal _ => 6 | ODec _ => 7 | OApply _ => 8 | OPop _ => 9 | OLock _ _ => 10
  | WPoll | WSleep => 6
  | WLoad => 7
  | WSwap1 => 8
  | WWoken | WLock => 9
  | WTry => 10
  | NWrite => 12 | NSwap => 13 | NCas => 14
  | OWrite _ => 17 | OInc _ => 18
  end.
Definition measure (s : state) : nat := 6 * bytes s + sumw weight (threads s).

Lemma popall_reports c n s i a got : reachable c n s ->
  threads s !! i = Some (WPopAll a got) -> reports_notifier a = true.
Proof.
  intros Hr. revert i a got. induction Hr as [|s [j b] s' Hr IH Hl Hs].
  - intros i a got Hi. simpl in Hi. apply lookup_replicate in Hi as [? _]. done.
  - intros i a got Hi. destruct (decide (i = j)) as [->|Hne].
    + clear Hl. step_cases Hs as Hp.
      all: try (erewrite lookup_self in Hi by exact Hp).
      all: try match goal with
       | Hj : ?l !! ?j = Some WSleep, Hi : <[?i:=_]> (<[?j:=WWoken]> _) !! ?i = _ |- _ =>
         erewrite lookup_self in Hi by
          (rewrite list_lookup_insert_ne by (intros ->; congruence); exact Hp)
       end.
      all: simplify_eq; try done; eauto.
      all: repeat case_match; simplify_eq; eauto.
    + destruct (other_thread c s j b s' i _ Hs Hne Hi) as [Hi'|[? _]]; [eauto|done].
Qed.

Lemma again_reports t a flag order t' :
  length a.1 <> 0 -> poll_turn t (PollRet a.1 a.2) flag order = (TAgain, t') ->
  reports_notifier a = true.
Proof.
  intros Hl H. unfold poll_turn in H. unfold reports_notifier.
  destruct a as [[|f rs] num]; [done|]; destruct t as [[|pf pfds] d]; simpl in H; try discriminate H.
  simpl. destruct (is_empty f); [|done]. simpl in H.
  rewrite andb_false_r in H. repeat (case_match; try discriminate H).
Qed.

Lemma measure_step c n s i a s' :
  reachable c n s -> internal a -> legal s (i, a) -> step c s (i, a) = Some s' ->
  measure s' < measure s.
Proof.
  intros Hr Hi Hl Hs. unfold measure.
  destruct (tab_inv_ok c n s Hr) as [_ Ta]. destruct (chan_inv_ok c n s Hr) as [_ Cp].
  pose proof (popall_reports c n s) as Hpr. specialize (fun i a g => Hpr i a g Hr).
  pose proof (store_outcome c n s) as Hst. specialize (fun i an o => Hst i an o Hr). clear Hr.
  unfold legal in Hl. step_cases Hs as Hp; try (by destruct Hi); cbn [snd fst] in *.
  all: try match goal with
    | H : threads _ !! _ = Some (WPopAll _ ?g) |- _ =>
        is_var g; pose proof (Hpr _ _ _ Hp) as Hpr';
        pose proof (cnt_ge is_popall1 _ _ _ Hp) as Hpp; destruct g; cbn [is_popall1 b2n] in Hpp
    end.
  all: try match goal with
       | Hj : ?l !! ?j = Some WSleep |- context [<[?i:=?p]> (<[?j:=WWoken]> ?l)] =>
         pose proof (eq_trans (list_lookup_insert_ne l j i WWoken ltac:(intros ->; congruence)) Hp) as Hp';
         pose proof (sumw_insert weight _ i _ p Hp'); pose proof (sumw_insert weight _ j _ WWoken Hj)
       end.
  all: try match goal with
       | |- context [sumw weight (<[?i:=?p]> (threads _))] => pose proof (sumw_insert weight _ i _ p Hp)
       end.
  all: cbn [weight] in *.
  all: try lia.
  all: chans.
  all: decided.
  all: cbn [weight] in *; repeat case_match; simplify_eq; cbn [weight] in *.
  all: try lia.
  all: try match goal with
       | H : poll_turn _ _ _ _ = (TAgain, _) |- _ =>
           destruct (Ta _ _ _ Hp eq_refl) as [_ Ta1]; rewrite (again_reports _ _ _ _ _ Ta1 H) in *; lia
       end.
  all: match goal with
       | H : poll_turn _ _ _ _ = (TErr ?e, _) |- _ =>
           destruct (Hst _ _ _ Hp Hl) as [_ Hne]; destruct (Hne e) as [_ Hq]; rewrite H in Hq;
           by destruct Hq
       end.
Qed.

Lemma internal_bound c n k s s' :
  reachable c n s -> internal_steps c k s s' -> k + measure s' <= measure s /\ reachable c n s'.
Proof.
  intros Hr H. induction H as [s|k s [i a] s1 s2 Hi Hl Hs _ IH]; [split; [lia|done]|].
  pose proof (measure_step c n s i a s1 Hr Hi Hl Hs) as Hm.
  destruct (IH ltac:(econstructor; eauto)) as [H1 H2]. split; [lia|done].
Qed.

Lemma weight_le p : weight p <= 18.
Proof. destruct p; simpl; repeat case_match; lia. Qed.
Lemma sumw_le {A} (w : A -> nat) m l : (forall x, w x <= m) -> sumw w l <= m * length l.
Proof. intros H. induction l as [|x l IH]; simpl; [lia|]. specialize (H x). lia. Qed.

(** ** Who can move *)

Definition is_panic (p : pc) : bool := match p with WPanic => true | _ => false end.

Lemma no_panic c n s : reachable c n s -> cnt is_panic (threads s) = 0.
Proof.
  induction 1 as [|s l s' Hr IH Hl Hs]; [simpl; rewrite cnt_replicate; simpl; lia|].
  pose proof (store_outcome c n s) as Hst. specialize (fun i an o => Hst i an o Hr). clear Hr.
  unfold legal in Hl. step_cases Hs as Hp; cbn [fst snd] in *.
  all: counts Hp; cbn [is_panic b2n] in *; try lia.
  all: repeat case_match; simplify_eq; cbn [is_panic b2n] in *; try lia.
  all: destruct (Hst _ _ _ Hp Hl) as [_ Hne]; destruct (Hne (EOs EAGAIN)) as [Hq _].
  all: match goal with H : poll_turn _ _ _ _ = _ |- _ => rewrite H in Hq end; by destruct Hq.
Qed.

Lemma no_unsent c n s : reachable_w c n s -> cnt olock_unsent (threads s) = 0.
Proof.
  induction 1 as [|s l s' Hr IH Hl Hs Hw]; [simpl; rewrite cnt_replicate; simpl; lia|].
  clear Hr Hl. unfold write_fault in Hw. step_cases Hs as Hp; cbn [fst snd] in *.
  all: counts2 Hp; try lia.
  all: repeat case_match; simplify_eq; cbn [olock_unsent b2n] in *; try lia.
  all: exfalso; apply Hw; eauto.
Qed.

(** Threads that need neither the mutex nor a wake-up. *)
Definition self_moving (p : pc) : bool :=
  match p with
  | Idle | OLock _ _ | WLock | WWoken | WSleep | WPoll | WPanic => false
  | _ => true
  end.

Lemma signal_possible s i p q : threads s !! i = Some p -> asleep p = false ->
  exists t s', signal s i t q = Some s'.
Proof.
  intros Hi Hp. unfold signal. destruct (existsb asleep (threads s)) eqn:E.
  - apply existsb_exists in E as (x & Hx & Hs). apply elem_of_list_In, elem_of_list_lookup in Hx as [j Hj].
    exists (Some j). rewrite Hj. destruct x; try discriminate Hs. eauto.
  - exists None. eauto.
Qed.

Lemma order_exists t : exists order, hash_order t order.
Proof.
  exists (elements (dom (fd_data t))). split; [apply NoDup_elements|].
  intros fd. rewrite elem_of_elements. apply elem_of_dom.
Qed.

Lemma filter_zeros n : List.filter nonzero (replicate n 0%N) = [].
Proof. induction n; simpl; [done|]. done. Qed.

Lemma answer_exists c n s : reachable c n s ->
  exists a, posix_answer (table s) (PollRet a.1 a.2) /\ reports_notifier a = bool_decide (0 < bytes s).
Proof.
  intros Hr. destruct (tab_inv_ok c n s Hr) as [H1 _].
  destruct (reachable_wf _ _ H1) as [(pf & Hw & _) _ _ _].
  destruct (poll_fds (table s)) as [|x r] eqn:E; [done|].
  exists ((if bool_decide (0 < bytes s) then 1%N else 0%N) :: replicate (length r) 0%N,
     if bool_decide (0 < bytes s) then 1 else 0).
  unfold posix_answer. rewrite E. simpl. rewrite replicate_length, filter_zeros.
  by destruct (bool_decide (0 < bytes s)).
Qed.

Definition is_popall2 (p : pc) : bool := match p with WPopAll _ true => true | _ => false end.
Lemma no_popall2 c n s : is_eventfd (chan c) = true -> reachable c n s ->
  cnt is_popall2 (threads s) = 0.
Proof.
  intros He. induction 1 as [|s l s' Hr IH Hl Hs]; [simpl; rewrite cnt_replicate; simpl; lia|].
  clear Hr Hl. step_cases Hs as Hp; cbn [fst snd] in *.
  all: counts2 Hp; cbn [is_popall2 b2n] in *; try lia; try congruence.
  all: repeat case_match; simplify_eq; cbn [is_popall2 b2n] in *; try lia; congruence.
Qed.

(** The thread is at a read or write of the channel that blocks. *)
Definition at_channel (c : config) (s : state) (p : pc) : Prop :=
  match p with
  | OPop _ | WPop => chan_pop (chan c) (bytes s) = None
  | NWrite | OWrite _ => chan_write c (bytes s) = None
  | _ => False
  end.

Lemma self_move c n s i p : reachable c n s -> threads s !! i = Some p -> self_moving p = true ->
  can_move c s i \/ at_channel c s p.
Proof.
  intros Hr Hi Hm. destruct (chan_inv_ok c n s Hr) as [_ Cp].
  assert (Hgo : forall s', step c s (i, Go) = Some s' -> can_move c s i).
  { intros s' H. exists Go, s'. split; [done|]. split; [done|]. split; [done|]. by intros [? ?]. }
  assert (Hsig : forall q, (forall t, step c s (i, SignalTo t) = signal s i t q) -> asleep p = false ->
     can_move c s i).
  { intros q Hq Ha. destruct (signal_possible s i p q Hi Ha) as (t & s' & H).
    exists (SignalTo t), s'. split; [done|]. split; [done|]. split; [by rewrite Hq|]. by intros [? ?]. }
  destruct p; try discriminate Hm; unfold at_channel.
  all: try (left; eapply Hgo; unfold step; rewrite Hi; reflexivity).
  all: try (left; eapply Hsig; [intros t; unfold step; rewrite Hi; reflexivity|done]).
  all: try (left; destruct (lib_flag s) eqn:E; eapply Hgo; unfold step; rewrite Hi, E; reflexivity).
  all: try (left; destruct (notified s) eqn:E; eapply Hgo; unfold step; rewrite Hi, E; reflexivity).
  all: try (left; destruct (lib_lock s) eqn:E; eapply Hgo; unfold step; rewrite Hi, E; reflexivity).
  all: try (left; destruct (decide (ops s = 0)) eqn:E; eapply Hgo; unfold step; rewrite Hi, E; reflexivity).
  all: try (destruct (chan_write c (bytes s)) as [b|] eqn:E; [left|by right];
            eapply Hgo; unfold step; rewrite Hi, E; reflexivity).
  all: try (destruct (chan_pop (chan c) (bytes s)) as [[[] b]|] eqn:E; [left|left|by right];
            eapply Hgo; unfold step; rewrite Hi, E; reflexivity).
  - (* OApply *) left. destruct (do_call (own c) (table s) c0) as [r t] eqn:E.
    eapply Hgo. unfold step. rewrite Hi, E. reflexivity.
  - (* WPopAll *) left. pose proof (cnt_ge is_popall1 _ _ _ Hi) as Hge.
    destruct (is_eventfd (chan c)) eqn:Ee.
    + destruct (chan_pop (chan c) (bytes s)) as [[b1 b]|] eqn:Ec.
      * eapply Hgo. unfold step. rewrite Hi, Ee, Ec. reflexivity.
      * exfalso. destruct got.
        -- pose proof (no_popall2 c n s Ee Hr) as Hz.
           pose proof (cnt_ge is_popall2 _ _ _ Hi) as H2. simpl in H2. lia.
        -- simpl in Hge. specialize (Cp Hge). unfold chan_pop in Ec.
           destruct (chan c), (bytes s); try done; lia.
    + destruct (decide (bytes s = 0)) eqn:E; eapply Hgo; unfold step; rewrite Hi, Ee, E; reflexivity.
  - (* WSwap3 *) left. destruct (order_exists (table s)) as [order Ho].
    destruct (poll_turn (table s) (PollRet a.1 a.2) (notified s) order) as [t f] eqn:E.
    assert (exists s', step c s (i, Store order) = Some s') as [s' Hs'].
    { unfold step. rewrite Hi, E. destruct t; eauto. }
    exists (Store order), s'. split; [done|]. split; [done|]. split; [done|]. by intros [? ?].
Qed.

Lemma poll_move c n s i : reachable c n s -> threads s !! i = Some WPoll -> 0 < bytes s ->
  can_move c s i.
Proof.
  intros Hr Hi Hb. destruct (answer_exists c n s Hr) as (a & Ha & Hrep).
  exists (KRet a). eexists. split; [done|]. split; [exact Ha|]. split; [|done].
  unfold step. rewrite Hi. rewrite (bool_decide_eq_true_2 _ Hrep). reflexivity.
Qed.

(** Either somebody can move, or is blocked at the channel. *)
Definition busy (c : config) (s : state) : Prop :=
  (exists j, can_move c s j) \/ (exists j p, threads s !! j = Some p /\ at_channel c s p).

Lemma mutex_free_or_busy c n s i p :
  reachable_w c n s -> threads s !! i = Some p -> p = WLock \/ p = WWoken \/ (exists cl b, p = OLock cl b) ->
  busy c s.
Proof.
  intros Hrw Hi Hc. pose proof (reachable_w_reachable _ _ _ Hrw) as Hr.
  destruct (base_inv c n s Hr) as [B1 B2 B3 B4]. destruct (mutex s) as [m|] eqn:Em.
  - simpl in B1. destruct (cnt_pos crit (threads s) ltac:(lia)) as (j & q & Hj & Hq).
    destruct (self_moving q) eqn:Eq.
    + destruct (self_move c n s j q Hr Hj Eq) as [|]; [left|right]; eauto.
    + assert (q = WPoll \/ q = WPanic) as [-> | ->] by (destruct q; try done; auto).
      * destruct (decide (0 < bytes s)) as [Hb|Hb]; [left; exists j; by eapply poll_move|].
        exfalso. destruct (chan_inv_ok c n s Hr) as [Cq _].
        pose proof (cnt_ge is_wpoll _ _ _ Hj) as G1. simpl in G1. specialize (Cq G1).
        pose proof (no_unsent c n s Hrw) as Hu. pose proof (n_opt_le (lib_lock s)) as Hn.
        destruct Hc as [-> | [-> | (cl & b & ->)]].
        -- pose proof (cnt_two waiter _ i j _ _ Hi Hj eq_refl eq_refl ltac:(intros ->; congruence)). lia.
        -- pose proof (cnt_two waiter _ i j _ _ Hi Hj eq_refl eq_refl ltac:(intros ->; congruence)). lia.
        -- destruct b.
           ++ pose proof (cnt_ge olock_sent _ _ _ Hi) as G2. simpl in G2. lia.
           ++ pose proof (cnt_ge olock_unsent _ _ _ Hi) as G2. simpl in G2. lia.
      * pose proof (no_panic c n s Hr). pose proof (cnt_ge is_panic _ _ _ Hj) as G. simpl in G. lia.
  - left. exists i. exists Go.
    destruct Hc as [-> | [-> | (cl & b & ->)]]; (eexists; split; [done|]; split; [done|]; split;
      [unfold step; rewrite Hi, Em; reflexivity|by intros [? ?]]).
Qed.

Lemma awake_busy c n s i p :
  reachable_w c n s -> threads s !! i = Some p -> p <> Idle -> p <> WSleep -> p <> WPoll -> busy c s.
Proof.
  intros Hrw Hi H1 H2 H3. pose proof (reachable_w_reachable _ _ _ Hrw) as Hr.
  destruct (self_moving p) eqn:Ep.
  - destruct (self_move c n s i p Hr Hi Ep) as [|]; [left|right]; eauto.
  - destruct p; try done.
    + eapply mutex_free_or_busy; [done|exact Hi|eauto].
    + eapply mutex_free_or_busy; [done|exact Hi|eauto].
    + eapply mutex_free_or_busy; [done|exact Hi|eauto].
    + pose proof (no_panic c n s Hr). pose proof (cnt_ge is_panic _ _ _ Hi) as G. simpl in G. lia.
Qed.

Definition elsewhere (p : pc) : bool := match p with Idle | WPoll => false | _ => true end.

Lemma busy_or_settled c n s : reachable_w c n s -> busy c s \/ settled s.
Proof.
  intros Hrw. pose proof (reachable_w_reachable _ _ _ Hrw) as Hr.
  destruct (decide (0 < cnt elsewhere (threads s))) as [He|He].
  - left. apply cnt_pos in He as (i & p & Hi & Hp).
    destruct (asleep p) eqn:Es.
    + destruct p; try done. destruct (base_inv c n s Hr) as [B1 B2 B3 B4].
      pose proof (cnt_ge asleep _ _ _ Hi) as G. simpl in G. specialize (B4 G).
      destruct (decide (0 < cnt is_osignal (threads s))) as [Ho|Ho].
      * destruct (cnt_pos _ _ Ho) as (j & q & Hj & Hq). eapply (awake_busy c n s j q); try done; by intros ->.
      * destruct (cnt_pos inop (threads s) ltac:(lia)) as (j & q & Hj & Hq).
        eapply (awake_busy c n s j q); try done; by intros ->.
    + eapply (awake_busy c n s i p); try done; by intros ->.
  - destruct (decide (0 < bytes s)) as [Hb|Hb].
    + destruct (decide (0 < cnt is_wpoll (threads s))) as [Hq|Hq].
      * left. left. apply cnt_pos in Hq as (i & p & Hi & Hp). exists i. destruct p; try done.
        by eapply poll_move.
      * right. intros i p Hi. pose proof (cnt_ge elsewhere _ _ _ Hi) as G1.
        pose proof (cnt_ge is_wpoll _ _ _ Hi) as G2. destruct p; simpl in G1, G2; try lia. by left.
    + right. intros i p Hi. pose proof (cnt_ge elsewhere _ _ _ Hi) as G1.
      destruct p; simpl in G1; try lia; [by left|right; split; [done|lia]].
Qed.

Lemma bytes_bound c n s : reachable c n s -> bytes s <= 2 * n + 2.
Proof.
  intros Hr. pose proof (bound_inv c n s Hr) as H.
  destruct (base_inv c n s Hr) as [B1 _ _ _]. pose proof (n_opt_le (mutex s)) as L1.
  pose proof (length_inv c n s Hr) as L2.
  pose proof (cnt_le_length sent (threads s)) as L3.
  assert (cnt is_wpop (threads s) <= cnt crit (threads s)) by (apply cnt_mono; by intros []).
  destruct (notified s); simpl in H; lia.
Qed.

Lemma channel_free c n s p :
  chan c = EspEventfd \/ (chan c = Pipe /\ 2 * n + 2 < cap c) -> reachable c n s -> ~ at_channel c s p.
Proof.
  intros Hc Hr Ha.
  destruct Hc as [He|[He Hcap]]; destruct p; simpl in Ha; try done;
    unfold chan_write, chan_pop in Ha; rewrite He in Ha; simpl in Ha; try done.
  all: try (by destruct (bytes s)).
  all: pose proof (bytes_bound c n s Hr); case_decide; [done|lia].
Qed.

