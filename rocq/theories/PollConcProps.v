(** Theorems about concurrent use of the poll backend: C31-C37. *)
From stdpp Require Import prelude list gmap.
From Verif Require Import Bits Types EventModel Pool PollModel PollSpec PollProofs PollProps
  PollConcModel PollConcSpec PollConcProofs PollConcProofs2 PollConcTable PollConcNotify PollConcMore
  PollConcLive.
Local Open Scope nat_scope.
Import PollConcModel PollConcSpec.

(** Concrete schedules: [run_if] also checks every step. *)
Definition legalb (s : state) (l : label) : bool :=
  match l.2 with
  | KRet a => bool_decide (length a.1 = length (poll_fds (table s)) /\
                           a.2 = length (List.filter nonzero a.1))
  | Store order => bool_decide (NoDup order /\ list_to_set order = dom (fd_data (table s)))
  | _ => true
  end.
Lemma legalb_ok s l : legalb s l = true -> legal s l.
Proof.
  unfold legalb, legal. destruct l as [i a]. destruct a; simpl; try done; intros H;
    apply bool_decide_eq_true in H; [done|].
  destruct H as [H1 H2]. split; [done|]. intros fd.
  rewrite <-elem_of_dom, <-H2, elem_of_list_to_set. done.
Qed.
Definition no_fault (l : label) : bool := match l.2 with Fault _ => false | _ => true end.
Fixpoint run_if (c : config) (s : state) (ls : list label) : option state :=
  match ls with
  | [] => Some s
  | l :: r =>
      if legalb s l && no_fault l
      then match step c s l with Some s' => run_if c s' r | None => None end
      else None
  end.
Definition is_fault (s : state) (l : label) : Prop := exists e, l.2 = Fault e.
Lemma run_if_but c n s ls s' :
  reachable_but is_fault c n s -> run_if c s ls = Some s' -> reachable_but is_fault c n s'.
Proof.
  revert s. induction ls as [|l ls IH]; simpl; intros s H Hr; [by simplify_eq|].
  destruct (legalb s l && no_fault l) eqn:E; [|done]. apply andb_prop in E as [E1 E2].
  destruct (step c s l) eqn:Es; [|done]. eapply IH; [|done]. econstructor; eauto using legalb_ok.
  intros [e He]. unfold no_fault in E2. by rewrite He in E2.
Qed.
Lemma but_w c n s : reachable_but is_fault c n s -> reachable_w c n s.
Proof.
  induction 1 as [|s l s' Hr IH Hl Hs Hb]; [constructor|]. econstructor; eauto.
  intros (e & He & _). apply Hb. by exists e.
Qed.
Lemma run_if_w c n ls s : run_if c (init c n) ls = Some s -> reachable_w c n s.
Proof. intros H. eapply but_w, run_if_but; [constructor|done]. Qed.

Definition cfg (k : channel) : config := Config k 100 o34.
Definition at0 (l : list act) : list label := map (pair 0) l.
Definition at1 (l : list act) : list label := map (pair 1) l.
Definition at2 (l : list act) : list label := map (pair 2) l.

(** Thread 0 gets into poll(2); thread 1 adds descriptor 10 up to the lock. *)
Definition to_poll : list label := at0 [CallWait; Go; Go; Go; Go].
Definition add10 : list label := at1 [CallOp (CAdd 10 (rd 1) Oneshot); Go; Go].

(** ** C31 *)
Theorem C31_table_used_by_one_thread :
  forall c n s i j p q, reachable c n s ->
    threads s !! i = Some p -> threads s !! j = Some q -> uses_table p -> uses_table q -> i = j.
Proof.
  intros c n s i j p q Hr Hi Hj Hp Hq.
  exact (crit_unique c n s i j p q Hr Hi Hj (uses_crit p Hp) (uses_crit q Hq)).
Qed.
Print Assumptions C31_table_used_by_one_thread.

Theorem C31_table_frozen_while_polling :
  forall c n s i j a s' p, reachable c n s -> threads s !! i = Some p -> polling p -> i <> j ->
    legal s (j, a) -> step c s (j, a) = Some s' -> table s' = table s /\ threads s' !! i = Some p.
Proof.
  intros c n s i j a s' p Hr Hi Hp Hne Hl Hs. split.
  - destruct (table_frame c s j a s' Hs) as [|[[cl Hx]|[b Hx]]]; [done| |];
      destruct Hne; eapply (crit_unique c n s); eauto using polling_crit.
  - destruct (threads s' !! i) as [q|] eqn:Hq.
    + destruct (other_thread c s j a s' i q Hs Hne Hq) as [Hi'|[_ Hi']]; [congruence|].
      rewrite Hi in Hi'. by simplify_eq.
    + exfalso. apply lookup_ge_None_1 in Hq.
      pose proof (length_inv c n s Hr) as L1.
      pose proof (length_inv c n s' ltac:(econstructor; eauto)) as L2.
      apply lookup_lt_Some in Hi. lia.
Qed.
Print Assumptions C31_table_frozen_while_polling.

(** Each call behaves as if performed at once, in the order of the log. *)
Theorem C31_calls_take_effect_one_at_a_time :
  forall c n s, reachable c n s ->
    table s = table_after c (log s) /\
    PollSpec.reachable (own c) (table s) /\
    (forall h1 i cl r h2, log s = h1 ++ OpEffect i cl r :: h2 ->
       (do_call (own c) (table_after c h1) cl).1 = r) /\
    (forall h1 i r h2, log s = h1 ++ OpRet i r :: h2 ->
       exists cl a b d, h1 = a ++ OpCall i cl :: b ++ OpEffect i cl r :: d /\
         has_none (op_boundary i) b /\ has_none (op_boundary i) d).
Proof.
  intros c n s Hr. split; [by apply (replay_ok c n)|]. split; [by destruct (tab_inv_ok c n s Hr)|].
  split; [exact (effects_inv c n s Hr)|]. exact (proj1 (logs_inv c n s Hr)).
Qed.
Print Assumptions C31_calls_take_effect_one_at_a_time.

(** Every poll(2) call uses the current table: changes that have returned are in it. *)
Theorem C31_poll_uses_current_table :
  forall c n s, reachable c n s ->
    (forall h1 i t h2, log s = h1 ++ PollStart i t :: h2 -> t = table_after c h1) /\
    (forall i p, threads s !! i = Some p -> polling p ->
       exists a b, log s = a ++ PollStart i (table s) :: b /\ has_none (wait_boundary i) b) /\
    (forall h1 i evs h2, log s = h1 ++ WaitOk i evs :: h2 ->
       evs = [] \/
       exists a an fl ord b, h1 = a ++ TurnEffect i an fl ord :: b /\ has_none (wait_boundary i) b /\
         (poll_turn (table_after c a) (PollRet an.1 an.2) fl ord).1 = TDone evs).
Proof.
  intros c n s Hr. split; [exact (starts_inv c n s Hr)|]. split.
  - intros i p Hi Hp. pose proof (local_inv c n s i p Hr Hi) as H.
    rewrite (replay_ok c n s Hr). by destruct p.
  - exact (proj2 (proj2 (logs_inv c n s Hr))).
Qed.
Print Assumptions C31_poll_uses_current_table.

(** A wait in poll(2), woken by an add that then takes effect. *)
Definition woken_add : list label :=
  to_poll ++ add10 ++ at0 [KRet ([1]%N, 1); Go; Go; Store []; Go; Go] ++ at1 [Go; Go; Go; Go]
  ++ at1 [SignalTo (Some 0); Go; Go] ++ at0 [Go; Go; Go].
Example C31_nonvacuous :
  exists s, run_if (cfg Pipe) (init (cfg Pipe) 2) woken_add = Some s /\
    reachable_w (cfg Pipe) 2 s /\ threads s !! 0 = Some WPoll /\ polling WPoll /\
    length (poll_fds (table s)) = 2 /\ OpRet 1 (Ok tt) ∈ log s.
Proof.
  eexists. split; [vm_compute; reflexivity|].
  split; [eapply (run_if_w _ _ woken_add); vm_compute; reflexivity|].
  split; [done|]. split; [done|]. split; [done|]. simpl. set_solver.
Qed.

(** ** C32 *)
Theorem C32_change_wakes_poll :
  forall c n s i j cl sent, reachable_w c n s ->
    threads s !! i = Some (OLock cl sent) -> threads s !! j = Some WPoll ->
    0 < bytes s /\ can_move c s j.
Proof.
  intros c n s i j cl sent Hrw Hi Hj. pose proof (reachable_w_reachable _ _ _ Hrw) as Hr.
  assert (0 < bytes s) as Hb; [|split; [done|by eapply poll_move]].
  destruct (chan_inv_ok c n s Hr) as [Cq _].
  pose proof (cnt_ge is_wpoll _ _ _ Hj) as G1. simpl in G1. specialize (Cq G1).
  pose proof (no_unsent c n s Hrw) as Hu.
  destruct sent.
  - pose proof (cnt_ge olock_sent _ _ _ Hi) as G2. simpl in G2. lia.
  - pose proof (cnt_ge olock_unsent _ _ _ Hi) as G2. simpl in G2. lia.
Qed.
Print Assumptions C32_change_wakes_poll.

Theorem C32_sleeper_has_waker :
  forall c n s i, reachable c n s -> threads s !! i = Some WSleep ->
    exists j p, threads s !! j = Some p /\ changing p.
Proof.
  intros c n s i Hr Hi. destruct (base_inv c n s Hr) as [B1 B2 B3 B4].
  pose proof (cnt_ge asleep _ _ _ Hi) as G. simpl in G. specialize (B4 G).
  destruct (decide (0 < cnt is_osignal (threads s))) as [Ho|Ho].
  - destruct (cnt_pos _ _ Ho) as (j & q & Hj & Hq). exists j, q. split; [done|]. by destruct q.
  - destruct (cnt_pos inop (threads s) ltac:(lia)) as (j & q & Hj & Hq).
    exists j, q. split; [done|]. by destruct q.
Qed.
Print Assumptions C32_sleeper_has_waker.

Definition to_sleep : list label :=
  to_poll ++ add10 ++ at0 [KRet ([1]%N, 1); Go; Go; Store []; Go; Go].
Example C32_nonvacuous :
  (exists s, run_if (cfg Pipe) (init (cfg Pipe) 2) (to_poll ++ add10) = Some s /\
     reachable_w (cfg Pipe) 2 s /\ threads s !! 0 = Some WPoll /\
     threads s !! 1 = Some (OLock (CAdd 10 (rd 1) Oneshot) true) /\ bytes s = 1) /\
  (exists s, run_if (cfg Pipe) (init (cfg Pipe) 2) to_sleep = Some s /\
     reachable_w (cfg Pipe) 2 s /\ threads s !! 0 = Some WSleep).
Proof.
  split; eexists; (split; [vm_compute; reflexivity|]).
  - split; [eapply (run_if_w _ _ (to_poll ++ add10)); vm_compute; reflexivity|]. done.
  - split; [|done]. eapply (run_if_w _ _ to_sleep); vm_compute; reflexivity.
Qed.

(** ** C33 *)
Theorem C33_calls_bounded :
  forall c n s k s', reachable c n s -> internal_steps c k s s' -> k <= 30 * n + 12.
Proof.
  intros c n s k s' Hr H. destruct (internal_bound c n k s s' Hr H) as [H1 _].
  unfold measure in H1. pose proof (bytes_bound c n s Hr).
  pose proof (sumw_le weight 18 (threads s) weight_le) as H2. rewrite (length_inv c n s Hr) in H2. lia.
Qed.
Print Assumptions C33_calls_bounded.

Theorem C33_only_settled_states_are_stuck :
  forall c n s, chan c = EspEventfd \/ (chan c = Pipe /\ 2 * n + 2 < cap c) -> reachable_w c n s ->
    (exists i, can_move c s i) \/ settled s.
Proof.
  intros c n s Hc Hr. destruct (busy_or_settled c n s Hr) as [[H|(j & p & Hj & Ha)]|H]; eauto.
  exfalso. by eapply (channel_free c n s p); eauto using reachable_w_reachable.
Qed.
Print Assumptions C33_only_settled_states_are_stuck.

(** The calls under way do finish: some run of at most the bound reaches a settled state, and
    every run that cannot be continued has reached one. *)
Theorem C33_calls_finish :
  forall c n s, chan c = EspEventfd \/ (chan c = Pipe /\ 2 * n + 2 < cap c) -> reachable_w c n s ->
    (exists k s', k <= 30 * n + 12 /\ internal_steps c k s s' /\ settled s') /\
    (forall k s', internal_steps c k s s' -> (forall i, ~ can_move c s' i) -> settled s').
Proof.
  intros c n s Hc Hr.
  assert (Hw : forall k s s', reachable_w c n s -> internal_steps c k s s' -> reachable_w c n s').
  { intros k s1 s2 H1 H2. induction H2 as [|k s1 l s2 s3 Hi Hl Hs _ IH]; [done|].
    apply IH. econstructor; eauto. intros (e & He & _). by rewrite He in Hi. }
  split.
  - assert (H : exists k s', internal_steps c k s s' /\ settled s').
    { remember (measure s) as m eqn:Em. revert s Hr Em.
      induction m as [m IH] using lt_wf_ind. intros s Hr ->.
      destruct (C33_only_settled_states_are_stuck c n s Hc Hr) as [(i & a & s1 & Hi & Hl & Hs & _)|H].
      - pose proof (measure_step c n s i a s1 (reachable_w_reachable _ _ _ Hr) Hi Hl Hs) as Hm.
        assert (Hr1 : reachable_w c n s1).
        { apply (Hw 1 s); [done|]. apply (int_cons c 0 s (i, a) s1 s1); [done|done|done|constructor]. }
        destruct (IH _ Hm s1 Hr1 eq_refl) as (k & s' & Hk & Hs').
        exists (S k), s'. split; [|done]. by apply (int_cons c k s (i, a) s1 s').
      - exists 0, s. split; [constructor|done]. }
    destruct H as (k & s' & Hk & Hs'). exists k, s'. split; [|done].
    eapply C33_calls_bounded; [by apply reachable_w_reachable|done].
  - intros k s' Hk Hn.
    destruct (C33_only_settled_states_are_stuck c n s' Hc (Hw _ _ _ Hr Hk)) as [[i Hi]|H]; [|done].
    by destruct (Hn i).
Qed.
Print Assumptions C33_calls_finish.

Definition three_busy : list label := to_poll ++ add10 ++ at2 [CallNotify; Go; Go].
Example C33_nonvacuous :
  exists s, run_if (cfg Pipe) (init (cfg Pipe) 3) three_busy = Some s /\
    reachable_w (cfg Pipe) 3 s /\ 2 * 3 + 2 < cap (cfg Pipe) /\ ~ settled s.
Proof.
  eexists. split; [vm_compute; reflexivity|].
  split; [eapply (run_if_w _ _ three_busy); vm_compute; reflexivity|].
  split; [simpl; lia|]. intros H. destruct (H 2 NWrite eq_refl) as [?|[? _]]; done.
Qed.

(** ** C34 *)

(** A notify() caught between setting the flag and writing its byte makes wait() fail; after
    that, notifications have no effect. *)
Definition early_wait : list label :=
  at1 [CallNotify; Go; Go] ++ at0 [CallWait; Go; Go; Go; Go; Go; Go].
Definition lost_schedule : list label :=
  early_wait ++ at1 [Go; SignalTo None; Go]
  ++ at0 [CallWait; Go; Go; Go; Go; KRet ([1]%N, 1); Go; Go; Store []; Go; Go]
  ++ at1 [CallNotify; Go; Go].

Theorem C34_notify_lost_refuted :
  exists s, reachable_but is_fault (cfg Pipe) 2 s /\ owed_strictly (log s) /\
    threads s !! 0 = Some WPoll /\ bytes s = 0 /\ ~ notifying s /\ settled s.
Proof.
  eexists. split.
  { eapply (run_if_but _ _ _ lost_schedule); [constructor|]. vm_compute. reflexivity. }
  split.
  { eexists [_; _; _; _; _; _; _; _], 1, [], []. cbn [log app].
    split; [reflexivity|]. split; [apply not_elem_of_nil|].
    split; intros; apply not_elem_of_nil. }
  split; [done|]. split; [done|]. split.
  - intros [j [Hj|Hj]]; (destruct j as [|[|j]]; [discriminate Hj|discriminate Hj|discriminate Hj]).
  - intros i p Hi. destruct i as [|[|i]]; [injection Hi as <-; by right|injection Hi as <-; by left|discriminate Hi].
Qed.
Print Assumptions C34_notify_lost_refuted.

(** From there on every further notify() returns Ok and the waiting thread stays in poll(2),
    until poll(2) reports a descriptor or times out, or someone changes a registration. *)
Inductive only_notifies (c : config) (s0 : state) : state -> Prop :=
| on_refl : only_notifies c s0 s0
| on_step s i a s' : only_notifies c s0 s -> step c s (i, a) = Some s' ->
    (forall cl, a <> CallOp cl) -> (forall x, a <> KRet x) -> (forall e, a <> Fault e) ->
    only_notifies c s0 s'.
Theorem C34_waiter_stays_deaf_refuted :
  exists s, reachable_but is_fault (cfg Pipe) 2 s /\ owed_strictly (log s) /\
    forall s', only_notifies (cfg Pipe) s s' -> threads s' !! 0 = Some WPoll /\ bytes s' = 0.
Proof.
  destruct C34_notify_lost_refuted as (s & H1 & H2 & H3 & H4 & H5 & H6).
  exists s. split; [done|]. split; [done|].
  assert (Hs : lib_flag s = true /\ lib_lock s <> None).
  { pose proof (reachable_but_reachable _ _ _ _ H1) as Hr.
    destruct (base_inv _ _ _ Hr) as [_ B2 _ _].
    pose proof (cnt_ge waiter _ _ _ H3) as G. simpl in G. split; [|intros E; rewrite E in B2; simpl in B2; lia].
    assert (Ho : owed (log s)).
    { destruct H2 as (h1 & i & h2 & h3 & E1 & E2 & E3 & _). exists h1, i, h2, h3. done. }
    destruct (owed_inv _ _ _ Hr Ho) as [Hf|Hf]; [done|].
    destruct (cnt_pos _ _ Hf) as (j & q & Hj & Hq). destruct (H6 j q Hj) as [->|[-> _]]; done. }
  intros s' Hn.
  enough (Hall : threads s' !! 0 = Some WPoll /\ bytes s' = 0 /\ lib_flag s' = true /\ lib_lock s' <> None /\
    forall i p, threads s' !! i = Some p -> p = WPoll \/ p = Idle \/ p = NCas \/ p = NRet \/ p = WTry)
    by tauto.
  induction Hn as [|s1 i a s2 Hn IH Hst A1 A2 A3].
  - destruct Hs as [Hs1 Hs2]. split; [done|]. split; [done|]. split; [done|]. split; [done|].
    intros i p Hi. destruct (H6 i p Hi) as [->|[-> _]]; auto.
  - destruct IH as (I1 & I2 & I3 & I4 & I5).
    assert (Hlk : forall j p q, threads s1 !! j = Some p -> p <> WPoll -> <[j:=q]> (threads s1) !! 0 = Some WPoll).
    { intros j p q Hj Hp. rewrite list_lookup_insert_ne by (intros ->; congruence). done. }
    assert (Hoth : forall j p q, threads s1 !! j = Some p -> (q = Idle \/ q = NCas \/ q = NRet \/ q = WTry) ->
      forall i p, <[j:=q]> (threads s1) !! i = Some p -> p = WPoll \/ p = Idle \/ p = NCas \/ p = NRet \/ p = WTry).
    { intros j p q Hj Hq i' p' Hi'. rewrite (lookup_upd _ _ _ _ _ Hj) in Hi'. case_decide; simplify_eq; eauto. }
    destruct (threads s1 !! i) as [p|] eqn:Hi; [|unfold step in Hst; by rewrite Hi in Hst].
    destruct (I5 i p Hi) as [-> | [-> | [-> | [-> | ->]]]]; unfold step in Hst; rewrite Hi in Hst;
      destruct a; simplify_eq/=.
    all: try (by destruct (A1 c)). all: try (by destruct (A2 a)). all: try (by destruct (A3 e)).
    all: try rewrite I3 in Hst; try (destruct (lib_lock s1) eqn:El; [|done]); simplify_eq/=.
    all: split; [by eapply Hlk|]; split; [done|]; split; [done|]; split; [congruence|]; eapply Hoth; eauto.
Qed.
Print Assumptions C34_waiter_stays_deaf_refuted.

(** Missing for the full claim: histories in which a wait() found itself notified but the pipe
    empty (C35), and failed writes to the channel. *)
Theorem C34_not_lost_partial :
  forall c n s i, reachable_ok c n s -> owed (log s) ->
    (threads s !! i = Some WPoll -> 0 < bytes s \/ notifying s) /\
    (threads s !! i = Some WSleep ->
       (notified s = true \/ notifying s) /\ exists j p, threads s !! j = Some p /\ changing p).
Proof.
  intros c n s i Hr Ho. split.
  - exact (poll_not_lost c n s i Hr Ho).
  - intros Hi. split.
    + destruct (notification_kept c n s i WSleep Hr Ho Hi eq_refl) as [|[j Hj]]; [by left|].
      right. exists j. by left.
    + eapply C32_sleeper_has_waker; [|done].
      apply (reachable_w_reachable _ _ _ (reachable_ok_w _ _ _ Hr)).
Qed.
Print Assumptions C34_not_lost_partial.

(** With the ESP-IDF eventfd nothing is lost as long as writes succeed. *)
Theorem C34_eventfd_not_lost_partial :
  forall c n s i, chan c = EspEventfd -> reachable_w c n s -> owed (log s) ->
    (threads s !! i = Some WPoll -> 0 < bytes s \/ notifying s) /\
    (threads s !! i = Some WSleep ->
       (notified s = true \/ notifying s) /\ exists j p, threads s !! j = Some p /\ changing p).
Proof.
  intros c n s i Hc Hr. exact (C34_not_lost_partial c n s i (esp_ok c n s Hc Hr)).
Qed.
Print Assumptions C34_eventfd_not_lost_partial.

(** Once nothing can move, nobody is left waiting for a notification already given. *)
Theorem C34_nobody_left_waiting_partial :
  forall c n s, (chan c = EspEventfd \/ (chan c = Pipe /\ 2 * n + 2 < cap c)) ->
    reachable_ok c n s -> owed (log s) -> (forall i, ~ can_move c s i) ->
    forall i p, threads s !! i = Some p -> p = Idle.
Proof.
  intros c n s Hc Hr Ho Hn i p Hi. pose proof (reachable_ok_w _ _ _ Hr) as Hw.
  destruct (C33_only_settled_states_are_stuck c n s Hc Hw) as [[j Hj]|Hs]; [by destruct (Hn j)|].
  destruct (Hs i p Hi) as [|[-> Hb]]; [done|].
  destruct (poll_not_lost c n s i Hr Ho Hi) as [|[j Hj]]; [lia|].
  destruct Hj as [Hj|Hj]; destruct (Hs j _ Hj) as [|[? _]]; done.
Qed.
Print Assumptions C34_nobody_left_waiting_partial.

Definition notified_poll : list label := to_poll ++ at1 [CallNotify; Go; Go; Go; SignalTo None; Go].
Fixpoint run_ok (c : config) (s : state) (ls : list label) : option state :=
  match ls with
  | [] => Some s
  | l :: r =>
      if legalb s l && no_fault l && negb (match threads s !! l.1 with Some WPop => true | _ => false end)
      then match step c s l with Some s' => run_ok c s' r | None => None end
      else None
  end.
Lemma run_ok_reach c n s ls s' :
  reachable_ok c n s -> run_ok c s ls = Some s' -> reachable_ok c n s'.
Proof.
  revert s. induction ls as [|l ls IH]; simpl; intros s H Hr; [by simplify_eq|].
  destruct (legalb s l && no_fault l && _) eqn:E; [|done]. apply andb_prop in E as [E E3].
  apply andb_prop in E as [E1 E2].
  destruct (step c s l) eqn:Es; [|done]. eapply IH; [|done]. econstructor; eauto using legalb_ok.
  - intros (e & He & _). unfold no_fault in E2. by rewrite He in E2.
  - intros [Hp _]. by rewrite Hp in E3.
Qed.
Example C34_nonvacuous :
  forall k, exists s, run_ok (cfg k) (init (cfg k) 2) notified_poll = Some s /\
    reachable_ok (cfg k) 2 s /\ owed (log s) /\ threads s !! 0 = Some WPoll /\ bytes s = 1.
Proof.
  intros k. eexists. split; [destruct k; vm_compute; reflexivity|].
  split; [eapply (run_ok_reach _ _ _ notified_poll); [constructor|destruct k; vm_compute; reflexivity]|].
  split; [|done].
  eexists [_; _], 1, [], []. cbn [log app].
  split; [reflexivity|]. split; [apply not_elem_of_nil|]. intros; apply not_elem_of_nil.
Qed.

(** ** C35 *)
Theorem C35_wait_fails_spuriously_refuted :
  exists s, reachable_but is_fault (cfg Pipe) 2 s /\ WaitError 0 (EOs EAGAIN) ∈ log s.
Proof.
  eexists. split.
  { eapply (run_if_but _ _ _ early_wait); [constructor|]. vm_compute. reflexivity. }
  simpl. set_solver.
Qed.
Print Assumptions C35_wait_fails_spuriously_refuted.

(** Missing for the full claim: on a pipe the failures do occur, but at most one per notify()
    call, if poll(2) itself never fails with EAGAIN. *)
Theorem C35_failures_need_a_notify_partial :
  forall c n s, reachable_but poll_eagain c n s ->
    count is_pop_error (log s) <= count is_notify_call (log s).
Proof. intros c n s Hr. pose proof (errors_inv c n s Hr). lia. Qed.
Print Assumptions C35_failures_need_a_notify_partial.

(** Apart from that, wait() fails only if poll(2) fails. *)
Theorem C35_no_other_failure_partial :
  forall c n s, reachable_but (fun s l => poll_fault s l \/ pop_fails c s l) c n s ->
    forall i e, WaitError i e ∉ log s.
Proof. intros c n s Hr. exact (proj2 (no_errors c n s Hr)). Qed.
Print Assumptions C35_no_other_failure_partial.

(** With the other channels reading a notification never fails, so the claim holds. *)
Theorem C35_other_channels_partial :
  forall c n s, chan c <> Pipe -> reachable_but poll_fault c n s -> forall i e, WaitError i e ∉ log s.
Proof.
  intros c n s Hc Hr. apply (C35_no_other_failure_partial c n).
  induction Hr as [|s l s' Hr IH Hl Hs Hb]; [constructor|]. econstructor; eauto.
  intros [|[_ [b Hp]]]; [done|]. unfold chan_pop in Hp. destruct (chan c), (bytes s); done.
Qed.
Print Assumptions C35_other_channels_partial.

Example C35_nonvacuous :
  (exists s, reachable_but poll_eagain (cfg Pipe) 2 s /\ count is_pop_error (log s) = 1) /\
  (exists s, reachable_but poll_fault (cfg EspEventfd) 2 s /\ WaitOk 0 [] ∈ log s).
Proof.
  assert (H : forall (bad : state -> label -> Prop) c n s, (forall s l, bad s l -> is_fault s l) -> reachable_but is_fault c n s ->
    reachable_but bad c n s).
  { intros bad c n s Hb. induction 1; [constructor|]. econstructor; eauto. }
  split; eexists.
  - split.
    + apply H; [intros s l [Hl _]; by eexists|].
      eapply (run_if_but _ _ _ early_wait); [constructor|]. vm_compute. reflexivity.
    + reflexivity.
  - split.
    + apply H; [intros s l (e & Hl & _); by eexists|].
      eapply (run_if_but _ _ _ (early_wait ++ at0 [Go])); [constructor|]. vm_compute. reflexivity.
    + cbn [log]. repeat (first [apply elem_of_list_here | apply elem_of_list_further]).
Qed.

(** ** C36 *)

(** The waiting thread takes the wake-up meant for the thread that wants to change a
    registration and goes to sleep; the latter then waits for ever for the byte. *)
Definition deadlock_schedule (k : channel) : list label :=
  match k with
  | HermitEventfd => to_poll ++ add10 ++ at0 [KRet ([1]%N, 1); Go; Store []; Go; Go] ++ at1 [Go]
  | _ => to_poll ++ add10 ++ at0 [KRet ([1]%N, 1); Go; Go; Store []; Go; Go] ++ at1 [Go]
  end.
Lemma deadlock_stays k s0 s :
  k = VitaPipe \/ k = HermitEventfd -> no_new_calls (cfg k) s0 s ->
  (exists x cl, threads s0 = [x; OPop cl] /\ (x = WSleep \/ x = WWoken)) ->
  mutex s0 = Some 1 -> bytes s0 = 0 ->
  log s = log s0 /\ (exists x cl, threads s = [x; OPop cl] /\ (x = WSleep \/ x = WWoken)) /\
  mutex s = Some 1 /\ bytes s = 0.
Proof.
  intros Hk Hn Ht Hm Hb. induction Hn as [|s i a s' Hn IH Hs A1 A2 A3]; [done|].
  destruct IH as (IL & (x & cl & It & Ix) & Im & Ib).
  destruct i as [|[|i]]; unfold step in Hs; rewrite It in Hs; simpl in Hs.
  - destruct Ix as [-> | ->]; destruct a; simplify_eq/=.
    + split; [done|]. split; [|done]. rewrite It. simpl. eauto.
    + rewrite Im in Hs. done.
  - destruct a; simplify_eq/=. rewrite Ib in Hs. destruct Hk as [-> | ->]; done.
  - done.
Qed.
Theorem C36_deadlock_refuted :
  forall k, k = VitaPipe \/ k = HermitEventfd ->
  exists s, reachable_but is_fault (cfg k) 2 s /\
    (exists p q, threads s !! 0 = Some p /\ threads s !! 1 = Some q /\ p <> Idle /\ q <> Idle) /\
    forall s', no_new_calls (cfg k) s s' -> log s' = log s.
Proof.
  intros k Hk.
  assert (H : exists s, run_if (cfg k) (init (cfg k) 2) (deadlock_schedule k) = Some s /\
    (exists x cl, threads s = [x; OPop cl] /\ (x = WSleep \/ x = WWoken)) /\ mutex s = Some 1 /\ bytes s = 0).
  { destruct Hk as [-> | ->]; (eexists; split; [vm_compute; reflexivity|]); (split; [|done]);
      exists WSleep; eexists; (split; [reflexivity|by left]). }
  destruct H as (s & Hrun & Ht & Hm & Hb). exists s.
  split; [eapply run_if_but; [constructor|exact Hrun]|]. split.
  - destruct Ht as (x & cl & -> & Hx). exists x, (OPop cl). split; [done|]. split; [done|].
    split; [by destruct Hx as [-> | ->]|done].
  - intros s' Hn. exact (proj1 (deadlock_stays k s s' Hk Hn Ht Hm Hb)).
Qed.
Print Assumptions C36_deadlock_refuted.

(** Missing for the full claim: with the blocking channels a thread can be left in the read of
    the empty channel, and that is the only way to get stuck. *)
Theorem C36_only_blocked_reads_partial :
  forall c n s, (is_eventfd (chan c) = true \/ 2 * n + 2 < cap c) -> reachable_w c n s ->
    (exists i, can_move c s i) \/ settled s \/
    (bytes s = 0 /\ exists i p, threads s !! i = Some p /\ (p = WPop \/ exists cl, p = OPop cl)).
Proof.
  intros c n s Hc Hr. destruct (busy_or_settled c n s Hr) as [[H|(j & p & Hj & Ha)]|H]; eauto.
  right. right.
  assert (Hw : chan_write c (bytes s) <> None).
  { unfold chan_write. destruct (is_eventfd (chan c)); [done|]. destruct Hc as [|Hc]; [done|].
    pose proof (bytes_bound c n s (reachable_w_reachable _ _ _ Hr)). case_decide; [done|lia]. }
  destruct p; simpl in Ha; try done.
  all: unfold chan_pop in Ha; destruct (chan c); destruct (bytes s) eqn:Eb; try done.
  all: split; [done|]; exists j; eexists; split; [exact Hj|]; eauto.
Qed.
Print Assumptions C36_only_blocked_reads_partial.

Example C36_nonvacuous :
  exists s, run_if (cfg VitaPipe) (init (cfg VitaPipe) 2) (deadlock_schedule VitaPipe) = Some s /\
    reachable_w (cfg VitaPipe) 2 s /\ 2 * 2 + 2 < cap (cfg VitaPipe) /\ ~ settled s.
Proof.
  eexists. split; [vm_compute; reflexivity|].
  split; [eapply (run_if_w _ _ (deadlock_schedule VitaPipe)); vm_compute; reflexivity|].
  split; [simpl; lia|]. intros H. destruct (H 0 WSleep eq_refl) as [?|[? _]]; done.
Qed.

(** ** C37 *)
Theorem C37_channel_bounded :
  forall c n s, reachable c n s -> bytes s <= 2 * n + 2.
Proof. exact bytes_bound. Qed.
Print Assumptions C37_channel_bounded.

Theorem C37_writes_never_block :
  forall c n s i p, reachable c n s -> 2 * n + 2 < cap c -> threads s !! i = Some p ->
    (p = NWrite \/ exists cl, p = OWrite cl) -> exists s', step c s (i, Go) = Some s'.
Proof.
  intros c n s i p Hr Hc Hi Hp. pose proof (bytes_bound c n s Hr) as Hb.
  assert (exists b, chan_write c (bytes s) = Some b) as [b Hw].
  { unfold chan_write. destruct (is_eventfd (chan c)); [eauto|]. case_decide; [eauto|lia]. }
  destruct Hp as [-> | [cl ->]]; unfold step; rewrite Hi, Hw; eauto.
Qed.
Print Assumptions C37_writes_never_block.

Example C37_nonvacuous :
  exists s, run_if (cfg Pipe) (init (cfg Pipe) 3) three_busy = Some s /\
    reachable (cfg Pipe) 3 s /\ bytes s = 1 /\ 2 * 3 + 2 < cap (cfg Pipe) /\
    threads s !! 2 = Some NWrite.
Proof.
  eexists. split; [vm_compute; reflexivity|].
  split; [eapply reachable_w_reachable, (run_if_w _ _ three_busy); vm_compute; reflexivity|].
  split; [done|]. split; [simpl; lia|done].
Qed.

(** ** C67 for the poll backend: an interrupted poll(2) is repeated *)
Theorem C67_poll_wait_never_interrupted :
  forall c n s i e, reachable c n s -> WaitError i e ∈ log s -> kind e <> KInterrupted.
Proof. intros c n s i e Hr. exact (proj2 (not_interrupted c n s Hr) i e). Qed.
Print Assumptions C67_poll_wait_never_interrupted.

(** ** C78: waits end early only because of notifications *)
Theorem C78_poll_early_returns_bounded :
  forall c n s, reachable c n s ->
    count is_empty_wait (log s) <= count is_notify_call (log s) + count poll_reason (log s).
Proof. intros c n s Hr. pose proof (early_inv c n s Hr). lia. Qed.
Print Assumptions C78_poll_early_returns_bounded.

(** A notification sent before the wait ends it. *)
Example C78_nonvacuous : exists s, reachable (cfg Pipe) 1 s /\
  count is_empty_wait (log s) = 1 /\ count is_notify_call (log s) = 1 /\ count poll_reason (log s) = 0.
Proof.
  assert (H : exists s, run_if (cfg Pipe) (init (cfg Pipe) 1)
    [(0, CallNotify); (0, Go); (0, Go); (0, Go); (0, SignalTo None); (0, Go);
     (0, CallWait); (0, Go); (0, Go); (0, Go); (0, Go); (0, Go); (0, Go); (0, Go)] = Some s /\
    count is_empty_wait (log s) = 1 /\ count is_notify_call (log s) = 1 /\ count poll_reason (log s) = 0).
  { eexists. split; [vm_compute; reflexivity|]. by vm_compute. }
  destruct H as (s & Hs & H). exists s. split; [|done].
  eapply reachable_but_reachable, run_if_but; [constructor|exact Hs].
Qed.
