(** C101: a message posted before notify is not left unread. *)
From stdpp Require Import prelude list gmap.
From Verif Require Import MailModel.
Local Open Scope nat_scope.

(* ------------------------------------------------------------------ *)
(** ** Specification *)

(** [a] comes before [b] in the log. *)
Definition before (l : list obs) (a b : obs) : Prop := exists l1 l2 l3, l = l1 ++ a :: l2 ++ b :: l3.
(** Thread [i] has posted [m] and then called notify, and the call has returned. *)
Definition handed_over (l : list obs) (i m : nat) : Prop := exists merged, before l (Posted i m) (Notified i merged).
(** The same, and no other notification was pending when notify was called. *)
Definition handed_over_alone (l : list obs) (i m : nat) : Prop := before l (Posted i m) (Notified i false).
(** Some thread has found [m]. *)
Definition found (l : list obs) (m : nat) : Prop := exists j ms, Took j ms ∈ l /\ m ∈ ms.
(** Nobody is about to do anything: the threads that have not gone away are blocked in wait, where no wake-up arrives. *)
Definition asleep (s : state) : Prop :=
  chan s = false /\ Forall (fun t => at_ t = Idle \/ at_ t = Blocked) (threads s) /\
  Exists (fun t => at_ t = Blocked) (threads s).

Definition C101_statement (b : mailbox) : Prop :=
  forall n ls s i m, run b ls (init n) = Some s -> asleep s -> handed_over (log s) i m -> found (log s) m.

(* ------------------------------------------------------------------ *)
(** ** Proofs *)

Lemma before_snoc l o a b : before (l ++ [o]) a b -> before l a b \/ (a ∈ l /\ o = b).
Proof.
  intros (l1 & l2 & l3 & E).
  destruct l3 as [|x l3 _] using rev_ind.
  - right. rewrite app_comm_cons, app_assoc in E. apply app_inj_tail in E as [-> ->]. split; [|done].
    apply elem_of_app. right. left.
  - left. rewrite !app_comm_cons, !app_assoc in E. apply app_inj_tail in E as [-> _].
    exists l1, l2, l3. by rewrite <- !app_assoc.
Qed.
Lemma before_in l a b : before l a b -> a ∈ l.
Proof. intros (l1 & l2 & l3 & ->). apply elem_of_app. right. left. Qed.

Lemma found_mono l o m : found l m -> found (l ++ [o]) m.
Proof. intros (j & ms & H & K). exists j, ms. rewrite elem_of_app. auto. Qed.

(** Somebody is about to act on a wake-up. *)
Definition busy (p : pc) : bool := match p with Sending | Woken => true | _ => false end.
Definition stirring (s : state) : Prop := chan s = true \/ exists j t, threads s !! j = Some t /\ busy (at_ t) = true.
Definition due (s : state) (m : option nat) : Prop :=
  exists j t, threads s !! j = Some t /\ at_ t = Due /\ match m with Some x => x ∈ know t | None => True end.

(** Which notify calls count, and whether what the reader must know is enough. *)
Definition counts (b : mailbox) (merged : bool) : Prop := match b with Guarded => True | Slots => merged = false end.
Definition must (b : mailbox) (m : nat) : option nat := match b with Guarded => None | Slots => Some m end.

Record inv (b : mailbox) (s : state) : Prop := Inv {
  i_flag : flag s = true -> stirring s;
  i_posted : forall i m, Posted i m ∈ log s -> exists t, threads s !! i = Some t /\ m ∈ know t;
  i_slot : forall i m, Posted i m ∈ log s -> m ∈ dom (slots s);
  i_sending : forall i m t, Posted i m ∈ log s -> threads s !! i = Some t -> at_ t = Sending -> m ∈ flag_view s;
  i_view : forall i m, handed_over_alone (log s) i m -> m ∈ flag_view s;
  i_done : forall i m g, before (log s) (Posted i m) (Notified i g) -> counts b g ->
    found (log s) m \/ stirring s \/ due s (must b m)
}.

Lemma stirring_set s s' i t p k :
  threads s !! i = Some t -> threads s' = <[i := Thread p k]> (threads s) ->
  (chan s = true -> chan s' = true \/ busy p = true) -> (busy (at_ t) = true -> chan s' = true \/ busy p = true) ->
  stirring s -> stirring s'.
Proof.
  intros Ht Eth Hc Hb [H|(j & u & Hj & Hu)].
  - destruct (Hc H) as [?|Hp]; [by left|]. right. exists i, (Thread p k). rewrite Eth, list_lookup_insert;
      [done|]. by eapply lookup_lt_Some.
  - destruct (decide (i = j)) as [->|Hn].
    + rewrite Ht in Hj. injection Hj as <-. destruct (Hb Hu) as [?|Hp]; [by left|].
      right. exists j, (Thread p k). rewrite Eth, list_lookup_insert; [done|]. by eapply lookup_lt_Some.
    + right. exists j, u. by rewrite Eth, list_lookup_insert_ne.
Qed.
Lemma due_set s s' i t p k m :
  threads s !! i = Some t -> threads s' = <[i := Thread p k]> (threads s) -> at_ t <> Due -> due s m -> due s' m.
Proof.
  intros Ht Eth Hd (j & u & Hj & Hu & Hm). destruct (decide (i = j)) as [->|Hn]; [congruence|].
  exists j, u. by rewrite Eth, list_lookup_insert_ne.
Qed.
Lemma insert_self {A} (l : list A) i x : i < length l -> <[i := x]> l !! i = Some x.
Proof. apply list_lookup_insert. Qed.

Lemma inv_init b n : inv b (init n).
Proof.
  split; cbn; try done; try (intros; by match goal with H : _ ∈ [] |- _ => apply elem_of_nil in H end).
  - intros i m H%before_in. by apply elem_of_nil in H.
  - intros i m g H%before_in. by apply elem_of_nil in H.
Qed.

Ltac in_snoc H := rewrite elem_of_app, elem_of_list_singleton in H; destruct H as [H|H]; [|try discriminate H].

Lemma inv_step b s x s' : inv b s -> step b s x = Some s' -> inv b s'.
Proof.
  intros [Hf Hp Hs Hse Hv Hd] E. unfold step in E. destruct x as [i a]; cbn [fst snd] in E.
  destruct (threads s !! i) as [t|] eqn:Ht; [|done].
  assert (Li : i < length (threads s)) by by eapply lookup_lt_Some.
  destruct (at_ t) eqn:Et, a; try discriminate E.
  - (* Post *)
    destruct (slots s !! m) eqn:Em; [done|]. injection E as <-.
    assert (ST : forall s1, threads s1 = <[i:=Thread Idle ({[m]} ∪ know t)]> (threads s) -> chan s1 = chan s ->
              stirring s -> stirring s1).
    { intros s1 E1 E2. eapply stirring_set; [exact Ht|exact E1|..]; [rewrite E2; auto|rewrite Et; done]. }
    split; cbn [flag threads log flag_view slots emit set_slots set_thread].
    + intros H. eapply ST; cbn; auto.
    + intros i0 m0 H. in_snoc H.
      * destruct (Hp _ _ H) as (u & Hu & Hm). destruct (decide (i = i0)) as [<-|Hn].
        -- exists (Thread Idle ({[m]} ∪ know t)). rewrite insert_self by done. split; [done|].
           cbn. rewrite Ht in Hu. injection Hu as <-. set_solver.
        -- exists u. by rewrite list_lookup_insert_ne.
      * injection H as -> ->. exists (Thread Idle ({[m]} ∪ know t)). rewrite insert_self by done.
        split; [done|]. cbn. set_solver.
    + intros i0 m0 H. rewrite dom_insert. in_snoc H; [|injection H as -> ->; set_solver].
      pose proof (Hs _ _ H). set_solver.
    + intros i0 m0 t0 H H0 H1. destruct (decide (i = i0)) as [<-|Hn].
      { rewrite insert_self in H0 by done. by injection H0 as <-. }
      rewrite list_lookup_insert_ne in H0 by done. in_snoc H; [by eapply Hse|]. by injection H as -> ->.
    + intros i0 m0 [H|[_ H]]%before_snoc; [by eapply Hv|done].
    + intros i0 m0 g [H|[_ H]]%before_snoc Hc; [|done].
      destruct (Hd _ _ _ H Hc) as [K|[K|K]]; [left; by apply found_mono|right; left; eapply ST; cbn; auto|].
      right; right. eapply due_set; [exact Ht|done|congruence|exact K].
  - (* Notify *)
    destruct (flag s) eqn:Ef.
    + injection E as <-.
      assert (ST : forall s1, threads s1 = <[i:=Thread Idle (flag_view s ∪ know t)]> (threads s) -> chan s1 = chan s ->
                stirring s1).
      { intros s1 E1 E2. eapply stirring_set; [exact Ht|exact E1|..]; [rewrite E2; auto|rewrite Et; done|by apply Hf]. }
      split; cbn [flag threads log flag_view slots emit set_slots set_thread].
      * intros H. by eapply ST.
      * intros i0 m0 H. in_snoc H. destruct (Hp _ _ H) as (u & Hu & Hm). destruct (decide (i = i0)) as [<-|Hn].
        -- exists (Thread Idle (flag_view s ∪ know t)). rewrite insert_self by done. split; [done|].
           cbn. rewrite Ht in Hu. injection Hu as <-. set_solver.
        -- exists u. by rewrite list_lookup_insert_ne.
      * intros i0 m0 H. in_snoc H. by eapply Hs.
      * intros i0 m0 t0 H H0 H1. destruct (decide (i = i0)) as [<-|Hn].
        { rewrite insert_self in H0 by done. by injection H0 as <-. }
        rewrite list_lookup_insert_ne in H0 by done. in_snoc H. by eapply Hse.
      * intros i0 m0 [H|[_ H]]%before_snoc; [by eapply Hv|done].
      * intros i0 m0 g H Hc. right; left. by eapply ST.
    + injection E as <-.
      assert (ST : forall s1, threads s1 = <[i:=Thread Sending (flag_view s ∪ know t)]> (threads s) -> stirring s1).
      { intros s1 E1. right. eexists i, _. rewrite E1, insert_self by done. done. }
      split; cbn [flag threads log flag_view slots emit set_slots set_thread set_flag].
      * intros H. by eapply ST.
      * intros i0 m0 H. destruct (Hp _ _ H) as (u & Hu & Hm). destruct (decide (i = i0)) as [<-|Hn].
        -- exists (Thread Sending (flag_view s ∪ know t)). rewrite insert_self by done. split; [done|].
           cbn. rewrite Ht in Hu. injection Hu as <-. set_solver.
        -- exists u. by rewrite list_lookup_insert_ne.
      * exact Hs.
      * intros i0 m0 t0 H H0 H1. destruct (decide (i = i0)) as [<-|Hn].
        { destruct (Hp _ _ H) as (u & Hu & Hm). rewrite Ht in Hu. injection Hu as <-. set_solver. }
        rewrite list_lookup_insert_ne in H0 by done. pose proof (Hse _ _ _ H H0 H1). set_solver.
      * intros i0 m0 H. pose proof (Hv _ _ H). set_solver.
      * intros i0 m0 g H Hc. right; left. by eapply ST.
  - (* Wait *)
    destruct (existsb in_wait (threads s)) eqn:Ew; injection E as <-.
    + assert (ST : forall s1, threads s1 = threads s -> chan s1 = chan s -> stirring s -> stirring s1).
      { intros s1 E1 E2. unfold stirring. by rewrite E1, E2. }
      split; cbn [flag threads log flag_view slots emit].
      * intros H. by eapply ST, Hf.
      * intros i0 m0 H. in_snoc H. by eapply Hp.
      * intros i0 m0 H. in_snoc H. by eapply Hs.
      * intros i0 m0 t0 H. in_snoc H. by eapply Hse.
      * intros i0 m0 [H|[_ H]]%before_snoc; [by eapply Hv|done].
      * intros i0 m0 g [H|[_ H]]%before_snoc Hc; [|done].
        destruct (Hd _ _ _ H Hc) as [K|[K|K]]; [left; by apply found_mono|right; left; by eapply ST|auto].
    + assert (ST : forall s1 k, threads s1 = <[i:=Thread Blocked k]> (threads s) -> chan s1 = chan s ->
                stirring s -> stirring s1).
      { intros s1 k E1 E2. eapply stirring_set; [exact Ht|exact E1|..]; [rewrite E2; auto|rewrite Et; done]. }
      split; cbn [flag threads log flag_view slots set_thread].
      * intros H. by eapply ST, Hf.
      * intros i0 m0 H. destruct (Hp _ _ H) as (u & Hu & Hm). destruct (decide (i = i0)) as [<-|Hn].
        -- eexists. rewrite insert_self by done. split; [done|].
           cbn. rewrite Ht in Hu. injection Hu as <-. set_solver.
        -- exists u. by rewrite list_lookup_insert_ne.
      * exact Hs.
      * intros i0 m0 t0 H H0 H1. destruct (decide (i = i0)) as [<-|Hn].
        { rewrite insert_self in H0 by done. by injection H0 as <-. }
        rewrite list_lookup_insert_ne in H0 by done. by eapply Hse.
      * exact Hv.
      * intros i0 m0 g H Hc.
        destruct (Hd _ _ _ H Hc) as [K|[K|K]]; [by left|right; left; by eapply ST|].
        right; right. eapply due_set; [exact Ht|done|congruence|exact K].
  - (* Send *)
    injection E as <-.
    split; cbn [flag threads log flag_view slots set_thread emit set_chan].
    + intros _. by left.
    + intros i0 m0 H. in_snoc H. destruct (Hp _ _ H) as (u & Hu & Hm). destruct (decide (i = i0)) as [<-|Hn].
      * eexists. rewrite insert_self by done. split; [done|].
        cbn. rewrite Ht in Hu. by injection Hu as <-.
      * exists u. by rewrite list_lookup_insert_ne.
    + intros i0 m0 H. in_snoc H. by eapply Hs.
    + intros i0 m0 t0 H H0 H1. destruct (decide (i = i0)) as [<-|Hn].
      { rewrite insert_self in H0 by done. by injection H0 as <-. }
      rewrite list_lookup_insert_ne in H0 by done. in_snoc H. by eapply Hse.
    + intros i0 m0 [H|[H [= ->]]]%before_snoc; [by eapply Hv|]. by eapply Hse.
    + intros i0 m0 g H Hc. right; left. by left.
  - (* Wake *)
    destruct (chan s) eqn:Ec; [|done]. injection E as <-.
    assert (ST : forall s1 k, threads s1 = <[i:=Thread Woken k]> (threads s) -> stirring s1).
    { intros s1 k E1. right. eexists i, _. rewrite E1, insert_self by done. done. }
    split; cbn [flag threads log flag_view slots set_thread set_chan].
    + intros _. by eapply ST.
    + intros i0 m0 H. destruct (Hp _ _ H) as (u & Hu & Hm). destruct (decide (i = i0)) as [<-|Hn].
      * eexists. rewrite insert_self by done. split; [done|].
        cbn. rewrite Ht in Hu. by injection Hu as <-.
      * exists u. by rewrite list_lookup_insert_ne.
    + exact Hs.
    + intros i0 m0 t0 H H0 H1. destruct (decide (i = i0)) as [<-|Hn].
      { rewrite insert_self in H0 by done. by injection H0 as <-. }
      rewrite list_lookup_insert_ne in H0 by done. by eapply Hse.
    + exact Hv.
    + intros i0 m0 g H Hc. right; left. by eapply ST.
  - (* Other *)
    injection E as <-.
    assert (ST : forall s1 k, threads s1 = <[i:=Thread Woken k]> (threads s) -> stirring s1).
    { intros s1 k E1. right. eexists i, _. rewrite E1, insert_self by done. done. }
    split; cbn [flag threads log flag_view slots set_thread set_chan].
    + intros _. by eapply ST.
    + intros i0 m0 H. destruct (Hp _ _ H) as (u & Hu & Hm). destruct (decide (i = i0)) as [<-|Hn].
      * eexists. rewrite insert_self by done. split; [done|].
        cbn. rewrite Ht in Hu. by injection Hu as <-.
      * exists u. by rewrite list_lookup_insert_ne.
    + exact Hs.
    + intros i0 m0 t0 H H0 H1. destruct (decide (i = i0)) as [<-|Hn].
      { rewrite insert_self in H0 by done. by injection H0 as <-. }
      rewrite list_lookup_insert_ne in H0 by done. by eapply Hse.
    + exact Hv.
    + intros i0 m0 g H Hc. right; left. by eapply ST.
  - (* Fail *)
    injection E as <-.
    assert (ST : forall s1 k, threads s1 = <[i:=Thread Idle k]> (threads s) -> chan s1 = chan s ->
              stirring s -> stirring s1).
    { intros s1 k E1 E2. eapply stirring_set; [exact Ht|exact E1|..]; [rewrite E2; auto|rewrite Et; done]. }
    split; cbn [flag threads log flag_view slots set_thread set_lock emit].
    + intros H. by eapply ST, Hf.
    + intros i0 m0 H. in_snoc H. destruct (Hp _ _ H) as (u & Hu & Hm). destruct (decide (i = i0)) as [<-|Hn].
      * eexists. rewrite insert_self by done. split; [done|].
        cbn. rewrite Ht in Hu. by injection Hu as <-.
      * exists u. by rewrite list_lookup_insert_ne.
    + intros i0 m0 H. in_snoc H. by eapply Hs.
    + intros i0 m0 t0 H H0 H1. destruct (decide (i = i0)) as [<-|Hn].
      { rewrite insert_self in H0 by done. by injection H0 as <-. }
      rewrite list_lookup_insert_ne in H0 by done. in_snoc H. by eapply Hse.
    + intros i0 m0 [H|[_ H]]%before_snoc; [by eapply Hv|done].
    + intros i0 m0 g [H|[_ H]]%before_snoc Hc; [|done].
      destruct (Hd _ _ _ H Hc) as [K|[K|K]]; [left; by apply found_mono|right; left; by eapply ST|].
      right; right. eapply due_set; [exact Ht|done|congruence|exact K].
  - (* Clear *)
    injection E as <-.
    assert (DU : forall m, match b with Slots => m ∈ flag_view s | Guarded => True end ->
              due (emit (set_lock (set_flag (set_thread s i Due (flag_view s ∪ know t)) false (flag_view s ∪ know t))
                 (flag_view s ∪ know t)) (Returned i)) (must b m)).
    { intros m H. exists i. eexists. cbn. rewrite insert_self by done. split; [done|]. split; [done|].
      destruct b; cbn; [done|]. set_solver. }
    split; cbn [flag threads log flag_view slots set_thread set_lock set_flag emit].
    + done.
    + intros i0 m0 H. in_snoc H. destruct (Hp _ _ H) as (u & Hu & Hm). destruct (decide (i = i0)) as [<-|Hn].
      * eexists. rewrite insert_self by done. split; [done|].
        cbn. rewrite Ht in Hu. injection Hu as <-. set_solver.
      * exists u. by rewrite list_lookup_insert_ne.
    + intros i0 m0 H. in_snoc H. by eapply Hs.
    + intros i0 m0 t0 H H0 H1. destruct (decide (i = i0)) as [<-|Hn].
      { rewrite insert_self in H0 by done. by injection H0 as <-. }
      rewrite list_lookup_insert_ne in H0 by done. in_snoc H. pose proof (Hse _ _ _ H H0 H1). set_solver.
    + intros i0 m0 [H|[_ H]]%before_snoc; [|done]. pose proof (Hv _ _ H). set_solver.
    + intros i0 m0 g [H|[_ H]]%before_snoc Hc; [|done]. right; right. apply DU.
      destruct b; [done|]. cbn in Hc. subst g. by eapply Hv.
  - (* Take *)
    destruct (may_find b s (know t) ms) eqn:Em; [|done]. injection E as <-.
    assert (ST : forall s1 k, threads s1 = <[i:=Thread Idle k]> (threads s) -> chan s1 = chan s ->
              stirring s -> stirring s1).
    { intros s1 k E1 E2. eapply stirring_set; [exact Ht|exact E1|..]; [rewrite E2; auto|rewrite Et; done]. }
    split; cbn [flag threads log flag_view slots set_thread emit].
    + intros H. by eapply ST, Hf.
    + intros i0 m0 H. in_snoc H. destruct (Hp _ _ H) as (u & Hu & Hm). destruct (decide (i = i0)) as [<-|Hn].
      * eexists. rewrite insert_self by done. split; [done|].
        cbn. rewrite Ht in Hu. injection Hu as <-. set_solver.
      * exists u. by rewrite list_lookup_insert_ne.
    + intros i0 m0 H. in_snoc H. by eapply Hs.
    + intros i0 m0 t0 H H0 H1. destruct (decide (i = i0)) as [<-|Hn].
      { rewrite insert_self in H0 by done. by injection H0 as <-. }
      rewrite list_lookup_insert_ne in H0 by done. in_snoc H. by eapply Hse.
    + intros i0 m0 [H|[_ H]]%before_snoc; [by eapply Hv|done].
    + intros i0 m0 g [H|[_ H]]%before_snoc Hc; [|done].
      destruct (Hd _ _ _ H Hc) as [K|[K|K]]; [left; by apply found_mono|right; left; by eapply ST|].
      destruct b; cbn in Em.
      * left. exists i, ms. apply bool_decide_eq_true in Em as ->. split; [set_solver|].
        eapply Hs. by eapply before_in.
      * destruct K as (j & u & Hj & Hu & Hm). cbn in Hm. destruct (decide (i = j)) as [<-|Hn].
        -- left. exists i, ms. split; [set_solver|]. apply andb_true_iff in Em as [Em _].
           apply bool_decide_eq_true in Em. rewrite Ht in Hj. injection Hj as <-. set_solver.
        -- right; right. exists j, u. cbn. by rewrite list_lookup_insert_ne.
Qed.

Lemma inv_run b ls : forall s s', inv b s -> run b ls s = Some s' -> inv b s'.
Proof.
  induction ls as [|l r IH]; cbn [run]; intros s s' Hi E; [by injection E as <-|].
  destruct (step b s l) as [s1|] eqn:E1; [|done]. eapply IH; [|exact E]. by eapply inv_step.
Qed.

Lemma asleep_not s : asleep s -> ~ stirring s /\ forall m, ~ due s m.
Proof.
  intros (Hc & Hall & _). rewrite Forall_lookup in Hall. split.
  - intros [H|(j & t & Hj & Ht)]; [congruence|]. destruct (Hall _ _ Hj) as [E|E]; rewrite E in Ht; done.
  - intros m (j & t & Hj & Ht & _). destruct (Hall _ _ Hj); congruence.
Qed.

(* ------------------------------------------------------------------ *)
(** ** C101 *)

(** With a mailbox under a mutex, or of SeqCst operations, the threads fall asleep only when every message that was handed
    over has been found, however the notify calls were merged. *)
Theorem C101_guarded_partial : C101_statement Guarded.
Proof.
  intros n ls s i m E Ha [g H]. destruct (asleep_not _ Ha) as [N1 N2].
  destruct (inv_run Guarded ls _ _ (inv_init _ n) E) as [_ _ _ _ _ Hd].
  destruct (Hd _ _ _ H I) as [K|[K|K]]; [done|done|by edestruct N2].
Qed.
Print Assumptions C101_guarded_partial.

(** With atomic slots, Release and Acquire, it holds of a message whose notify call found no other notification pending. *)
Theorem C101_slots_alone_partial n ls s i m :
  run Slots ls (init n) = Some s -> asleep s -> handed_over_alone (log s) i m -> found (log s) m.
Proof.
  intros E Ha H. destruct (asleep_not _ Ha) as [N1 N2].
  destruct (inv_run Slots ls _ _ (inv_init _ n) E) as [_ _ _ _ _ Hd].
  destruct (Hd _ _ _ H eq_refl) as [K|[K|K]]; [done|done|by edestruct N2].
Qed.
Print Assumptions C101_slots_alone_partial.

Lemma two_asleep s : chan s = false -> map at_ (threads s) = [Idle; Blocked] -> asleep s.
Proof.
  intros C T. split; [done|]. destruct (threads s) as [|a [|b [|]]]; try discriminate T. injection T as Ta Tb.
  split; [|right; by left]. apply Forall_cons. split; [by left|]. apply Forall_cons. split; [by right|done].
Qed.

(** Thread 1 is being woken for message 10 when thread 0 posts 11: its notify call finds the flag still set, and the
    compare_exchange that fails publishes nothing. *)
Definition lost_run : list (nat * act) :=
  [(1, Wait); (0, Post 10); (0, Notify); (0, Send); (1, Wake); (0, Post 11); (0, Notify); (1, Clear); (1, Take {[10]});
   (1, Wait)].

(** With atomic slots it fails when notify calls are merged: thread 1 sleeps, message 11 is unread, and nothing is pending. *)
Theorem C101_refuted :
  exists n ls s i m, run Slots ls (init n) = Some s /\ asleep s /\ handed_over (log s) i m /\ ~ found (log s) m.
Proof.
  destruct (run Slots lost_run (init 2)) as [s|] eqn:E; [|exfalso; vm_compute in E; discriminate E].
  exists 2, lost_run, s, 0, 11. split; [done|].
  assert (L : log s = [Posted 0 10; Notified 0 false; Posted 0 11; Notified 0 true; Returned 1; Took 1 {[10]}] /\
    chan s = false /\ map at_ (threads s) = [Idle; Blocked]).
  { vm_compute in E. injection E as <-. done. }
  destruct L as (L & C & T). clear E. split; [|split].
  - by apply two_asleep.
  - exists true, [Posted 0 10; Notified 0 false], [], [Returned 1; Took 1 {[10]}]. done.
  - intros (j & ms & H & K). rewrite L in H. repeat (apply elem_of_cons in H as [H|H]; [try discriminate H|]);
      [|by apply elem_of_nil in H]. injection H as -> ->. by apply elem_of_singleton in K.
Qed.
Print Assumptions C101_refuted.

(** The same calls with a guarded mailbox: the reader finds both messages. *)
Definition merged_run : list (nat * act) :=
  [(1, Wait); (0, Post 10); (0, Notify); (0, Send); (1, Wake); (0, Post 11); (0, Notify); (1, Clear);
   (1, Take {[10; 11]}); (1, Wait)].
Example C101_case : exists s, run Guarded merged_run (init 2) = Some s /\ asleep s /\ handed_over (log s) 0 11.
Proof.
  destruct (run Guarded merged_run (init 2)) as [s|] eqn:E; [|exfalso; vm_compute in E; discriminate E].
  exists s. split; [done|].
  assert (L : log s = [Posted 0 10; Notified 0 false; Posted 0 11; Notified 0 true; Returned 1; Took 1 {[10; 11]}] /\
    chan s = false /\ map at_ (threads s) = [Idle; Blocked]).
  { vm_compute in E. injection E as <-. done. }
  destruct L as (L & C & T). clear E. split.
  - by apply two_asleep.
  - rewrite L. exists true, [Posted 0 10; Notified 0 false], [], [Returned 1; Took 1 {[10; 11]}]. done.
Qed.
Example C101_alone_case : exists s, run Slots lost_run (init 2) = Some s /\ asleep s /\ handed_over_alone (log s) 0 10.
Proof.
  destruct (run Slots lost_run (init 2)) as [s|] eqn:E; [|exfalso; vm_compute in E; discriminate E].
  exists s. split; [done|].
  assert (L : log s = [Posted 0 10; Notified 0 false; Posted 0 11; Notified 0 true; Returned 1; Took 1 {[10]}] /\
    chan s = false /\ map at_ (threads s) = [Idle; Blocked]).
  { vm_compute in E. injection E as <-. done. }
  destruct L as (L & C & T). clear E. split.
  - by apply two_asleep.
  - rewrite L. exists [], [], [Posted 0 11; Notified 0 true; Returned 1; Took 1 {[10]}]. done.
Qed.
