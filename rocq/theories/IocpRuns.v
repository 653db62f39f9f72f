(** Runs of the completion-port model that serve as examples and counterexamples. *)
From stdpp Require Import prelude list gmap.
From Verif Require Import Bits Types EventModel Pool IocpModel IocpSpec.
Local Open Scope nat_scope.

Definition rd (k : N) : event N := Ev k true false 0%N.
Definition wr (k : N) : event N := Ev k false true 0%N.
Definition nothing (k : N) : event N := Ev k false false 0%N.

Definition legalb (s : state) (l : label) : bool :=
  match l with
  | LThread _ (Call (CAdd _ e _)) | LThread _ (Call (CModify _ e _)) => bool_decide (ev_key e <> NOTIFY_KEY)
  | LThread _ (Call (CPost n)) => bool_decide (is_Some (customs (pmem s) !! n))
  | LWait cap _ _ => (0 <? cap)%nat
  | LDone _ b _ _ => match b with BPending => false | _ => true end
  | _ => true
  end.
Lemma legalb_sound s l : legalb s l = true -> legal s l.
Proof.
  destruct l as [i a|e|cap d old|a|i b n e|h|j o]; cbn; try done.
  - destruct a as [cl|o]; [|done]. destruct cl; try done; by intros H%bool_decide_eq_true.
  - destruct cap; [done|lia].
  - by destruct b.
Qed.
(** A run all of whose steps are legal. *)
Fixpoint go (c : config) (s : state) (ls : list label) : option state :=
  match ls with
  | [] => Some s
  | l :: r => if legalb s l then match step c s l with Some s' => go c s' r | None => None end else None
  end.
Lemma later_snoc c s s1 l s2 : later c s1 s2 -> legal s l -> step c s l = Some s1 -> later c s s2.
Proof.
  intros H L E. induction H as [|s2 l2 s3 H IH L2 E2]; [econstructor; [constructor|done|done]|]. by econstructor.
Qed.
Lemma go_later c ls : forall s s', go c s ls = Some s' -> later c s s'.
Proof.
  induction ls as [|l ls IH]; intros s s' H; cbn [go] in H; [injection H as <-; constructor|].
  destruct (legalb s l) eqn:L; [|done]. destruct (step c s l) as [s1|] eqn:E; [|done].
  eapply later_snoc; [by apply IH|by apply legalb_sound|done].
Qed.
Lemma later_reach c s s' : reachable c s -> later c s s' -> reachable c s'.
Proof. intros R. induction 1; [done|]. by econstructor. Qed.
Definition seen {A} (f : state -> A) (c : config) (n : nat) (ls : list label) : option A := f <$> go c (init n) ls.
Lemma seen_reach {A} (f : state -> A) c n ls x : seen f c n ls = Some x ->
  exists s, go c (init n) ls = Some s /\ reachable c s /\ f s = x.
Proof.
  unfold seen. intros H. destruct (go c (init n) ls) as [s|] eqn:E; [|done]. injection H as <-.
  exists s. split; [done|]. split; [|done]. eapply later_reach; [constructor|by eapply go_later].
Qed.
(** Two runs, one after the other. *)
Lemma go_app c l1 : forall s l2 s', go c s (l1 ++ l2) = Some s' -> exists s1, go c s l1 = Some s1 /\ go c s1 l2 = Some s'.
Proof.
  induction l1 as [|l l1 IH]; intros s l2 s' H; cbn [go app] in *; [eauto|].
  destruct (legalb s l); [|done]. destruct (step c s l); [|done]. by apply IH.
Qed.

Ltac sees f c n ls s H Hr Hx :=
  let x := eval vm_compute in (seen f c n ls) in
  match x with Some ?h => destruct (seen_reach f c n ls h) as (s & H & Hr & Hx); [vm_compute; reflexivity|] end.
(** Membership in a list that is given. *)
Ltac in_list := repeat first [apply elem_of_list_here | apply elem_of_list_further].
Ltac not_in_list := let H := fresh in intros H; repeat (apply elem_of_cons in H as [H|H]; [discriminate H|]); by apply not_elem_of_nil in H.

(** Runs in which AFD reports only what it was asked about. *)
Definition askedb (s : state) (l : label) : bool :=
  match l with
  | LDone i _ _ e => match ops (sys s) !! i with Some o => (N.land e (op_mask o) =? e)%N | None => true end
  | _ => true
  end.
Fixpoint go_asked (c : config) (s : state) (ls : list label) : option state :=
  match ls with
  | [] => Some s
  | l :: r => if legalb s l && askedb s l then match step c s l with Some s' => go_asked c s' r | None => None end else None
  end.
Lemma askedb_sound s l : askedb s l = true -> only_asked s l.
Proof. destruct l; try done. cbn. intros H o Ho. rewrite Ho in H. by apply N.eqb_eq. Qed.
Lemma go_asked_reach c ls : forall s s', go_asked c s ls = Some s' -> reachable_asked c s -> reachable_asked c s'.
Proof.
  induction ls as [|l ls IH]; intros s s' H R; cbn [go_asked] in H; [by injection H as <-|].
  destruct (legalb s l) eqn:L; [|done]. destruct (askedb s l) eqn:A; [|done]. cbn [andb] in H. destruct (step c s l) as [s1|] eqn:E; [|done].
  eapply IH; [exact H|]. eapply reach_asked_step; [done|by apply legalb_sound|by apply askedb_sound|done].
Qed.
Lemma seen_asked {A} (f : state -> A) c n ls x : (f <$> go_asked c (init n) ls) = Some x -> exists s, reachable_asked c s /\ f s = x.
Proof.
  intros H. destruct (go_asked c (init n) ls) as [s|] eqn:E; [|done]. injection H as <-.
  exists s. split; [|done]. eapply go_asked_reach; [exact E|constructor].
Qed.
Ltac sees_asked f c n ls s Hr Hx :=
  let x := eval vm_compute in (f <$> go_asked c (init n) ls) in
  match x with Some ?h => destruct (seen_asked f c n ls h) as (s & Hr & Hx); [vm_compute; reflexivity|] end.

(** ** Steps *)
Definition cfg : config := Config 4.
Definition by_ (i : nat) (cl : call) : label := LThread i (Call cl).
Definition t (i : nat) : label := LThread i (Go None).
Definition t_err (i : nat) (e : errno) : label := LThread i (Go (Some e)).
Definition w : label := LWaiter (WGo None).
Definition w_err (e : errno) : label := LWaiter (WGo (Some e)).
Definition at_ (now : N) : label := LWaiter (WTime now).
Definition got : label := LWaiter WEvents.
Definition timeout : label := LWaiter WTimeout.
Definition begin (d : option N) : label := LWait 8 d [].

(** add, while no wait is blocked: the packet is made, entered, queued. *)
Definition add (i : nat) (x : N) (e : event N) (m : poll_mode) : list label := [by_ i (CAdd x e m); t i; t i; t i; t i; t i].
Definition add_w (i : nat) (x : N) (e : event N) (m : poll_mode) : list label := [by_ i (CAddW x e m); t i; t i; t i; t i; t i].
Definition modify (i : nat) (x : N) (e : event N) (m : poll_mode) : list label := [by_ i (CModify x e m); t i; t i; t i; t i; t i].
Definition modify_w (i : nat) (x : N) (e : event N) (m : poll_mode) : list label := [by_ i (CModifyW x e m); t i; t i; t i; t i; t i].
Definition delete_ (i : nat) (x : N) : list label := [by_ i (CDelete x); t i; t i; t i].
Definition remove_w (i : nat) (x : N) : list label := [by_ i (CRemoveW x); t i; t i; t i].
Definition post (i : nat) (n : nat) : list label := [by_ i (CPost n); t i; t i].
Definition notify (i : nat) : list label := [by_ i CNotify; t i; t i; t i].
(** wait up to the point where it blocks, with [n] updates queued. *)
Definition block (d : option N) (now : N) (n : nat) : list label :=
  begin d :: w :: concat (replicate n [at_ now; w]) ++ [at_ now].
(** Taking a completion of a socket, and queueing its update. *)
Definition feed : list label := [w; w; w; w].
(** Taking a posted packet. *)
Definition feed_plain : list label := [w; w].
Definition finish : list label := [w; w].

Definition logged (s : state) : list obs := log s.

Lemma seen_two {A B} (f : state -> A) (g : state -> B) c n l1 l2 x y :
  seen f c n l1 = Some x -> seen g c n (l1 ++ l2) = Some y ->
  exists s s', reachable c s /\ later c s s' /\ f s = x /\ g s' = y.
Proof.
  intros H1 H2. apply seen_reach in H1 as (s & E & R & Hx). apply seen_reach in H2 as (s' & E' & _ & Hy).
  apply go_app in E' as (s1 & E1 & E2). assert (s1 = s) as -> by congruence. exists s, s'. split_and!; try done. by eapply go_later.
Qed.
Ltac sees2 f g c n l1 l2 s s' Hr Hl Hx Hy :=
  let x := eval vm_compute in (seen f c n l1) in
  let y := eval vm_compute in (seen g c n (l1 ++ l2)) in
  match x with Some ?h => match y with Some ?h' =>
    destruct (seen_two f g c n l1 l2 h h') as (s & s' & Hr & Hl & Hx & Hy); [vm_compute; reflexivity|vm_compute; reflexivity|]
  end end.

(** ** Runs *)

(** Two sources and a posted packet: both become ready, the second only with an error; the first
    is in one-shot mode and is registered again under key 9, becomes ready again, and is deleted. *)
Definition demo1 : list label :=
  [LMake (rd 77)] ++ add 0 5 (rd 7) Oneshot ++ add 1 6 (wr 8) Level ++ block (Some 100%N) 10 2 ++ post 0 0
  ++ [LDone 0 BDone 1 AFD_RECEIVE; LDone 0 BDone 1 AFD_ABORT; got; w] ++ feed_plain ++ feed ++ feed ++ finish.
Definition demo2 : list label := modify 0 5 (rd 9) Oneshot ++ block None 20 3.
Definition demo3 : list label := [LDone 0 BDone 1 AFD_RECEIVE; got; w] ++ feed ++ finish ++ delete_ 1 5 ++ block (Some 30%N) 30 1 ++ [timeout; w; w; w].
(** The interest changes while a request is in flight. *)
Definition change : list label := add 0 5 (rd 7) Level ++ block None 10 1 ++ [by_ 0 (CModify 5 (wr 7) Level); t 0; t 0; t 0].
(** add reads the flag before wait sets it, and queues the update after wait looked at the queue. *)
Definition race : list label := [by_ 0 (CAdd 5 (rd 7) Oneshot); t 0; t 0; t 0] ++ block None 10 0 ++ [t 0; t 0].
(** Two deletes at the same time: the second finds nothing. *)
Definition deletes1 : list label := add 0 5 (rd 7) Oneshot ++ block None 10 1 ++ [LDone 0 BDone 1 AFD_RECEIVE; got; by_ 0 (CDelete 5); t 0; by_ 1 (CDelete 5); t 1; t 1].
Definition deletes2 : list label := [w; w; w].
(** A waitable is removed while its callback runs. *)
Definition removal1 : list label := add_w 0 5 (rd 7) Level ++ block None 10 1 ++ [LSignal 0] ++ remove_w 0 5.
Definition removal2 : list label :=
  [LCallback 0 None; LCallback 0 None; got; w] ++ feed ++ finish ++ block None 20 1 ++ [LSignal 1; LCallback 0 None; LCallback 0 None; got; w] ++ feed ++ finish.
(** A waitable is given an empty interest. *)
Definition silent : list label :=
  add_w 0 5 (rd 7) Oneshot ++ block None 10 1 ++ [LSignal 0; by_ 0 (CModifyW 5 (nothing 7) Oneshot); t 0; t 0; t 0]
  ++ [LCallback 0 None; LCallback 0 None; got; w] ++ feed ++ finish.
(** A waitable is removed when nothing is under way. *)
Definition quiet_removal : list label :=
  add_w 0 5 (rd 7) Oneshot ++ block None 10 1 ++ [LSignal 0; LCallback 0 None; LCallback 0 None; got; w] ++ feed ++ finish ++ block None 20 1 ++ remove_w 0 5.
(** Starting the poll fails; modify is called again; the wait blocks. *)
Definition stuck1 : list label := add 0 5 (rd 7) Oneshot ++ [begin None; w; at_ 10; w_err (EOTHER 5); w].
Definition stuck2 : list label := modify 0 5 (rd 9) Oneshot ++ block None 20 1.
(** Cancelling fails once. *)
Definition refused : list label := change ++ [t_err 0 (EOTHER 5); t 0] ++ [by_ 0 (CModify 5 (wr 8) Level); t 0; t 0; t 0].
(** The queue of updates is full when the first completion of two is processed, and the update in it fails. *)
Definition batch1 : list label :=
  add 0 5 (rd 7) Level ++ [by_ 1 (CAdd 6 (rd 8) Level); t 1; t 1; t 1; t 1; t 1; t 1; t 1; t 1; t 1; t 1]
  ++ block None 10 1 ++ [LDone 0 BDone 1 AFD_RECEIVE; LDone 0 BDone 1 AFD_RECEIVE; got; w; by_ 0 (CModify 5 (wr 7) Level); t 0; t 0; t 0; t 0; t 0]
  ++ [w; w; w; w; w; w_err (EOTHER 5); w].
Definition batch2 : list label := [by_ 1 (CModify 6 (rd 8) Level); t 1; t 1; t 1] ++ block None 20 0.
(** A socket is closed: registered; being deleted; registered anew. *)
Definition closed1 : list label := add 0 5 (rd 7) Oneshot ++ block None 10 1 ++ [LDone 0 BDone 1 AFD_LOCAL_CLOSE; got; w; w; w].
Definition closed2 : list label := add 0 5 (rd 7) Oneshot ++ block None 10 1 ++ [LDone 0 BDone 1 AFD_LOCAL_CLOSE; got; w; w; by_ 1 (CDelete 5); t 1; w].
Definition closed3 : list label :=
  add 0 5 (rd 7) Oneshot ++ block None 10 1 ++ [LDone 0 BDone 1 AFD_LOCAL_CLOSE; got; w; w; by_ 1 (CDelete 5); t 1] ++ add 0 5 (rd 9) Oneshot ++ [w].
(** notify while wait is blocked. *)
Definition woken : list label := block None 10 0 ++ notify 0.
(** The queue of updates is full and the update in it is refused by the system. *)
Definition blamed1 : list label := add 0 5 (rd 7) Oneshot ++ [by_ 1 (CAdd 6 (rd 8) Oneshot); t 1; t 1; t 1; t 1; t 1; t_err 1 (EOTHER 5); t 1].
Definition blamed2 : list label := block None 10 0 ++ [by_ 1 (CAdd 6 (rd 8) Oneshot); t 1; t 1; t 1].
(** Posting the notification fails; the next one returns at once. *)
Definition mute : list label := [by_ 0 CNotify; t 0; t_err 0 (EOTHER 5); t 0] ++ block None 10 0 ++ [by_ 1 CNotify; t 1; t 1].
(** A container with an event in it; a reserved key. *)
Definition old_events : list label := LWait 8 None [rd 3] :: [w; at_ 10] ++ notify 0 ++ [got; w] ++ feed_plain ++ finish.
Definition hidden : list label :=
  [LMake (rd NOTIFY_KEY)] ++ add_w 0 5 (rd NOTIFY_KEY) Oneshot ++ post 0 0 ++ block None 10 1
  ++ [LSignal 0; LCallback 0 None; LCallback 0 None; got; w] ++ feed_plain ++ feed ++ finish.
Ltac empty_map := apply map_to_list_empty_iff; vm_compute; reflexivity.
(** A completion is queued when the source is deleted. *)
Definition late_delete1 : list label := add 0 5 (rd 7) Oneshot ++ block None 10 1 ++ [LDone 0 BDone 1 AFD_RECEIVE; got] ++ delete_ 0 5.
Definition late_delete2 : list label := [w; w; w].
