(** C119 on epoll: a wait() that has taken events from the system returns Ok. *)
From stdpp Require Import prelude list gmap.
From Verif Require Import Bits Types EventModel EventSpec EventProofs EpollModel EpollSpec EpollProofs EpollProps.
Local Open Scope nat_scope.

(** The system has reported to a wait() that has not returned Ok since. *)
Definition holds_step (x : bool) (o : obs) : bool :=
  match o with Reported _ => true | WaitOk => false | _ => x end.
Definition holds_events (h : list obs) : bool := fold_left holds_step h false.

(** Once the system has answered, a wait() fails only if arming the notifier again is refused by the system.  Missing: that it does
    not fail then. *)
Theorem C119_epoll_partial c s b l s' e :
  wf_config c -> reachable c s -> wait s = WClear b \/ wait s = WRearm b ->
  step c s l = Some s' -> log s' = log s ++ [WaitErr e] -> wait s = WRearm b /\ exists x, l = LFail x /\ e = EOs x.
Proof.
  intros Hc Hr W H L. destruct (iv_notifier _ _ (inv_reachable _ _ Hc Hr)) as (it & Hi & _).
  assert (D : forall o, log s ++ [o] = log s ++ [WaitErr e] -> o = WaitErr e) by (intros o X; by apply app_inv_head in X; injection X).
  assert (D0 : log s = log s ++ [WaitErr e] -> False).
  { intros X. apply (f_equal length) in X. rewrite app_length in X. cbn in X. lia. }
  destruct l; cbn [step] in H.
  all: try (destruct (sys_add _ _ _ _ _); simplify_eq; by apply D in L).
  all: try (destruct (sys_modify _ _ _ _ _); simplify_eq; by apply D in L).
  all: try (destruct (sys_delete _ _ _); simplify_eq; by apply D in L).
  all: try (destruct W as [W|W]; by rewrite W in H).
  all: try (simplify_eq; by apply D in L).
  - destruct (timer c); [|done]. destruct (clock s); [|done]. simplify_eq. by apply D in L.
  - destruct W as [W|W]; rewrite W in H.
    + injection H as <-. by destruct (D0 L).
    + unfold sys_modify in H. cbn in H. rewrite Hi in H. injection H as <-. by apply D in L.
  - destruct W as [W|W]; rewrite W in H; [done|]. simplify_eq. apply D in L. simplify_eq. eauto.
Qed.

(** A wait() that has taken the event of a one-shot source fails because arming the notifier again is refused: the source is used up,
    although no wait() has returned Ok. *)
Definition refused : list label :=
  [LAdd 11 (ev 8) Oneshot None; LHappen 11 EPOLLIN EPOLLIN; LWait None 8; LGo; LGo; LGo; LGo; LFail (EOTHER 12)].
Definition refused_state : state := default (init demo) (run demo (init demo) refused).
Local Ltac user := split; intros H; vm_compute in H; discriminate H.
Theorem C119_epoll_refuted : exists c s h e fd,
  wf_config c /\ reachable c s /\ log s = h ++ [WaitErr e] /\ holds_events h = true /\ WaitOk ∉ h
  /\ registered fd h = Some (ev 8, Oneshot) /\ spent fd (log s).
Proof.
  eexists demo, refused_state, (take (length (log refused_state) - 1) (log refused_state)), _, 11%Z. split; [discriminate|].
  split.
  { assert (E : run demo (init demo) refused = Some refused_state) by (vm_compute; reflexivity).
    eapply run_reachable; [apply reach_init| |exact E].
    repeat (apply Forall_cons; split; [intros s;
      first [exact I | (simpl; lia) | user | (split; [user|by apply usable_new]) | (apply happen_legal; user)]|]).
    by apply Forall_nil. }
  split; [vm_compute; reflexivity|]. split; [vm_compute; reflexivity|].
  split. { intros X. vm_compute in X. repeat (apply elem_of_cons in X as [X|X]; [discriminate X|]). by apply not_elem_of_nil in X. }
  split; [vm_compute; reflexivity|].
  unfold spent. eexists (take 4 (log refused_state)), _, (ev 8), _, Oneshot, _. split; [vm_compute; reflexivity|].
  split; [apply elem_of_list_here|]. split; [vm_compute; reflexivity|]. split; [by left|].
  apply Forall_cons; split; [|by apply Forall_nil]. intros [].
Qed.

(** A wait() that has taken an event and fails. *)
Example C119_epoll_case : exists s b l s' e,
  reachable demo s /\ wait s = WRearm b /\ length b = 1 /\ step demo s l = Some s' /\ log s' = log s ++ [WaitErr e].
Proof.
  exists (default (init demo) (run demo (init demo) (take 7 refused))). eexists _, (LFail (EOTHER 12)), _, _.
  split; [|split; [vm_compute; reflexivity|split; [vm_compute; reflexivity|split; [vm_compute; reflexivity|vm_compute; reflexivity]]]].
  eapply (run_reachable demo (take 7 refused)); [apply reach_init| |vm_compute; reflexivity].
  repeat (apply Forall_cons; split; [intros s;
    first [exact I | (simpl; lia) | user | (split; [user|by apply usable_new]) | (apply happen_legal; user)]|]).
  by apply Forall_nil.
Qed.
Print Assumptions C119_epoll_partial.
Print Assumptions C119_epoll_refuted.
