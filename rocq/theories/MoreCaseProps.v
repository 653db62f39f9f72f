(** Further concrete cases of earlier theorems: each meets all the hypotheses of the theorem it is named after. *)
From stdpp Require Import prelude list gmap.
From Verif Require Import Types EventModel EventSpec.
From Verif Require NotifyModel NotifySpec NotifyProps KqueueModel KqueueSpec KqueueProps PortModel PortSpec PortProps
  PollModel PollSpec PollProps.
Local Open Scope nat_scope.

(** ** C14: a wait() after several notify() calls, up to its return *)
Section notify.
Import NotifyModel NotifySpec NotifyProps.

(** What thread 0 does in its wait(), after the call. *)
Definition wait_steps (k : notifier) : list act :=
  [Go; Go; KRet 1] ++
  (match k with EpollEventfd => [Go; Go] | EpollPipe | KqPipe => [Go; Go; Go] | KqUser | EvPort => [] end) ++ [Go; Go].

Lemma run_alone c i s0 s s' acts :
  alone c i s0 s -> forallb (fun a => match a with Go | KRet (S _) => true | _ => false end) acts = true ->
  run c s (map (pair i) acts) = Some s' -> alone c i s0 s'.
Proof.
  revert s. induction acts as [|a acts IH]; cbn [map run forallb]; intros s H F R; [by simplify_eq|].
  apply andb_prop in F as [Fa F]. destruct (step c s (i, a)) eqn:E; [|done].
  eapply IH; [|done|done]. eapply alone_step; [done|done|..].
  - by destruct a.
  - by destruct a.
  - by destruct a as [| | | |[|n]].
  - intros (e & He & _). cbn in He. by subst a.
Qed.

Example C14_next_wait_not_woken_nonvacuous :
  forall k, exists s s1 s2, wf_config (cfg k) /\ clean (init 3) /\ only_notifies (cfg k) (init 3) s /\ quiet s /\
    (exists h j, log s = log (init 3) ++ h /\ NotifyOk j ∈ h) /\
    step (cfg k) s (0, CallWait) = Some s1 /\ alone (cfg k) 0 s1 s2 /\
    log s2 = log s ++ [WaitCall 0; WaitOk 0].
Proof.
  intros k. eexists _, _, _. split; [split; cbn; lia|]. split; [|split; [|split; [|split; [|split; [|split]]]]].
  - repeat split. intros [|[|[|i]]] p Hp; simplify_eq/=; done.
  - eapply (run_only _ _ (init 3)
      [(0,CallNotify);(1,CallNotify);(1,Go);(0,Go);(2,CallNotify);(0,Go);(1,Go);(1,Go);(2,Go);(2,Go)]);
      [constructor|done|destruct k; vm_compute; reflexivity].
  - intros [|[|[|i]]] p Hp; simplify_eq/=; done.
  - simpl. eexists _, 0. split; [done|]. set_solver.
  - vm_compute. reflexivity.
  - eapply (run_alone _ _ _ _ _ (wait_steps k)); [constructor|by destruct k|destruct k; vm_compute; reflexivity].
  - vm_compute. reflexivity.
Qed.
End notify.

(** ** C43: delete_filter() of a timer that is there, and again when it is gone *)
Section kqueue.
Import KqueueModel KqueueSpec KqueueProps.
Example C43_delete_filter_nonvacuous : exists s h1 h2,
  reachable freebsd true s /\
  log s = h1 ++ Returned 0 (CDeleteFilter (UTimer 1 1000)) (Ok tt) :: h2 ++ [Returned 0 (CDeleteFilter (UTimer 1 1000)) missing_err].
Proof.
  runs freebsd true 1
    [LThread 0 (Call (CAddFilter (UTimer 1 1000) 7 Level)); go 0; go 0; LThread 0 (Kernel_ok []); go 0;
     LThread 0 (Call (CDeleteFilter (UTimer 1 1000))); LThread 0 (Kernel_ok []); go 0; go 0;
     LThread 0 (Call (CDeleteFilter (UTimer 1 1000))); LThread 0 (Kernel_ok []); go 0; go 0] s Hr Hl E.
  exists s. rewrite Hl. eexists [_; _; _; _; _], [_; _]. split; [done|]. vm_compute. reflexivity.
Qed.

(** C47, on a kernel that keeps the flags of an existing filter. *)
Example C47_always_oneshot_nonvacuous : exists s h1 b1 h2 b2 e1 e2,
  reachable freebsd true s /\ ~ own_filter freebsd (FRead 11) /\
  log s = h1 ++ Reported b1 :: h2 ++ [Reported b2] /\
  Forall (fun o => forall k m, granted (FRead 11) o = Some (Some (k, m)) -> mode_oneshot m) h1 /\
  (FRead 11, e1) ∈ b1 /\ (FRead 11, e2) ∈ b2.
Proof.
  runs freebsd true 1
    (do_add 0 11 (ev 9 true false) Oneshot [] ++
     [LHappen (FRead 11) (Some 0%N) true; LWait true 8; LReport [FRead 11]; LWaitGo []] ++
     do_modify 0 11 (ev 12 true false) Oneshot [] ++ [LWait true 8; LReport [FRead 11]]) s Hr Hl E.
  exists s. rewrite Hl. eexists [_; _; _; _; _], _, [_; _; _; _; _], _, _, _.
  split; [done|]. split; [by cbn|]. split; [vm_compute; reflexivity|]. split.
  { repeat (apply Forall_cons; split; [intros k m H; vm_compute in H; first [discriminate H|injection H as <- <-; by left]|]).
    by apply Forall_nil. }
  split; left.
Qed.
End kqueue.

(** ** Event ports: C79 and C80, the next wait *)
Section ports.
Import PortModel PortSpec PortProps.
Example C79_next_wait_nonvacuous : exists s s',
  reachable s /\ registered 6 (log s) = Some (wr 8) /\ asked (wr 8) b_hup /\ bit (readiness 6 (log s)) b_hup /\
  (forall g, registered g (log s) <> None -> g ∈ [5; 6]%Z) /\
  length [5; 6]%Z + (sent (log s) - told (log s)) <= 3 /\
  step s (LWait 3 GEvents) = Some s'.
Proof.
  runs (take 7 demo ++ [LWait 3 GEvents]) s' H' Hr' Hl'.
  apply run_snoc in H' as (s & H & Hs).
  runs (take 7 demo) s0 H0 Hr Hl. assert (s0 = s) as -> by congruence.
  exists s, s'. split; [done|]. split; [rewrite Hl; vm_compute; reflexivity|]. split; [unfold asked; auto|].
  split; [rewrite Hl; vm_compute; reflexivity|]. split.
  { intros g. rewrite Hl. destruct (decide (g = 5%Z)) as [->|N5]; [left|]. destruct (decide (g = 6%Z)) as [->|N6]; [right; left|].
    intros X. exfalso. apply X. unfold registered. cbn [fold_left].
    unfold after, registers. repeat (rewrite decide_False by first [congruence|cbn; tauto]). reflexivity. }
  split; [rewrite Hl; vm_compute; lia|done].
Qed.
Example C80_no_spurious_wakeup_nonvacuous : exists s s',
  reachable s /\ legal (LWait 2 GEvents) /\ step s (LWait 2 GEvents) = Some s' /\ sent (log s) = 0.
Proof.
  runs (take 4 demo ++ [LWait 2 GEvents]) s' H' Hr' Hl'.
  apply run_snoc in H' as (s & H & Hs).
  runs (take 4 demo) s0 H0 Hr Hl. assert (s0 = s) as -> by congruence.
  exists s, s'. split; [done|]. split; [cbn; lia|]. split; [done|]. by rewrite Hl.
Qed.
End ports.

(** ** poll: C29, a turn that finds only the pipe readable and no notification *)
Section poll.
Import PollModel PollSpec PollProps.
Example C29_wait_repeats_nonvacuous : exists s',
  posix_answer s_ab (PollRet [1; 0; 0; 0]%N 1) /\ hash_order s_ab [12; 10; 11]%Z /\
  poll_turn s_ab (PollRet [1; 0; 0; 0]%N 1) false [12; 10; 11]%Z = (TAgain, s').
Proof. eexists. split; [done|]. split; [apply s_ab_order|]. vm_compute. reflexivity. Qed.
End poll.
