(** C115: one wait() reports each source at most once, in one event.  (Completion ports: OncePerWaitIocpProps.v.) *)
From stdpp Require Import prelude list gmap.
From Verif Require Import Types EventModel EventSpec.
From Verif Require EpollModel EpollSpec EpollProps PortModel PortSpec PortProps PollModel PollSpec PollProps KqueueModel KqueueSpec KqueueProps.
Local Open Scope nat_scope.

(** ** epoll *)
Theorem C115_epoll_partial c s h b h' i j fd :
  EpollSpec.wf_config c -> EpollSpec.reachable c s -> EpollModel.log s = h ++ EpollModel.Reported b :: h' ->
  b.*1 !! i = Some fd -> b.*1 !! j = Some fd -> i = j.
Proof. intros W R E. apply NoDup_lookup. exact (EpollProps.C39_once_per_batch _ _ _ _ _ W R E). Qed.
Print Assumptions C115_epoll_partial.

(** ** Event ports *)
Theorem C115_ports_partial s h1 o r b h2 i j fd :
  PortSpec.reachable s -> PortModel.log s = h1 ++ PortModel.WaitRet o r b :: h2 ->
  b.*1 !! i = Some (PortModel.IFd fd) -> b.*1 !! j = Some (PortModel.IFd fd) -> i = j.
Proof. apply PortProps.C50_once_per_batch. Qed.
Print Assumptions C115_ports_partial.

(** ** poll *)
Theorem C115_poll_partial o s rs num flag order evs s' i j fd :
  PollSpec.wf_own o -> PollSpec.reachable o s -> PollSpec.posix_answer s (PollModel.PollRet rs num) -> PollSpec.hash_order s order ->
  PollModel.poll_turn s (PollModel.PollRet rs num) flag order = (PollModel.TDone evs, s') ->
  evs.*1 !! i = Some fd -> evs.*1 !! j = Some fd -> i = j.
Proof.
  intros W R A O T. apply NoDup_lookup. exact (proj1 (PollProps.C29_wait_delivers_exactly_what_poll_returned _ _ _ _ _ _ _ _ W R A O T)).
Qed.
Print Assumptions C115_poll_partial.

(** ** kqueue *)
(** A descriptor that is readable and writable is reported twice, by two events. *)
Section kqueue.
Import KqueueModel KqueueSpec KqueueProps.
Theorem C115_kqueue_refuted : exists s h b h' fd e1 e2,
  reachable freebsd true s /\ log s = h ++ Reported b :: h' /\ b = [(FRead fd, e1); (FWrite fd, e2)] /\
  ev_readable e1 = true /\ ev_writable e1 = false /\ ev_readable e2 = false /\ ev_writable e2 = true /\ ev_key e1 = ev_key e2.
Proof.
  runs freebsd true 1
    (do_add 0 10 (ev 7 true true) Level [] ++ [LHappen (FRead 10) (Some 0%N) true; LHappen (FWrite 10) (Some 0%N) true; LWait true 8; LReport [FRead 10; FWrite 10]]) s Hr Hl E.
  exists s. rewrite Hl. eexists [_; _; _; _; _; _], _, [], 10%N, _, _. split; [exact Hr|]. split; [reflexivity|]. split; [reflexivity|]. by vm_compute.
Qed.

(** Two events of one wait() about the same source are about a descriptor, one of them about reading and the other about writing. *)
Theorem C115_kqueue_partial c excl s h b h' i j src f g :
  reachable c excl s -> log s = h ++ Reported b :: h' -> b.*1 !! i = Some f -> b.*1 !! j = Some g ->
  source_filter src f -> source_filter src g ->
  i = j \/ exists fd, src = SFd fd /\ (f = FRead fd /\ g = FWrite fd \/ f = FWrite fd /\ g = FRead fd).
Proof.
  intros R E I J F G. pose proof (C70_once_per_batch _ _ _ _ _ _ R E) as N.
  assert (S : f = g -> i = j) by (intros ->; by eapply NoDup_lookup).
  destruct src as [fd|k|k|k]; cbn in F, G; [|subst; left; by apply S..].
  destruct F as [->| ->], G as [->| ->]; try (left; by apply S); right; exists fd; auto.
Qed.
End kqueue.
Print Assumptions C115_kqueue_refuted.
Print Assumptions C115_kqueue_partial.

(** Waits that report several sources. *)
Section cases.
Import EpollModel EpollSpec EpollProps.
Example C115_epoll_case : exists c s h b h', wf_config c /\ reachable c s /\ log s = h ++ Reported b :: h' /\ 1 < length b.
Proof.
  pose (l := log (demo_state (length labels))).
  exists demo, (demo_state (length labels)), (take 10 l), (match l !! 10 with Some (Reported b) => b | _ => [] end), (drop 11 l).
  split; [apply demo_wf|]. split; [apply demo_reachable|]. split; [vm_compute; reflexivity|]. vm_compute. lia.
Qed.
End cases.
Example C115_ports_case : exists s h1 o r b h2, PortSpec.reachable s /\ PortModel.log s = h1 ++ PortModel.WaitRet o r b :: h2 /\ 1 < length b.
Proof.
  destruct PortProps.C50_nonvacuous as (s & R & h1 & h2 & h3 & h4 & E). eexists s, h1, _, _, _, _. split; [exact R|]. split; [exact E|]. cbn. lia.
Qed.
Example C115_poll_case : exists o s rs num flag order evs s',
  PollSpec.wf_own o /\ PollSpec.reachable o s /\ PollSpec.posix_answer s (PollModel.PollRet rs num) /\ PollSpec.hash_order s order /\
  PollModel.poll_turn s (PollModel.PollRet rs num) flag order = (PollModel.TDone evs, s') /\ 1 < length evs.
Proof.
  destruct PollProps.C29_nonvacuous as (A & O & s' & T & _). eexists PollProps.o34, PollProps.s_ab, _, _, _, _, _, s'.
  split; [apply PollProps.o34_wf|]. split; [repeat constructor|]. split; [exact A|]. split; [exact O|]. split; [exact T|]. cbn. lia.
Qed.
