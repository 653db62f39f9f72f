(** C114 on epoll: a source with no interest reports only errors and hang-ups. *)
From stdpp Require Import prelude list gmap.
From Verif Require Import Bits Types EventModel EventSpec EpollModel EpollSpec EpollProps EventProofs EpollProofs NoneSpec.
Local Open Scope nat_scope.

Theorem C114_epoll_partial c s h b h' fd e m x :
  wf_config c -> reachable c s -> log s = h ++ Reported b :: h' -> user_fd c fd ->
  registered fd h = Some (e, m) -> no_interest e -> (fd, x) ∈ b ->
  ev_key x = ev_key e /\ (bit (readiness fd h) b_err \/ bit (readiness fd h) b_hup) /\
  forall n, bit (ev_extra x) n -> n = b_err \/ n = b_hup.
Proof.
  intros W R E U G (N1 & N2 & N3) X.
  destruct (C42_reports_are_current _ _ _ _ _ _ _ W R E X U) as (e0 & m0 & G' & K & B & (n & Hn)).
  assert (e0 = e) as -> by congruence.
  assert (L : forall n, watched e n -> n = b_err \/ n = b_hup).
  { intros k. unfold watched. rewrite N1, N2, N3. intros [[? _]|[[? _]|[?|[?|Z]]]]; try done; [by left|by right]. }
  split; [done|]. split; [|intros k Hk; by apply L, B].
  apply B in Hn as [Hw Hr]. by destruct (L n Hw) as [->| ->]; [left|right].
Qed.
Print Assumptions C114_epoll_partial.

(** The interest of 10 is switched off; it hangs up, and wait() reports it as readable and writable. *)
Definition off : event N := Ev 7 false false 0%N.
Local Ltac user := split; intros H; vm_compute in H; discriminate H.
Lemma hup_legal s : legal demo s (LHappen 10 EPOLLHUP EPOLLHUP).
Proof. split; [user|]. split; [|done]. by rewrite p2_EPOLLHUP; intros n ->%bit_pow2. Qed.
Theorem C114_epoll_refuted : exists c s h b h',
  wf_config c /\ reachable c s /\ log s = h ++ Reported b :: h' /\ user_fd c 10 /\
  registered 10 h = Some (off, Level) /\ no_interest off /\ exists x, (10%Z, x) ∈ b /\ ev_readable x = true /\ ev_writable x = true.
Proof.
  set (ls := [LAdd 10 (ev 7) Level None; LModify 10 off Level None; LHappen 10 EPOLLHUP EPOLLHUP; LWait (Some false) 4; LGo; LGo; LGo]).
  assert (L : Forall (fun l => forall s, legal demo s l) ls).
  { assert (off = ev_new epoll_extra 7 false false) as Eo by reflexivity.
    repeat (apply Forall_cons; split; [intros s;
      first [exact I | (simpl; lia) | user | (split; [user|by apply usable_new])
            | (split; [user|split; [rewrite Eo; apply obt_new|done]])
            | (apply hup_legal)]|]).
    by apply Forall_nil. }
  destruct (run demo (init demo) ls) as [s|] eqn:E; [|vm_compute in E; discriminate E].
  assert (Q : log s = log (default (init demo) (run demo (init demo) ls))) by (by rewrite E).
  vm_compute in Q. exists demo, s. eexists [_; _; _; _; _], _, []. split; [apply demo_wf|].
  split; [eapply run_reachable; [apply reach_init|exact L|exact E]|]. split; [exact Q|]. split; [user|].
  split; [vm_compute; reflexivity|]. split; [done|]. eexists. split; [by left|]. by vm_compute.
Qed.
Print Assumptions C114_epoll_refuted.
