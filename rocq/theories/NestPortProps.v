(** C112 on event ports: the descriptor of a poller tells whether a wait would return.
    [reachable s] ranges over all histories of calls, readiness changes, notifications, waits and
    failures. *)
From stdpp Require Import prelude list gmap.
From Verif Require Import Bits Types EventModel EventSpec EventProofs PortModel PortSpec PortProofs PortProofs2
  PortProps NestSpec.
Local Open Scope nat_scope.

(** A source that is ready for what was asked for, and a notification, make it readable. *)
Theorem C112_ports_source s fd e b :
  reachable s -> registered fd (log s) = Some e -> asked e b -> bit (readiness fd (log s)) b ->
  port_readable (kern s).
Proof.
  intros Hr R Ha Hb E. pose proof (ready_queued s fd e b Hr R Ha Hb) as Q. rewrite E in Q. by apply elem_of_nil in Q.
Qed.
Theorem C112_ports_notified s : reachable s -> told (log s) < sent (log s) -> port_readable (kern s).
Proof. intros Hr L E. pose proof (notifications _ Hr) as H. rewrite E in H. cbn in H. lia. Qed.
(** It is readable exactly when port_getn, asked for one event, has events to give, and then there
    is a reason. *)
Theorem C112_ports_iff s max :
  0 < max -> port_readable (kern s) <->
  exists s' b, step s (LWait max GEvents) = Some s' /\ log s' = log s ++ [WaitRet GEvents (Ok tt) b] /\ b <> [].
Proof.
  intros Hm. split.
  - intros H. destruct (wait_proceeds s max H) as [s' Hs]. exists s'. cbn [step] in Hs. unfold wait, getn in Hs.
    rewrite decide_False in Hs by done. injection Hs as <-. cbn [log]. eexists. split; [|split; [done|]].
    + cbn [step]. unfold wait, getn. by rewrite decide_False.
    + unfold port_readable in H. destruct (queue (kern s)) as [|x q]; [done|]. by destruct max; [lia|].
  - intros (s' & b & Hs & _). cbn [step] in Hs. unfold wait in Hs. by case_decide.
Qed.
Theorem C112_ports_reason s :
  reachable s -> port_readable (kern s) ->
  told (log s) < sent (log s) \/
  exists fd e x, registered fd (log s) = Some e /\ asked e x /\ bit (flags_since fd (log s)) x.
Proof.
  intros Hr H. destruct (wait_proceeds s 1 H) as [s' Hs].
  apply (C80_no_spurious_wakeup s 1 s'); [done| |done]. cbn. lia.
Qed.

(** Two sources are ready and a notification is queued. *)
Example C112_ports_nonvacuous :
  exists s, reachable s /\ registered 6 (log s) = Some (wr 8) /\ asked (wr 8) b_hup /\
    bit (readiness 6 (log s)) b_hup /\ told (log s) < sent (log s) /\ port_readable (kern s).
Proof.
  runs (take 7 demo) s H Hr Hl.
  assert (Hs : told (log s) < sent (log s)) by (rewrite Hl; vm_compute; lia).
  exists s. split; [done|]. split; [rewrite Hl; vm_compute; reflexivity|]. split; [unfold asked; auto|].
  split; [rewrite Hl; vm_compute; reflexivity|]. split; [done|]. by apply C112_ports_notified.
Qed.
(** And a poller that is not readable. *)
Example C112_ports_quiet : exists s, reachable s /\ registered 5 (log s) = Some (rd 7) /\ ~ port_readable (kern s).
Proof.
  runs (take 1 demo) s H Hr Hl. exists s. split; [done|]. split; [rewrite Hl; vm_compute; reflexivity|].
  intros [T|(fd & e & x & R & _ & B)]%C112_ports_reason; [|rewrite Hl in B|done]; [rewrite Hl in T; vm_compute in T; lia|].
  revert B. cbn. repeat case_decide; intros B; unfold bit in B; by rewrite N.bits_0 in B.
Qed.

Print Assumptions C112_ports_source.
Print Assumptions C112_ports_notified.
Print Assumptions C112_ports_iff.
Print Assumptions C112_ports_reason.
