(** C113 on event ports: one wait() reports at most as many events as the container has room for. *)
From stdpp Require Import prelude list gmap.
From Verif Require Import Bits Types EventModel PortModel PortSpec PortProps.
Local Open Scope nat_scope.

Theorem C113_ports_partial s room o s' r b :
  reachable s -> step s (LWait room o) = Some s' -> log s' = log s ++ [WaitRet o r b] -> length b <= room.
Proof.
  intros _ H E. cbn in H. destruct (wait (kern s) room o) as [[[r' b'] k']|] eqn:W; [|done]. injection H as <-. cbn in E.
  apply app_inv_head in E. injection E as _ <-. unfold wait in W. destruct o as [|e].
  - destruct (decide _); [done|]. unfold getn in W. injection W as _ <- _. rewrite !map_length, take_length. lia.
  - destruct e; injection W as _ <- _; cbn; lia.
Qed.
Print Assumptions C113_ports_partial.

(** Two sources and a notification are there; the container has room for one, and one is reported. *)
Example C113_ports_nonvacuous : exists s s' b,
  reachable s /\ 1 < length (queue (kern s)) /\ step s (LWait 1 GEvents) = Some s' /\ log s' = log s ++ [WaitRet GEvents (Ok tt) b] /\ length b = 1.
Proof.
  runs (take 7 demo ++ [LWait 1 GEvents]) s' H' Hr' Hl'.
  apply run_snoc in H' as (s & H & Hs).
  runs (take 7 demo) s0 H0 Hr Hl. assert (s0 = s) as -> by congruence.
  assert (Q : (fun s => length (queue (kern s))) <$> run init (take 7 demo) = Some 3) by (vm_compute; reflexivity).
  rewrite H in Q. cbn in Q. injection Q as Q.
  exists s, s'. eexists. split; [done|]. split; [lia|]. split; [done|]. rewrite Hl, Hl'. split; [reflexivity|done].
Qed.
