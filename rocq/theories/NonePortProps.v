(** C114 on event ports: a source with no interest reports only errors, hang-ups and bad descriptors. *)
From stdpp Require Import prelude list gmap.
From Verif Require Import Bits Types EventModel EventSpec PortModel PortSpec PortProps NoneSpec.
Local Open Scope nat_scope.

Theorem C114_ports_partial s h1 o r b h2 fd e x :
  reachable s -> log s = h1 ++ WaitRet o r b :: h2 -> registered fd h1 = Some e -> no_interest e -> (IFd fd, x) ∈ b ->
  ev_key x = ev_key e /\ (bit (flags_since fd h1) b_err \/ bit (flags_since fd h1) b_hup \/ bit (flags_since fd h1) b_nval) /\
  forall n, bit (ev_extra x) n -> n = b_err \/ n = b_hup \/ n = b_nval.
Proof.
  intros R E G (N1 & N2 & N3) X.
  destruct (C50_reports_current _ _ _ _ _ _ _ _ R E X) as (e0 & G' & K & B & (n & Hn)).
  assert (e0 = e) as -> by congruence.
  assert (L : forall n, asked e n -> n = b_err \/ n = b_hup \/ n = b_nval).
  { intros k. unfold asked. rewrite N1, N2. intros [[? _]|[[? _]|[?|[?|?]]]]; try done; auto. }
  split; [done|]. split; [|intros k Hk; by apply L, B].
  apply B in Hn as [Hw Hr]. destruct (L n Hw) as [->|[->| ->]]; auto.
Qed.
Print Assumptions C114_ports_partial.

(** The interest of 5 is switched off; it hangs up, and wait() reports it as readable and writable. *)
Definition off : event N := Ev 7 false false 0%N.
Theorem C114_ports_refuted : exists s h1 o r b h2,
  reachable s /\ log s = h1 ++ WaitRet o r b :: h2 /\ registered 5 h1 = Some off /\ no_interest off /\
  exists x, (IFd 5, x) ∈ b /\ ev_readable x = true /\ ev_writable x = true.
Proof.
  runs [LAdd 5 (rd 7) Oneshot None; LModify 5 off Oneshot None; LHappen 5 POLLHUP; LWait 4 GEvents] s H Hr Hl.
  exists s. eexists [_; _; _], _, _, _, []. split; [done|]. split; [exact Hl|]. split; [vm_compute; reflexivity|]. split; [done|].
  eexists. split; [by left|]. by vm_compute.
Qed.
Print Assumptions C114_ports_refuted.
