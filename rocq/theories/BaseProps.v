(** The base socket of a socket: C93. *)
From stdpp Require Import prelude list.
From Verif Require Import Types BaseModel.
Local Open Scope nat_scope.

(** WSAIoctl does not panic. *)
Definition returns (w : winsock) : Prop := forall log q, w log q <> Panic.
(** Socket [s] stands on base socket [base s], and no provider lies about it. *)
Definition truthful (base : nat -> nat) (w : winsock) : Prop :=
  forall log s t, (w log (s, BaseHandle) = Ok t -> t = base s) /\ (w log (s, BspHandlePoll) = Ok t -> base t = base s).
(** The answers do not depend on what was asked before. *)
Definition steady (w : winsock) (f : query -> res nat) : Prop := forall log q, w log q = f q.
(** By asking the providers one gets from socket [s] through [n] further sockets to base socket [b]. *)
Inductive leads (f : query -> res nat) : nat -> nat -> nat -> Prop :=
| leads_base s b : f (s, BaseHandle) = Ok b -> leads f 0 s b
| leads_on n s e t b : f (s, BaseHandle) = Err e -> kind e <> KInvalidInput -> f (s, BspHandlePoll) = Ok t -> t <> s -> leads f n t b -> leads f (S n) s b.

(** ** C93 *)
(** Refuted: below two providers that do not know SIO_BASE_HANDLE the base socket is not found. *)
Theorem C93_layers_refuted :
  exists base w f s, returns w /\ truthful base w /\ steady w f /\ leads f 2 s (base s) /\
    exists e, (base_socket w s []).1 = Err e.
Proof.
  set (f := fun q : query => match q with
            | (3, BaseHandle) => Ok 3 | (2, BspHandlePoll) => Ok 3 | (1, BspHandlePoll) => Ok 2 | _ => Err (EOs (EOTHER 10045)) end : res nat).
  exists (fun s => if decide (s < 4) then 3 else s), (fun _ => f), f, 1. split.
  { intros _ [s q]. unfold f. by repeat case_match. } split.
  { intros _ s t. unfold f. split; intros H; repeat case_match; simplify_eq/=; try lia; done. } split; [done|]. split.
  { eapply leads_on; [reflexivity|done|reflexivity|done|]. eapply leads_on; [reflexivity|done|reflexivity|done|]. by apply leads_base. }
  by eexists.
Qed.
(** What holds: with at most one such provider it is found; *)
Theorem C93_one_layer_partial w f n s b log :
  steady w f -> leads f n s b -> n <= 1 -> (base_socket w s log).1 = Ok b.
Proof.
  intros St L N. unfold base_socket, try_socket_ioctl. destruct L as [s b H|n s e t b H K H2 Ne L]; rewrite St, H; [done|].
  assert (G : f (t, BaseHandle) = Ok b) by (inversion L; subst; [done|lia]).
  destruct (kind e) eqn:Ek; try congruence; rewrite St, H2; (case_decide; [done|]); cbn; by rewrite St, G.
Qed.
(** a socket that is found is the right one, whatever the providers refuse; *)
Theorem C93_right_partial base w s log b :
  truthful base w -> (base_socket w s log).1 = Ok b -> b = base s.
Proof.
  intros T. unfold base_socket, try_socket_ioctl. destruct (w log (s, BaseHandle)) as [x|e|] eqn:E; [|..|done].
  - intros [= ->]. by apply (T log s b).
  - assert (G : forall l, (match (w l (s, BspHandlePoll), l ++ [(s, BspHandlePoll)]) with
          | (Ok t, log) => if decide (t = s) then (Err (ESimple KInvalidInput), log) else (w log (t, BaseHandle), log ++ [(t, BaseHandle)])
          | x => x end).1 = Ok b -> b = base s).
    { intros l. destruct (w l (s, BspHandlePoll)) as [t|e'|] eqn:E2; [|done..]. case_decide; [done|]. cbn. intros Hb.
      rewrite <- (proj2 (T l s t) E2). exact (proj1 (T _ t b) Hb). }
    destruct (kind e); try done; apply G.
Qed.
(** at most three questions are asked, about the socket or about one that stands on the same base, and nothing panics; *)
Theorem C93_questions_partial base w s log :
  truthful base w -> returns w ->
  exists qs, (base_socket w s log).2 = log ++ qs /\ 1 <= length qs <= 3 /\ Forall (fun q => base q.1 = base s) qs /\ (base_socket w s log).1 <> Panic.
Proof.
  intros T Rt. unfold base_socket, try_socket_ioctl. destruct (w log (s, BaseHandle)) as [x|e|] eqn:E; [|..|by destruct (Rt _ _ E)].
  { exists [(s, BaseHandle)]. cbn. split; [done|]. split; [cbn; lia|]. split; [by repeat constructor|done]. }
  set (l := log ++ _).
  assert (G : let r := match (w l (s, BspHandlePoll), l ++ [(s, BspHandlePoll)]) with
          | (Ok t, log) => if decide (t = s) then (Err (ESimple KInvalidInput), log) else (w log (t, BaseHandle), log ++ [(t, BaseHandle)])
          | x => x end in
      exists qs, r.2 = log ++ qs /\ 1 <= length qs <= 3 /\ Forall (fun q => base q.1 = base s) qs /\ r.1 <> Panic).
  { destruct (w l (s, BspHandlePoll)) as [t|e'|] eqn:E2; [|..|by destruct (Rt _ _ E2)].
    - case_decide as Y.
      + exists [(s, BaseHandle); (s, BspHandlePoll)]. cbn. unfold l. rewrite <- app_assoc. split; [done|]. split; [cbn; lia|]. split; [by repeat constructor|done].
      + exists [(s, BaseHandle); (s, BspHandlePoll); (t, BaseHandle)]. cbn. unfold l. rewrite <- !app_assoc. split; [done|]. split; [cbn; lia|]. split.
        * repeat constructor; cbn. by apply (T l s t).
        * apply Rt.
    - exists [(s, BaseHandle); (s, BspHandlePoll)]. cbn. unfold l. rewrite <- app_assoc. split; [done|]. split; [cbn; lia|]. split; [by repeat constructor|done]. }
  destruct (kind e); try exact G. exists [(s, BaseHandle)]. cbn. split; [done|]. split; [cbn; lia|]. split; [by repeat constructor|done].
Qed.
(** and a failure is the answer to the last of the questions, or the provider has named the socket itself. *)
Theorem C93_failures_partial w s log e :
  (base_socket w s log).1 = Err e ->
  exists (qs : list query) (q : query), (base_socket w s log).2 = log ++ qs ++ [q] /\
    (w (log ++ qs) q = Err e \/ (e = ESimple KInvalidInput /\ q = (s, BspHandlePoll) /\ w (log ++ qs) q = Ok s)).
Proof.
  unfold base_socket, try_socket_ioctl. destruct (w log (s, BaseHandle)) as [x|e0|] eqn:E; [done|..|done].
  assert (G : let l := log ++ [(s, BaseHandle)] in
      let r := match (w l (s, BspHandlePoll), l ++ [(s, BspHandlePoll)]) with
          | (Ok t, log) => if decide (t = s) then (Err (ESimple KInvalidInput), log) else (w log (t, BaseHandle), log ++ [(t, BaseHandle)])
          | x => x end in
      r.1 = Err e -> exists (qs : list query) (q : query), r.2 = log ++ qs ++ [q] /\
        (w (log ++ qs) q = Err e \/ (e = ESimple KInvalidInput /\ q = (s, BspHandlePoll) /\ w (log ++ qs) q = Ok s))).
  { cbn zeta. destruct (w _ (s, BspHandlePoll)) as [t|e'|] eqn:E2; [|intros [= ->]|done].
    - case_decide as Y.
      + subst. intros [= <-]. exists [(s, BaseHandle)], (s, BspHandlePoll). rewrite <- app_assoc. eauto 6.
      + cbn. intros Hb. exists [(s, BaseHandle); (s, BspHandlePoll)], (t, BaseHandle). rewrite <- app_assoc in Hb. rewrite <- !app_assoc. eauto.
    - exists [(s, BaseHandle)], (s, BspHandlePoll). rewrite <- app_assoc. eauto. }
  destruct (kind e0); try exact G. intros [= ->]. exists [], (s, BaseHandle). rewrite app_nil_r. eauto.
Qed.
(** Cases: a provider in the way; a handle that is no socket. *)
Example C93_case :
  let f := fun q : query => match q with (2, BaseHandle) => Ok 2 | (1, BspHandlePoll) => Ok 2 | _ => Err (EOs (EOTHER 10045)) end : res nat in
  leads f 1 1 2 /\ base_socket (fun _ => f) 1 [] = (Ok 2, [(1, BaseHandle); (1, BspHandlePoll); (2, BaseHandle)]) /\
  base_socket (fun _ => f) 9 [] = (Err (EOs (EOTHER 10045)), [(9, BaseHandle); (9, BspHandlePoll)]).
Proof. split; [|done]. eapply leads_on; [reflexivity|done|reflexivity|done|]. by apply leads_base. Qed.
Example C93_truthful_case : exists base w, returns w /\ truthful base w /\ (base_socket w 1 []).1 = Ok 2 /\ (exists e, (base_socket w 9 []).1 = Err e).
Proof.
  exists (fun s => if decide (s = 1) then 2 else s),
    (fun _ q => match q with (2, BaseHandle) => Ok 2 | (1, BspHandlePoll) => Ok 2 | _ => Err (EOs (EOTHER 10045)) end).
  split; [intros _ [s q]; by repeat case_match|]. split; [|split; [done|by eexists]].
  intros _ s t. split; intros H; repeat case_match; simplify_eq/=; done.
Qed.

Print Assumptions C93_layers_refuted.
Print Assumptions C93_one_layer_partial.
Print Assumptions C93_right_partial.
Print Assumptions C93_questions_partial.
Print Assumptions C93_failures_partial.
