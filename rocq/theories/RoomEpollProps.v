(** C113 on epoll: one wait() reports at most as many events as the container has room for. *)
From stdpp Require Import prelude list gmap.
From Verif Require Import Bits Types EventModel EpollModel EpollSpec EpollProps RoomSpec.
Local Open Scope nat_scope.

Lemma send_room k l max its : length (send k l max its).1.1.1 <= max.
Proof.
  revert max its. induction l as [|fd l IH]; intros max its; cbn [send]; [cbn; lia|]. destruct max as [|m]; [cbn; lia|].
  destruct (its !! fd) as [it|]; [|apply IH]. destruct (is_empty _); [apply IH|].
  match goal with |- context [send k l m ?x] => specialize (IH m x); destruct (send k l m x) as [[[b rest] req] its''] end. cbn in *. lia.
Qed.
Lemma waiting_room c room s : epoll_waiting c room s -> match wait s with WSet _ m | WTimer _ m | WPoll _ m => m = room | _ => True end.
Proof.
  induction 1 as [s t s' _ H|s l s' _ IH _ N H].
  - cbn in H. destruct (wait s); try done. injection H as <-. cbn. by destruct (timer c).
  - destruct l; cbn -[sys_add sys_modify sys_delete] in H.
    all: try (by injection H as <-).
    all: try (match type of H with context [let (_, _) := ?x in _] => destruct x end; by injection H as <-).
    + destruct (timer c); [|done]. destruct (clock s); [|done]. by injection H as <-.
    + by destruct (N t max).
    + destruct (wait s) eqn:E; try done.
      * destruct (timer c); [|done]. by injection H as <-.
      * destruct (timer c); [|done]. destruct (sys_modify _ _ _ _ _) as [[] k]; try done; by injection H as <-.
      * destruct (epoll_wait _ _) as [b k]. destruct (sleeps c t && _); [done|]. by injection H as <-.
      * by injection H as <-.
      * destruct (sys_modify _ _ _ _ _) as [[] k]; try done; by injection H as <-.
    + destruct (wait s) eqn:E; try done; destruct e; by injection H as <-.
Qed.
Theorem C113_epoll_partial c room s l s' b :
  epoll_waiting c room s -> step c s l = Some s' -> log s' = log s ++ [Reported b] -> length b <= room.
Proof.
  intros W H E. apply waiting_room in W.
  assert (N : forall s1, log s1 = log s -> log s1 = log s ++ [Reported b] -> length b <= room).
  { intros s1 -> X. rewrite <- (app_nil_r (log s)) in X at 1. by apply app_inv_head in X. }
  assert (N1 : forall o, log s' = log s ++ [o] -> (forall b, o <> Reported b) -> length b <= room).
  { intros o X Y. rewrite X in E. apply app_inv_head in E. injection E as ->. by destruct (Y b). }
  destruct l; cbn -[sys_add sys_modify sys_delete] in H.
  all: try (match type of H with context [let (_, _) := ?x in _] => destruct x end; injection H as <-; (eapply N1; [reflexivity|done])).
  all: try (injection H as <-; (eapply N1; [reflexivity|done])).
  - destruct (timer c); [|done]. destruct (clock s); [|done]. injection H as <-. (eapply N1; [reflexivity|done]).
  - destruct (wait s); try done. injection H as <-. (eapply N1; [reflexivity|done]).
  - destruct (wait s) eqn:Ew; try done.
    + destruct (timer c); [|done]. injection H as <-. (eapply N1; [reflexivity|done]).
    + destruct (timer c); [|done]. destruct (sys_modify _ _ _ _ _) as [[] k]; try done; injection H as <-; [(eapply N; [|exact E]; reflexivity)|(eapply N1; [reflexivity|done])].
    + destruct (epoll_wait (kern s) max) as [b' k] eqn:Eb. destruct (sleeps c t && _); [done|]. injection H as <-. cbn in E. apply app_inv_head in E. injection E as <-.
      subst max. rewrite map_length. unfold epoll_wait in Eb. pose proof (send_room (kern s) (rdl (kern s)) room (items (kern s))) as S.
      destruct (send _ _ _ _) as [[[b1 rest] req] its]. injection Eb as <- _. done.
    + injection H as <-. (eapply N; [|exact E]; reflexivity).
    + destruct (sys_modify _ _ _ _ _) as [[] k]; try done; injection H as <-; (eapply N1; [reflexivity|done]).
  - destruct (wait s) eqn:Ew; try done; destruct e; injection H as <-; first [(eapply N; [|exact E]; reflexivity)|(eapply N1; [reflexivity|done])].
Qed.
Print Assumptions C113_epoll_partial.

(** Three sources and a notification are ready; the container has room for two, and two are reported. *)
Example C113_epoll_nonvacuous : exists s s' b,
  epoll_waiting demo 2 s /\ step demo s LGo = Some s' /\ log s' = log s ++ [Reported b] /\ length b = 2.
Proof.
  assert (W : epoll_waiting demo 2 (demo_state 11)).
  { assert (G : forall n l, step demo (demo_state n) l = Some (demo_state (S n)) -> (forall s, legal demo s l) -> (forall t r, l <> LWait t r) ->
      epoll_waiting demo 2 (demo_state n) -> epoll_waiting demo 2 (demo_state (S n))).
    { intros n l E L N W. exact (epoll_goes_on _ _ _ _ _ W (L _) N E). }
    apply (G 10 LExpire); [vm_compute; reflexivity|done|done|]. apply (G 9 LGo); [vm_compute; reflexivity|done|done|].
    apply (G 8 LGo); [vm_compute; reflexivity|done|done|].
    eapply (epoll_begins _ _ (demo_state 7) (Some true)); [apply demo_reachable|]. vm_compute. reflexivity. }
  exists (demo_state 11), (demo_state 12). eexists. split; [exact W|]. split; [vm_compute; reflexivity|]. split; [vm_compute; reflexivity|reflexivity].
Qed.
