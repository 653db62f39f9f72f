(** The epoll properties: C38 to C42, C68, C69.  [c] is the poller's configuration (with or
    without a timerfd), [reachable c s] ranges over all histories of calls, readiness changes,
    notifications, timer expiries, waits and failures. *)
From stdpp Require Import prelude list gmap.
From Verif Require Import Bits Types EventModel EventSpec EventProofs EpollModel EpollSpec
  EpollProofs EpollProofs2 EpollProofs3 EpollProofs4.
Local Open Scope nat_scope.

(** ** C38: registrations behave like a map *)
Theorem C38_add c s fd e m f s' :
  wf_config c -> reachable c s -> legal c s (LAdd fd e m f) -> step c s (LAdd fd e m f) = Some s' ->
  exists r, log s' = log s ++ [AddRet fd e m r] /\
    r = match f, registered fd (log s) with
        | Some x, _ => Err (EOs x)
        | None, Some _ => Err (EOs EEXIST)
        | None, None => Ok tt
        end /\
    (r <> Ok tt -> kern s' = kern s) /\
    (r = Ok tt -> exists it, items (kern s') = <[fd := it]> (items (kern s)) /\ holds it e m).
Proof. exact (add_result c s fd e m f s'). Qed.
Theorem C38_modify c s fd e m f s' :
  wf_config c -> reachable c s -> legal c s (LModify fd e m f) -> step c s (LModify fd e m f) = Some s' ->
  exists r, log s' = log s ++ [ModifyRet fd e m r] /\
    r = match f, registered fd (log s) with
        | Some x, _ => Err (EOs x)
        | None, None => Err (EOs ENOENT)
        | None, Some _ => Ok tt
        end /\
    (r <> Ok tt -> kern s' = kern s) /\
    (r = Ok tt -> exists it, items (kern s') = <[fd := it]> (items (kern s)) /\ holds it e m).
Proof. exact (modify_result c s fd e m f s'). Qed.
Theorem C38_delete c s fd f s' :
  wf_config c -> reachable c s -> legal c s (LDelete fd f) -> step c s (LDelete fd f) = Some s' ->
  exists r, log s' = log s ++ [DeleteRet fd r] /\
    r = match f, registered fd (log s) with
        | Some x, _ => Err (EOs x)
        | None, None => Err (EOs ENOENT)
        | None, Some _ => Ok tt
        end /\
    (r <> Ok tt -> kern s' = kern s) /\
    (r = Ok tt -> items (kern s') = delete fd (items (kern s))).
Proof. exact (delete_result c s fd f s'). Qed.

(** ** C39: one-shot delivers once per arming *)
Theorem C39_one_delivery_per_arming c s h1 b1 h2 b2 h3 fd e1 e2 e m :
  wf_config c -> reachable c s -> user_fd c fd ->
  log s = h1 ++ Reported b1 :: h2 ++ Reported b2 :: h3 -> (fd, e1) ∈ b1 -> (fd, e2) ∈ b2 ->
  registered fd h1 = Some (e, m) -> mode_oneshot m -> exists o, o ∈ h2 /\ registers fd o.
Proof. exact (oneshot_once c s h1 b1 h2 b2 h3 fd e1 e2 e m). Qed.
Theorem C39_once_per_batch c s h b h' :
  wf_config c -> reachable c s -> log s = h ++ Reported b :: h' -> NoDup (map fst b).
Proof. exact (once_per_batch c s h b h'). Qed.

(** ** C40: level-triggered sources (and one-shot ones that are armed) are not forgotten *)
Theorem C40_reported_while_ready c s t max fd e m n :
  wf_config c -> reachable c s -> user_fd c fd -> wait s = WPoll t max ->
  registered fd (log s) = Some (e, m) -> ~ mode_edge m -> ~ spent fd (log s) ->
  watched e n -> bit (readiness fd (log s)) n ->
  exists s' b, step c s LGo = Some s' /\ log s' = log s ++ [Reported b] /\
    (length b = max \/ exists e', (fd, e') ∈ b /\ ev_key e' = ev_key e /\
       forall n, bit (ev_extra e') n <-> watched e n /\ bit (readiness fd (log s)) n).
Proof. exact (level_reported c s t max fd e m n). Qed.
Theorem C40_level_reported_while_ready c s t max fd e n :
  wf_config c -> reachable c s -> user_fd c fd -> wait s = WPoll t max ->
  registered fd (log s) = Some (e, Level) ->
  watched e n -> bit (readiness fd (log s)) n ->
  exists s' b, step c s LGo = Some s' /\ log s' = log s ++ [Reported b] /\
    (length b = max \/ exists e', (fd, e') ∈ b /\ ev_key e' = ev_key e /\
       forall n, bit (ev_extra e') n <-> watched e n /\ bit (readiness fd (log s)) n).
Proof.
  intros Hc Hr Hu Hw Hreg. apply (C40_reported_while_ready c s t max fd e Level n); auto.
  - by intros [|].
  - apply (level_unspent fd (log s) e Level Hreg). by intros [|].
Qed.
(** However small the container, a ready source is passed over by fewer waits than there are
    registrations. *)
Theorem C40_no_starvation c fd n s s' e m :
  wf_config c -> reachable c s -> user_fd c fd ->
  passed_over c fd n s s' -> registered fd (log s) = Some (e, m) -> ~ mode_edge m ->
  ~ spent fd (log s) -> (exists b, watched e b /\ bit (readiness fd (log s)) b) ->
  n < size (items (kern s)).
Proof.
  intros Hc Hr Hu Hpo Hreg Hm Hsp (b & Hw & Hb). eapply no_starvation; eauto.
  exists b. split; [done|]. by rewrite (ready_log c).
Qed.

(** ** C41: edge-triggered sources *)
Theorem C41_reports_bounded_by_events c s h1 o h2 fd :
  wf_config c -> reachable c s -> user_fd c fd ->
  log s = h1 ++ o :: h2 -> registers fd o -> ~ registers_other_mode fd o ->
  Forall (fun o => ~ registers_other_mode fd o) h2 ->
  total (reports_of fd) h2 <= 1 + total (wakes_of fd) h2 + total (registrations_of fd) h2.
Proof.
  intros Hc Hr Hu El Ho Hom HF. pose proof (edge_counted c s h1 o h2 fd Hc Hr Hu El Ho Hom HF). lia.
Qed.
(** A new event is not lost (in any mode): until it is reported the source stays due. *)
Theorem C41_new_events_reported c s l s1 s2 fd e m t max n :
  wf_config c -> reachable c s -> user_fd c fd -> legal c s l -> step c s l = Some s1 ->
  registered fd (log s1) = Some (e, m) -> ~ spent fd (log s1) -> news fd e s s1 ->
  undisturbed c fd s1 s2 -> wait s2 = WPoll t max ->
  watched e n -> bit (readiness fd (log s2)) n ->
  exists s3 b, step c s2 LGo = Some s3 /\ log s3 = log s2 ++ [Reported b] /\
    (length b = max \/ exists e', (fd, e') ∈ b /\ ev_key e' = ev_key e /\
       forall n, bit (ev_extra e') n <-> watched e n /\ bit (readiness fd (log s2)) n).
Proof. exact (news_reported c s l s1 s2 fd e m t max n). Qed.

(** ** C42: reports are about current registrations *)
Theorem C42_reports_are_current c s h b h' fd e' :
  wf_config c -> reachable c s -> log s = h ++ Reported b :: h' -> (fd, e') ∈ b -> user_fd c fd ->
  exists e m, registered fd h = Some (e, m) /\ ev_key e' = ev_key e /\
    (forall n, bit (ev_extra e') n <-> watched e n /\ bit (readiness fd h) n) /\
    exists n, bit (ev_extra e') n.
Proof. exact (reported_from_registered c s h b h' fd e'). Qed.
Theorem C42_own_reports_have_reserved_key c s h b h' fd e' :
  wf_config c -> reachable c s -> log s = h ++ Reported b :: h' -> (fd, e') ∈ b -> ~ user_fd c fd ->
  ev_key e' = NOTIFY_KEY.
Proof. exact (own_reports c s h b h' fd e'). Qed.

(** ** C68: the timer of a wait ends that wait and no other *)
Theorem C68_timer_set_by_this_wait c s t max fd :
  wf_config c -> reachable c s -> timer c = Some fd -> wait s = WPoll t max ->
  exists h h', log s = h ++ TimerSet t :: h' /\ Forall (fun o => forall t', o <> TimerSet t') h'.
Proof. exact (timer_was_set c s t max fd). Qed.
Theorem C68_deadline_ends_wait c s t max fd h h' :
  wf_config c -> reachable c s -> timer c = Some fd ->
  wait s = WPoll t max -> log s = h ++ TimerSet t :: h' ->
  Forall (fun o => forall t', o <> TimerSet t') h' -> Expired ∈ h' ->
  t = Some true /\ exists s' b, step c s LGo = Some s' /\ log s' = log s ++ [Reported b] /\ b <> [].
Proof. exact (deadline_wakes c s t max fd h h'). Qed.
Theorem C68_only_its_own_deadline c s t max fd h h' s' b e :
  wf_config c -> reachable c s -> timer c = Some fd ->
  wait s = WPoll t max -> log s = h ++ TimerSet t :: h' ->
  Forall (fun o => forall t', o <> TimerSet t') h' ->
  step c s LGo = Some s' -> log s' = log s ++ [Reported b] -> (fd, e) ∈ b ->
  t = Some true /\ Expired ∈ h'.
Proof. exact (deadline_own c s t max fd h h' s' b e). Qed.
Theorem C68_timer_running c s max fd h h' :
  wf_config c -> reachable c s -> timer c = Some fd ->
  wait s = WPoll (Some true) max -> log s = h ++ TimerSet (Some true) :: h' ->
  Forall (fun o => forall t', o <> TimerSet t') h' -> Expired ∉ h' ->
  is_Some (step c s LExpire).
Proof. exact (deadline_running c s max fd h h'). Qed.

(** ** C69: a notification ends the wait that comes after it, even if the container is small *)
Theorem C69_notification_ends_wait c s t max h h' :
  wf_config c -> reachable c s -> wait s = WPoll t max ->
  log s = h ++ Notified :: h' -> returning h = false -> Forall (fun o => forall b, o <> Reported b) h' ->
  wait_broken (log s) = false ->
  exists s' b, step c s LGo = Some s' /\ log s' = log s ++ [Reported b] /\ b <> [].
Proof. exact (notify_wakes c s t max h h'). Qed.

(* ------------------------------------------------------------------ *)
(** ** The hypotheses are met: a run with a level-triggered source 10, a one-shot source 11 and an
    edge-triggered source 12, ready, with a container of two. *)
Definition demo : config := Config 3 (Some 4%Z).
Definition ev (k : N) : event N := ev_new epoll_extra k true false.
Definition labels : list label :=
  [LAdd 10 (ev 7) Level None; LAdd 11 (ev 8) Oneshot None; LAdd 12 (ev 9) Edge None;
   LHappen 10 EPOLLIN EPOLLIN; LHappen 11 EPOLLIN EPOLLIN; LHappen 12 EPOLLIN EPOLLIN;
   LNotify; LWait (Some true) 2; LGo; LGo; LExpire; LGo; LGo; LGo;
   LWait None 8; LGo; LGo; LGo; LGo; LGo;
   LModify 11 (ev 18) Oneshot None; LWait (Some false) 8; LGo; LGo; LGo; LGo; LGo].

Lemma run_reachable c ls s s' : reachable c s -> Forall (fun l => forall s, legal c s l) ls ->
  run c s ls = Some s' -> reachable c s'.
Proof.
  revert s. induction ls as [|l ls IH]; intros s Hr Hl Hs; simpl in *; [by simplify_eq|].
  apply Forall_cons in Hl as [Hl Hl']. destruct (step c s l) as [s1|] eqn:E; [|done].
  eapply IH; [|done|done]. by eapply reach_step.
Qed.
Lemma usable_new h k : k <> NOTIFY_KEY -> (k < 2 ^ 64)%N -> usable h (ev k).
Proof. intros H1 H2. split; [apply obt_new|done]. Qed.
Lemma happen_legal s fd : user_fd demo fd -> legal demo s (LHappen fd EPOLLIN EPOLLIN).
Proof. intros H. split; [done|]. split; [|done]. by rewrite p2_EPOLLIN; intros n ->%bit_pow2. Qed.
Lemma demo_wf : wf_config demo.
Proof. by intros [=]. Qed.
Local Ltac user := split; intros H; vm_compute in H; discriminate H.
Lemma demo_legal : Forall (fun l => forall s, legal demo s l) labels.
Proof.
  repeat (apply Forall_cons; split; [intros s;
    first [exact I | (simpl; lia) | user | (split; [user|by apply usable_new]) | (apply happen_legal; user)]|]).
  by apply Forall_nil.
Qed.

Definition demo_state (n : nat) : state := default (init demo) (run demo (init demo) (take n labels)).
Example demo_runs : is_Some (run demo (init demo) labels).
Proof. vm_compute. by eexists. Qed.
Lemma demo_reachable n : reachable demo (demo_state n).
Proof.
  unfold demo_state. destruct (run demo (init demo) (take n labels)) as [s|] eqn:E; simpl; [|apply reach_init].
  eapply run_reachable; [apply reach_init| |done]. apply Forall_take, demo_legal.
Qed.

(** C38: adding 10 again fails, and adding 13 succeeds. *)
Example C38_nonvacuous :
  legal demo (demo_state 6) (LAdd 10 (ev 5) Level None) /\ legal demo (demo_state 6) (LAdd 13 (ev 5) Level None) /\
  registered 10 (log (demo_state 6)) = Some (ev 7, Level) /\ registered 13 (log (demo_state 6)) = None.
Proof. split; [split; [user|by apply usable_new]|]. split; [split; [user|by apply usable_new]|]. done. Qed.

(** The first wait reports 10 and 11 (10 goes to the end of the queue), the second everything else
    that is due, the third, after re-arming 11, 11 again. *)
Definition keys (h : list obs) : list (list (Z * N)) :=
  omap (fun o => match o with Reported b => Some (map (fun x => (x.1, ev_key x.2)) b) | _ => None end) h.
Example demo_log : keys (log (demo_state (length labels)))
  = [[(10, 7%N); (11, 8%N)]; [(12, 9%N); (10, 7%N)]; [(10, 7%N); (11, 18%N)]]%Z.
Proof. vm_compute. reflexivity. Qed.

(** C39: 11 is reported by the first and the third wait. *)
Example C39_nonvacuous :
  exists h1 b1 h2 b2 h3 e1 e2, log (demo_state (length labels)) = h1 ++ Reported b1 :: h2 ++ Reported b2 :: h3 /\
    (11%Z, e1) ∈ b1 /\ (11%Z, e2) ∈ b2 /\ registered 11 h1 = Some (ev 8, Oneshot) /\ mode_oneshot Oneshot.
Proof.
  pose (l := log (demo_state (length labels))). 
  exists (take 10 l), (match l !! 10 with Some (Reported b) => b | _ => [] end), (take 8 (drop 11 l)),
    (match l !! 19 with Some (Reported b) => b | _ => [] end), (drop 20 l),
    (Ev 8 true false EPOLLIN), (Ev 18 true false EPOLLIN).
  split; [vm_compute; reflexivity|]. split; [vm_compute; right; left|]. split; [vm_compute; right; left|].
  split; [vm_compute; reflexivity|by left].
Qed.

(** C42: the first wait reports 10. *)
Example C42_nonvacuous : exists h b h' e, log (demo_state (length labels)) = h ++ Reported b :: h' /\ (10%Z, e) ∈ b /\ user_fd demo 10.
Proof.
  pose (l := log (demo_state (length labels))).
  exists (take 10 l), (match l !! 10 with Some (Reported b) => b | _ => [] end), (drop 11 l), (Ev 7 true false EPOLLIN).
  split; [vm_compute; reflexivity|]. split; [vm_compute; left|]. split; intros H; vm_compute in H; discriminate H.
Qed.

(** C40: in the second wait's call, 10 is ready and level-triggered. *)
Example C40_nonvacuous :
  exists t max, wait (demo_state 17) = WPoll t max /\ max = 8 /\
    registered 10 (log (demo_state 17)) = Some (ev 7, Level) /\ watched (ev 7) b_in /\
    bit (readiness 10 (log (demo_state 17))) b_in.
Proof.
  eexists _, _. split; [vm_compute; reflexivity|]. split; [done|]. split; [vm_compute; reflexivity|].
  split; [left; split; [done|by left]|]. vm_compute. reflexivity.
Qed.

(** C40: three level-triggered sources and a container of one: 12 is passed over twice. *)
Lemma po_trans c fd n1 n2 s s1 s2 :
  passed_over c fd n1 s s1 -> passed_over c fd n2 s1 s2 -> passed_over c fd (n1 + n2) s s2.
Proof.
  intros H1 H2. induction H2 as [s1|n s1 s2 l s3 H2 IH Hl Hs Hsame Hrdy Hnb].
  - by rewrite Nat.add_0_r.
  - specialize (IH H1). pose proof (po_step _ _ _ _ _ _ _ IH Hl Hs Hsame Hrdy Hnb) as Hp.
    destruct l; try exact Hp. destruct (wait s2); try exact Hp. by rewrite Nat.add_succ_r.
Qed.
Definition po_count (s : state) (l : label) : nat :=
  match l, wait s with LGo, WPoll _ _ => 1 | _, _ => 0 end.
Lemma po_one c fd s l s' : legal c s l -> step c s l = Some s' ->
  registered fd (log s') = registered fd (log s) ->
  (exists e m b, registered fd (log s') = Some (e, m) /\ watched e b /\ bit (ready (kern s') fd) b) ->
  (forall b, log s' = log s ++ [Reported b] -> forall e, (fd, e) ∉ b) ->
  passed_over c fd (po_count s l) s s'.
Proof.
  intros Hl Hs H1 H2 H3. pose proof (po_step c fd 0 s s l s' (po_nil _ _ _) Hl Hs H1 H2 H3) as Hp.
  unfold po_count. destruct l; try exact Hp. 
Qed.
Definition crowd : list label :=
  [LAdd 10 (ev 7) Level None; LAdd 11 (ev 8) Level None; LAdd 12 (ev 9) Level None;
   LHappen 10 EPOLLIN EPOLLIN; LHappen 11 EPOLLIN EPOLLIN; LHappen 12 EPOLLIN EPOLLIN;
   LWait None 1; LGo; LGo; LGo; LGo; LGo; LWait None 1; LGo; LGo; LGo; LGo; LGo].
Definition crowd_state (n : nat) : state := default (init demo) (run demo (init demo) (take n crowd)).
Lemma crowd_legal : Forall (fun l => forall s, legal demo s l) crowd.
Proof.
  repeat (apply Forall_cons; split; [intros s;
    first [exact I | (simpl; lia) | user | (split; [user|by apply usable_new]) | (apply happen_legal; user)]|]).
  by apply Forall_nil.
Qed.
Lemma crowd_reachable n : reachable demo (crowd_state n).
Proof.
  unfold crowd_state. destruct (run demo (init demo) (take n crowd)) as [s|] eqn:E; simpl; [|apply reach_init].
  eapply run_reachable; [apply reach_init| |done]. apply Forall_take, crowd_legal.
Qed.
Local Ltac po :=
  apply po_one;
    [first [exact I | (simpl; lia)]
    |vm_compute; reflexivity|vm_compute; reflexivity
    |exists (ev 9), Level, b_in; split; [vm_compute; reflexivity|]; split; [left; split; [done|by left]|];
       vm_compute; reflexivity
    |intros b E e Hin; vm_compute in E; first [discriminate E |
       (injection E as <-; apply elem_of_list_singleton in Hin; discriminate Hin)]].
Definition crowd_step (k : nat) : Prop :=
  passed_over demo 12 (po_count (crowd_state k) (default LGo (crowd !! k))) (crowd_state k) (crowd_state (S k)).
Lemma crowd_steps : crowd_step 6 /\ crowd_step 7 /\ crowd_step 8 /\ crowd_step 9 /\ crowd_step 10 /\
  crowd_step 11 /\ crowd_step 12 /\ crowd_step 13 /\ crowd_step 14 /\ crowd_step 15 /\ crowd_step 16 /\ crowd_step 17.
Proof. repeat split. all: unfold crowd_step; po. Qed.
Lemma crowd_chain a n k : passed_over demo 12 n (crowd_state a) (crowd_state k) -> crowd_step k ->
  passed_over demo 12 (n + po_count (crowd_state k) (default LGo (crowd !! k))) (crowd_state a) (crowd_state (S k)).
Proof. apply po_trans. Qed.
Example C40_starvation_nonvacuous :
  passed_over demo 12 2 (crowd_state 6) (crowd_state 18) /\
  registered 12 (log (crowd_state 6)) = Some (ev 9, Level) /\
  bit (readiness 12 (log (crowd_state 6))) b_in /\ size (items (kern (crowd_state 6))) = 5.
Proof.
  split; [|by vm_compute]. destruct crowd_steps as (H6 & H7 & H8 & H9 & H10 & H11 & H12 & H13 & H14 & H15 & H16 & H17).
  pose proof (po_nil demo 12 (crowd_state 6)) as H.
  apply (crowd_chain _ _ _ H) in H6. apply (crowd_chain _ _ _ H6) in H7. apply (crowd_chain _ _ _ H7) in H8.
  apply (crowd_chain _ _ _ H8) in H9. apply (crowd_chain _ _ _ H9) in H10. apply (crowd_chain _ _ _ H10) in H11.
  apply (crowd_chain _ _ _ H11) in H12. apply (crowd_chain _ _ _ H12) in H13. apply (crowd_chain _ _ _ H13) in H14.
  apply (crowd_chain _ _ _ H14) in H15. apply (crowd_chain _ _ _ H15) in H16. apply (crowd_chain _ _ _ H16) in H17.
  match type of H17 with passed_over _ _ ?n _ _ => replace n with 2 in H17 by (vm_compute; reflexivity) end.
  exact H17.
Qed.

Local Ltac computed := match goal with |- Forall _ ?x =>
  let y := eval vm_compute in x in replace x with y by (vm_compute; reflexivity) end.
(** C41: the source 12 of the first run is registered edge-triggered, woken once and reported once;
    and its event is still due in the second wait's call. *)
Example C41_nonvacuous :
  exists h1 o h2, log (demo_state (length labels)) = h1 ++ o :: h2 /\ registers 12 o /\
    ~ registers_other_mode 12 o /\ Forall (fun o => ~ registers_other_mode 12 o) h2 /\
    total (reports_of 12) h2 = 1 /\ total (wakes_of 12) h2 = 1.
Proof.
  pose (l := log (demo_state (length labels))). exists (take 2 l), (AddRet 12 (ev 9) Edge (Ok tt)), (drop 3 l).
  split; [vm_compute; reflexivity|]. split; [done|]. split; [intros [_ H]; apply H; by left|].
  split; [|split; vm_compute; reflexivity].
  computed. repeat (apply Forall_cons; split; [first [by intros H | (intros [H _]; discriminate H)]|]).
  by apply Forall_nil.
Qed.
Example C41_news_nonvacuous :
  exists s1, step demo (demo_state 5) (LHappen 12 EPOLLIN EPOLLIN) = Some s1 /\
    news 12 (ev 9) (demo_state 5) s1 /\ registered 12 (log s1) = Some (ev 9, Edge) /\ ~ spent 12 (log s1).
Proof.
  eexists. split; [vm_compute; reflexivity|]. split; [|split].
  - left. exists EPOLLIN, EPOLLIN, b_in. split; [vm_compute; reflexivity|]. split; [left; split; [done|by left]|].
    vm_compute. reflexivity.
  - vm_compute. reflexivity.
  - eapply (level_unspent 12 _ (ev 9) Edge); [vm_compute; reflexivity|]. by intros [|].
Qed.

(** C68: in the first wait's call the timer has expired; in the second it is not running. *)
Example C68_nonvacuous :
  wait (demo_state 11) = WPoll (Some true) 2 /\
  exists h, log (demo_state 11) = h ++ TimerSet (Some true) :: [Expired].
Proof. split; [vm_compute; reflexivity|]. exists (take 8 (log (demo_state 11))). vm_compute. reflexivity. Qed.
Example C68_running_nonvacuous :
  wait (demo_state 10) = WPoll (Some true) 2 /\
  exists h, log (demo_state 10) = h ++ TimerSet (Some true) :: [].
Proof. split; [vm_compute; reflexivity|]. exists (take 8 (log (demo_state 10))). vm_compute. reflexivity. Qed.

(** C69: in the first wait's call the notification made before it is pending. *)
Example C69_nonvacuous :
  wait (demo_state 11) = WPoll (Some true) 2 /\ wait_broken (log (demo_state 11)) = false /\
  exists h h', log (demo_state 11) = h ++ Notified :: h' /\ returning h = false /\
    Forall (fun o => forall b, o <> Reported b) h'.
Proof.
  split; [vm_compute; reflexivity|]. split; [vm_compute; reflexivity|].
  exists (take 6 (log (demo_state 11))), (drop 7 (log (demo_state 11))).
  split; [vm_compute; reflexivity|]. split; [vm_compute; reflexivity|]. computed.
  repeat (apply Forall_cons; split; [discriminate|]). by apply Forall_nil.
Qed.

Print Assumptions C38_add.
Print Assumptions C38_modify.
Print Assumptions C38_delete.
Print Assumptions C39_one_delivery_per_arming.
Print Assumptions C39_once_per_batch.
Print Assumptions C40_reported_while_ready.
Print Assumptions C40_level_reported_while_ready.
Print Assumptions C40_no_starvation.
Print Assumptions C41_reports_bounded_by_events.
Print Assumptions C41_new_events_reported.
Print Assumptions C42_reports_are_current.
Print Assumptions C42_own_reports_have_reserved_key.
Print Assumptions C68_timer_set_by_this_wait.
Print Assumptions C68_deadline_ends_wait.
Print Assumptions C68_only_its_own_deadline.
Print Assumptions C68_timer_running.
Print Assumptions C69_notification_ends_wait.
