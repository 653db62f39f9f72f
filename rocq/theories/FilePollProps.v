(** C104, the other half for the poll backend: poll(2) is given an array of descriptors, and may be running while another
    thread deletes and closes one of them.  In [FileModel] a wait is one step; here it is not. *)
From stdpp Require Import prelude list gmap.
From Verif Require Import Types EventModel PollModel PollSpec PollProofs PollConcModel PollConcSpec PollConcProofs PollConcTable.
From Verif Require PollProps PollConcProps PollConcProofs2.
Local Open Scope nat_scope.

(** Whether [fd] is registered after the calls that have taken effect. *)
Definition on_step (fd : Z) (b : bool) (o : obs) : bool :=
  match o with
  | OpEffect _ (CAdd g _ _) (Ok _) => if decide (g = fd) then true else b
  | OpEffect _ (CDelete g) (Ok _) => if decide (g = fd) then false else b
  | _ => b
  end.
Definition on_now (fd : Z) (h : list obs) : bool := fold_left (on_step fd) h false.

Definition is_start (i : nat) (o : obs) : bool := match o with PollStart j _ => bool_decide (j = i) | _ => false end.
(** The array that the last poll(2) call of thread [i] was given. *)
Definition given (i : nat) (h : list obs) (t : fds) : Prop :=
  exists h1 h2, h = h1 ++ PollStart i t :: h2 /\ has_none (is_start i) h2.

Lemma on_snoc fd h o : on_now fd (h ++ [o]) = on_step fd (on_now fd h) o.
Proof. unfold on_now. by rewrite fold_left_app. Qed.

Lemma reg_data o t fd : wf o t -> is_registered t fd <-> is_Some (fd_data t !! fd).
Proof.
  intros Hw. split; [by intros (r & d & pf & -> & _)|]. intros (d & D).
  destruct (wf_data _ _ Hw _ _ D) as (_ & pf & A & B). eexists _, d, pf. by repeat split.
Qed.
Lemma wanted_some cl : (match cl with CDelete _ => False | _ => True end) -> exists r, wanted cl r.
Proof.
  destruct cl as [g ev m|g ev m|g]; [| |done]; intros _;
    exists (Reg (ev_key ev) (poll_events ev) (match m with Oneshot => true | _ => false end));
    (split; [reflexivity|]; split; [reflexivity|]; by destruct m).
Qed.

Lemma modify_reg o t g ev m fd : wf o t -> is_registered (poll_modify o t g ev m).2 fd <-> is_registered t fd.
Proof.
  intros Hw. destruct (poll_modify o t g ev m) as [r t'] eqn:E. cbn [snd].
  destruct (modify_wf _ _ _ _ _ _ _ Hw E) as [_ Hw']. rewrite (reg_data o t'), (reg_data o t) by done.
  destruct (has_fd o g) eqn:Hh. { unfold poll_modify in E. rewrite Hh in E. by injection E as <- <-. }
  destruct (fd_data t !! g) as [d|] eqn:D.
  - destruct (modify_shape o t g ev m Hw Hh d D) as (rm & F & _). rewrite F in E. injection E as _ <-. cbn [fd_data].
    destruct (decide (g = fd)) as [->|N]; [rewrite lookup_insert, D|by rewrite lookup_insert_ne]. split; intros _; by eexists.
  - unfold poll_modify, modify_fds_entry in E. rewrite Hh, D in E. by injection E as <- <-.
Qed.

Lemma call_on o t cl i fd b : wf o t -> (is_registered t fd <-> b = true) ->
  (is_registered (do_call o t cl).2 fd <-> on_step fd b (OpEffect i cl (do_call o t cl).1) = true).
Proof.
  intros Hw Hb. destruct cl as [g ev m|g ev m|g].
  2: { cbn [do_call]. rewrite modify_reg by done. cbn [on_step]. done. }
  all: match goal with |- context [do_call ?o1 ?t1 ?c] => pose proof (call_other o1 t1 c fd Hw) as Q; destruct (do_call o1 t1 c) as [a t'] eqn:E end.
  all: cbn [fst snd] in *; destruct a as [[]|e|]; cbn [on_step].
  all: try (by destruct (call_wf o t _ _ t' Hw E)).
  all: try (destruct (call_error o t _ e t' Hw E) as [->|(? & ? & ? & [=] & _)]; done).
  all: destruct (call_effect o t _ t' Hw E) as [He _]; cbn [call_fd] in *; case_decide as D; [subst|].
  all: try (assert (is_registered t' fd <-> is_registered t fd) as -> by (specialize (Q D); split; intros (r & Hr); exists r; by apply Q); done).
  - split; [done|]. intros _. destruct (wanted_some (CAdd fd ev m) I) as (r & Hr). exists r. by apply He.
  - split; [|done]. intros (r & Hr). by apply He in Hr.
Qed.

Lemma table_on c n s : wf_own (own c) -> reachable c n s -> forall fd, is_registered (table s) fd <-> on_now fd (log s) = true.
Proof.
  intros Ho. induction 1 as [|s [i a] s' Hr IH Hl Hs]; intros fd.
  - split; [|done]. intros (r & d & pf & Hd & _). cbn in Hd. by rewrite lookup_empty in Hd.
  - destruct (tab_inv_ok c n s Hr) as [H1 H2]. pose proof (reachable_wf _ _ H1) as Hw. specialize (IH fd). clear Hr.
    unfold legal in Hl. step_cases Hs as Hp; cbn [snd fst] in *; rewrite ?on_snoc; cbn [on_step]; try exact IH.
    all: try match goal with H : has_fd _ (call_fd ?cl) = true |- _ =>
      pose proof (call_on (own c) (table s) cl i fd _ Hw IH) as P; rewrite own_call in P by done; exact P end.
    all: try match goal with H : do_call _ _ ?cl = _ |- _ =>
      pose proof (call_on (own c) (table s) cl i fd _ Hw IH) as P; rewrite H in P; exact P end.
    all: match goal with H : poll_turn _ _ _ _ = _ |- _ => rename H into Ht end.
    all: pose proof (proj1 (H2 _ _ _ Hp eq_refl)) as Ha; rewrite <- IH; split; intros (r & Hx).
    all: try (apply (turn_regs _ _ _ _ _ _ _ _ Hw Ho Ha Hl Ht) in Hx as (r1 & Hx & _); by exists r1).
    all: assert (exists fl, returned (table s) a0.1 fd fl) as (fl & Hf) by
      (destruct Hx as (d & pf & _ & Hp1 & Hp2 & _); destruct Ha as [Hlen _];
       destruct (lookup_lt_is_Some_2 a0.1 (fd_index d)) as (fl & Hf); [rewrite Hlen; by eapply lookup_lt_Some|]; exists fl, (fd_index d), pf; done).
    all: destruct (reg_oneshot r) eqn:Eo; [destruct (decide (fl = 0%N)) as [->|Nf]|].
    all: first [exists (Reg (reg_key r) 0 true); apply (turn_regs _ _ _ _ _ _ _ _ Hw Ho Ha Hl Ht); exists r; split; [exact Hx|];
                  left; split; [exact Eo|]; split; [by exists fl|reflexivity]
               |exists r; apply (turn_regs _ _ _ _ _ _ _ _ Hw Ho Ha Hl Ht); exists r; split; [exact Hx|]; right; split; [|reflexivity];
                  first [by left|by right]].
Qed.

Lemma given_app i h t k : given i h t -> has_none (is_start i) k -> given i (h ++ k) t.
Proof.
  intros (h1 & h2 & -> & N) K. exists h1, (h2 ++ k). split; [by rewrite <- app_assoc|].
  intros o [H|H]%elem_of_app; [by apply N|by apply K].
Qed.

Lemma given_inv c n s i : reachable c n s -> threads s !! i = Some WPoll -> given i (log s) (table s).
Proof.
  intros Hr. revert i. induction Hr as [|s [j a] s' Hr IH Hl Hs]; intros i Hi.
  { cbn in Hi. by apply lookup_replicate in Hi as [? _]. }
  destruct (decide (i = j)) as [<-|Hne].
  - clear IH Hr. assert (exists k, threads s !! i = Some k) as (k & Hk) by (destruct (threads s !! i) eqn:E; [by eexists|]; cbn in Hs; by rewrite E in Hs).
    step_cases Hs as Hp.
    all: try (erewrite lookup_self in Hi by exact Hp).
    all: try match goal with
       | Hj : ?l !! ?j = Some WSleep, Hi : <[?i:=_]> (<[?j:=WWoken]> _) !! ?i = _ |- _ =>
         erewrite lookup_self in Hi by
          (rewrite list_lookup_insert_ne by (intros ->; congruence); exact Hp)
       end.
    all: try discriminate Hi.
    all: try (repeat case_match; discriminate Hi).
    exists (log s), []. split; [done|]. intros o H. by apply elem_of_nil in H.
  - destruct (other_thread c s j a s' i _ Hs Hne Hi) as [Hi'|[? _]]; [|done].
    assert (Ht : table s' = table s).
    { destruct (table_frame c s j a s' Hs) as [|[[cl Hj]|[b Hj]]]; [done| |];
      destruct Hne; eapply (crit_unique c n s); eauto. }
    destruct (log_ext c s j a s' Hs) as (k & -> & Hk). rewrite Ht. apply given_app; [by apply IH|].
    intros o Ho. destruct o; cbn; try done. apply Hk in Ho. cbn in Ho. subst. by rewrite bool_decide_eq_false.
Qed.

(** While a thread is in poll(2), every descriptor in the array it gave to the kernel, after the notifier's, is registered
    at this very moment.  So once a delete has taken effect, which is before it returns (C31), no poll(2) call in progress
    looks at the descriptor any more, and it may be closed. *)
Theorem C104_poll_watches_only_registered c n s i :
  wf_own (own c) -> reachable c n s -> threads s !! i = Some WPoll ->
  exists t, given i (log s) t /\
    (exists notifier, poll_fds t !! 0 = Some notifier /\ pfd_fd notifier = own_poll (own c)) /\
    forall fd, (exists j pf, 0 < j /\ poll_fds t !! j = Some pf /\ pfd_fd pf = fd) <-> on_now fd (log s) = true.
Proof.
  intros Ho Hr Hi. exists (table s). split; [by eapply given_inv|].
  destruct (tab_inv_ok c n s Hr) as [H1 _]. pose proof (reachable_wf _ _ H1) as Hw. split.
  - destruct (wf_head _ _ Hw) as (pf & A & B & _). by exists pf.
  - intros fd. rewrite <- (table_on c n s Ho Hr fd), (reg_data _ _ _ Hw). split.
    + intros (j & pf & Hj & A & <-). destruct (wf_tab _ _ Hw _ _ Hj A) as (d & -> & _). by eexists.
    + intros (d & D). destruct (wf_data _ _ Hw _ _ D) as (A & pf & B & C). by exists (fd_index d), pf.
Qed.
Print Assumptions C104_poll_watches_only_registered.

Theorem C104_poll_deleted_is_not_watched c n s i j fd h1 h2 t pf k :
  wf_own (own c) -> reachable c n s -> threads s !! i = Some WPoll -> given i (log s) t ->
  log s = h1 ++ OpEffect j (CDelete fd) (Ok tt) :: h2 ->
  (forall j' ev m, OpEffect j' (CAdd fd ev m) (Ok tt) ∉ h2) ->
  0 < k -> poll_fds t !! k = Some pf -> pfd_fd pf <> fd.
Proof.
  intros Ho Hr Hi Hg El Hn Hk Hp E. destruct (C104_poll_watches_only_registered c n s i Ho Hr Hi) as (t' & Hg' & _ & Hw).
  assert (t' = t) as ->.
  { destruct Hg as (a & b & Ea & Na), Hg' as (a' & b' & Ea' & Na'). rewrite Ea in Ea'.
    apply app_eq_inv in Ea' as [(l & -> & El')|(l & -> & El')]; destruct l as [|o l]; cbn in El'; injection El' as El1 El2; try done.
    - subst. specialize (Na' (PollStart i t)). cbn in Na'. rewrite bool_decide_eq_true_2 in Na' by done.
      discriminate Na'. apply elem_of_app. right. by left.
    - subst. specialize (Na (PollStart i t')). cbn in Na. rewrite bool_decide_eq_true_2 in Na by done.
      discriminate Na. apply elem_of_app. right. by left. }
  assert (on_now fd (log s) = true) as F by (apply Hw; by exists k, pf).
  assert (on_now fd (log s) = false) as G; [|congruence].
  rewrite El. unfold on_now. rewrite fold_left_app. cbn [fold_left]. generalize (fold_left (on_step fd) h1 false) as b0.
  intros b0. replace (on_step fd b0 (OpEffect j (CDelete fd) (Ok tt))) with false by (cbn; by rewrite decide_True).
  clear -Hn. induction h2 as [|o h2 IH]; [done|]. cbn [fold_left].
  replace (on_step fd false o) with false; [apply IH; intros j' ev m H; apply (Hn j' ev m); by right|].
  destruct o as [| | | |j' [g ev m|g ev m|g] [[]| |]| | | | | | |]; cbn; try done; [|by case_decide].
  case_decide; [|done]. subst. destruct (Hn j' ev m). by left.
Qed.
Print Assumptions C104_poll_deleted_is_not_watched.

(** A thread in poll(2) while another one deletes: it has left poll(2) before the delete takes effect, and when it is in
    poll(2) again the descriptor is not in the array. *)
Definition on_thread (i : nat) (l : list act) : list label := map (fun a => (i, a)) l.
Definition before_delete : list label :=
  PollConcProps.at0 [CallOp (CAdd 10 (Ev 7 true false 0%N) Level); Go; Go; Go; Go; Go; Go; SignalTo None; Go; Go]
  ++ on_thread 1 [CallWait; Go; Go; Go; Go].
Definition delete_during_wait : list label :=
  before_delete ++ PollConcProps.at0 [CallOp (CDelete 10); Go; Go]
  ++ on_thread 1 [KRet ([1%N; 0%N], 1); Go; Go; Store [10%Z]; Go; Go]
  ++ PollConcProps.at0 [Go; Go; Go; Go; SignalTo (Some 1); Go; Go]
  ++ on_thread 1 [Go; Go; Go].
Definition is_delete (o : obs) : bool := match o with OpEffect _ (CDelete 10) (Ok tt) => true | _ => false end.
Lemma if_reachable ls s : PollConcProps.run_if (PollConcProps.cfg Pipe) (init (PollConcProps.cfg Pipe) 2) ls = Some s ->
  reachable (PollConcProps.cfg Pipe) 2 s.
Proof. intros E. exact (PollConcProofs2.reachable_w_reachable _ _ _ (PollConcProps.run_if_w _ _ _ _ E)). Qed.
Example C104_poll_case : exists s s', reachable (PollConcProps.cfg Pipe) 2 s /\ reachable (PollConcProps.cfg Pipe) 2 s' /\
  wf_own (own (PollConcProps.cfg Pipe)) /\ threads s !! 1 = Some WPoll /\ threads s' !! 1 = Some WPoll /\
  on_now 10 (log s) = true /\ on_now 10 (log s') = false /\ existsb is_delete (log s') = true.
Proof.
  assert (exists s, PollConcProps.run_if (PollConcProps.cfg Pipe) (init (PollConcProps.cfg Pipe) 2) before_delete = Some s /\
    threads s !! 1 = Some WPoll /\ on_now 10 (log s) = true) as (s & E & H1 & H2)
    by (eexists; split; [vm_compute; reflexivity|]; split; by vm_compute).
  assert (exists s, PollConcProps.run_if (PollConcProps.cfg Pipe) (init (PollConcProps.cfg Pipe) 2) delete_during_wait = Some s /\
    threads s !! 1 = Some WPoll /\ on_now 10 (log s) = false /\ existsb is_delete (log s) = true) as (s' & E' & H1' & H2' & H3')
    by (eexists; split; [vm_compute; reflexivity|]; repeat split; by vm_compute).
  exists s, s'. split; [exact (if_reachable _ _ E)|]. split; [exact (if_reachable _ _ E')|]. split; [exact PollProps.o34_wf|].
  exact (conj H1 (conj H1' (conj H2 (conj H2' H3')))).
Qed.
