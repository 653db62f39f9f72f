(** C85-C89: making and dropping pollers.  The words are in LifeSpec. *)
From stdpp Require Import prelude list gmap.
From Verif Require Import Types Bits EventModel LifeModel LifeSpec LifeProofs LifeProofs2 LifeProofs3.
From Verif Require EpollModel.
Local Open Scope nat_scope.

(** ** C85: making a poller *)

(** If it fails, the process has the descriptors it had before, unchanged, and everything is watched that was; what was
    closed on the way had been opened by the failing call, and was open. *)
Theorem C85_failure_leaks_nothing f w e w' : sane w -> new f w = (Err e, w') ->
  opened w' = opened w /\ regs w' = regs w
  /\ exists l, closes w' = closes w ++ l /\ forall n b, (n, b) ∈ l -> b = true /\ opened w !! n = None.
Proof.
  intros S E. pose proof (new_spec f w S) as G. rewrite E in G. destruct G as (d & I & _). destruct I as [A _ B _ _ C].
  by rewrite A, B, !(left_id_L ∅ (∪)).
Qed.

(** If it succeeds, the process has the poller's descriptors in addition: new ones, all different. *)
Theorem C85_success f w p w' : sane w -> new f w = (Ok p, w') ->
  own p <> [] /\ NoDup (own p) /\ (forall n, n ∈ own p -> opened w !! n = None /\ is_Some (opened w' !! n))
  /\ (forall n, n ∉ own p -> opened w' !! n = opened w !! n)
  /\ exists l, closes w' = closes w ++ l /\ forall n b, (n, b) ∈ l -> b = true /\ opened w !! n = None.
Proof.
  intros S E. pose proof (new_spec f w S) as G. rewrite E in G. destruct G as (m & d & I & _ & ND & NE & D & _). destruct I as [A B _ _ _ C].
  split; [done|]. split; [done|]. rewrite map_disjoint_spec in B. split; [|split; [|done]].
  - intros n Hn. apply D in Hn as [v Hv]. split; [|rewrite A; apply lookup_union_is_Some; left; by eexists].
    destruct (opened w !! n) eqn:X; [|done]. exfalso. by eapply B.
  - intros n Hn. rewrite A, lookup_union_r; [done|]. destruct (m !! n) eqn:X; [|done]. exfalso. apply Hn, D. by eexists.
Qed.

Theorem C85_never_panics f w w' : sane w -> new f w <> (Panic, w').
Proof. intros S E. pose proof (new_spec f w S) as G. by rewrite E in G. Qed.

(** ** C86: dropping a poller *)

(** It closes each of the poller's descriptors once and nothing else, whatever the kernel answers. *)
Theorem C86_drop p w : NoDup (own p) -> (forall n, n ∈ own p -> is_Some (opened w !! n)) ->
  (forall n, n ∈ own p -> opened (drop p w) !! n = None)
  /\ (forall n, n ∉ own p -> opened (drop p w) !! n = opened w !! n)
  /\ (forall x, (forall n, n ∈ own p -> ~ (x.1 = n \/ x.2 = Some n)) -> regs (drop p w) !! x = regs w !! x)
  /\ (forall x n, n ∈ own p -> x.1 = n \/ x.2 = Some n -> regs (drop p w) !! x = None)
  /\ exists l, Permutation l (own p) /\ closes (drop p w) = closes w ++ map (fun n => (n, true)) l.
Proof.
  intros N H. destruct (drop_spec p w) as (A & B & C). split_and!.
  - intros n Hn. by rewrite A, decide_True.
  - intros n Hn. by rewrite A, decide_False.
  - intros x Hx. rewrite B, decide_False; [done|]. intros (n & Hn & W)%Exists_exists. by apply (Hx n).
  - intros x n Hn W. rewrite B, decide_True; [done|]. apply Exists_exists. by exists n.
  - by apply C.
Qed.

(** Over the whole life of a process, with any number of pollers of any kind, any failures, any numbers given out again:
    a poller never closes a descriptor that is not open; what is open is exactly what the program has opened itself
    and what the living pollers own; no two of them own the same. *)
Theorem C86_histories l sc s : history l sc s ->
  (forall n b, (n, b) ∈ closes (env s) -> b = true)
  /\ (forall n, is_Some (opened (env s) !! n) <-> n ∈ mine s \/ exists p, alive s p /\ n ∈ own p)
  /\ (forall n p, alive s p -> n ∈ own p -> n ∉ mine s)
  /\ (forall i j p q n, pollers s !! i = Some (Some p) -> pollers s !! j = Some (Some q) -> i <> j -> n ∈ own p -> n ∉ own q).
Proof.
  intros H. destruct (history_hinv _ _ _ H) as [A B C D E]. split_and!.
  - exact E.
  - intros n. by rewrite B, alive_owned.
  - intros n p P Hn Hm. apply (D n Hm). apply alive_owned. by exists p.
  - intros i j p q n. by apply owned_apart.
Qed.
(** Once all pollers are dropped, nothing of them is left. *)
Theorem C86_nothing_left l sc s : history l sc s -> (forall p, ~ alive s p) ->
  (forall n, is_Some (opened (env s) !! n) <-> n ∈ mine s)
  /\ forall x, is_Some (regs (env s) !! x) -> x.1 ∈ mine s.
Proof.
  intros H N. destruct (C86_histories _ _ _ H) as (_ & A & _). assert (X : forall n, is_Some (opened (env s) !! n) <-> n ∈ mine s).
  { intros n. rewrite A. split; [|by left]. intros [?|(p & P & _)]; [done|]. exfalso. by apply (N p). }
  split; [done|]. intros x Hx. apply X. by apply (h_sane _ (history_hinv _ _ _ H)).
Qed.
(** The premise of the other theorems holds in every history. *)
Theorem C86_sane l sc s : history l sc s -> sane (env s).
Proof. intros H. by apply history_hinv in H as [? _ _ _ _]. Qed.

(** ** C87: flags *)

(** Every descriptor of a poller is close-on-exec, and the end that is read to empty the wake-up channel does not block;
    this includes the ways that set flags after the descriptor was made.  Not where the notifier is an eventfd made
    without flags (ESP-IDF, Hermit). *)
Theorem C87_flags f w p w' : sane w -> new f w = (Ok p, w') -> f <> PollEventfd ->
  (forall n x, n ∈ own p -> opened w' !! n = Some x -> d_cloexec x = true)
  /\ (forall n x, read_end p = Some n -> opened w' !! n = Some x -> d_nonblock x = true).
Proof.
  intros S E F. pose proof (new_spec f w S) as G. rewrite E in G. destruct G as (m & d & I & _ & ND & NE & D & X & Y).
  rewrite (i_open _ _ _ _ _ I). split.
  - intros n x Hn Hx. apply D in Hn as [v Hv]. rewrite lookup_union, Hv in Hx. assert (v = x) as -> by (destruct (opened w !! n); cbn in Hx; congruence). by apply (X F n).
  - intros n x Hn Hx. destruct (Y F n Hn) as (v & Hv & V). rewrite lookup_union, Hv in Hx. destruct (opened w !! n); cbn in Hx; congruence.
Qed.
(** ** C88: what a new poller watches *)

(** Its own wake-up channel and its timer, as in [own_entries], and nothing else has changed. *)
Theorem C88_watches f w p w' : sane w -> new f w = (Ok p, w') ->
  (forall x, x.1 ∈ own p -> regs w' !! x = own_entries p !! x) /\ (forall x, x.1 ∉ own p -> regs w' !! x = regs w !! x).
Proof.
  intros S E. destruct (C85_success f w p w' S E) as (_ & _ & N & _ & _).
  pose proof (new_spec f w S) as G. rewrite E in G. destruct G as (m & d & I & _). rewrite (i_regs _ _ _ _ _ I). split; intros x Hx.
  - apply lookup_union_l. destruct (regs w !! x) eqn:R; [|done]. exfalso. destruct (S x) as [[y Hy] _]; [by rewrite R|].
    destruct (N _ Hx) as [Z _]. congruence.
  - apply lookup_union_r. destruct (own_entries p !! x) eqn:R; [|done]. exfalso. apply Hx. by apply own_entries_own.
Qed.
(** For epoll these are exactly the registrations from which the histories of C38-C42, C68 and C69 start. *)
Theorem C88_epoll_starts ep no t (n : Z) : NoDup (own (PEpoll ep no t)) ->
  EpollModel.items (EpollModel.kern (EpollModel.init (EpollModel.Config (Z.of_nat (notifier_fd no)) (Z.of_nat <$> t)))) !! n
  = (if decide (0 <= n)%Z then
       (fun '(e, m) => EpollModel.Item (EpollModel.ctl_word (epoll_interest (Ev (ev_key e) (ev_readable e) (ev_writable e) 0%N) m)) (key_to_u64 (ev_key e)))
       <$> own_entries (PEpoll ep no t) !! (ep, Some (Z.to_nat n))
     else None).
Proof.
  intros N. cbn [own_entries].
  assert (X : forall t', t = Some t' -> t' <> notifier_fd no).
  { intros t' -> ->. cbn in N. apply NoDup_cons in N as [_ N]. apply NoDup_app in N as (_ & N & _). apply (N (notifier_fd no)); [destruct no; by left|by left]. }
  set (k := notifier_fd no) in *. unfold EpollModel.init. cbn [EpollModel.timer EpollModel.notifier EpollModel.kern].
  unfold EpollModel.sys_add. destruct t as [t|]; cbn [fmap option_fmap option_map].
  - specialize (X t eq_refl). unfold EpollModel.ctl_add at 1. cbn [snd].
    unfold EpollModel.ctl_add. cbn [EpollModel.items EpollModel.install]. rewrite lookup_empty. cbn [snd EpollModel.install EpollModel.items].
    rewrite lookup_insert_ne by lia. rewrite lookup_empty. cbn [snd EpollModel.install EpollModel.items].
    destruct (decide (0 <= n)%Z) as [P|P].
    + destruct (decide (Z.of_nat k = n)) as [<-|Y1].
      * rewrite lookup_insert, Nat2Z.id, lookup_insert. done.
      * rewrite lookup_insert_ne by done. rewrite (lookup_insert_ne _ (ep, Some k)) by (intros [= Q]; lia).
        destruct (decide (Z.of_nat t = n)) as [<-|Y2]; [by rewrite lookup_insert, Nat2Z.id, lookup_singleton|].
        rewrite lookup_insert_ne, lookup_empty by done. rewrite lookup_singleton_ne by (intros [= Q]; lia). done.
    + rewrite !lookup_insert_ne, lookup_empty by lia. done.
  - unfold EpollModel.ctl_add. cbn [EpollModel.items EpollModel.install]. rewrite lookup_empty. cbn [snd EpollModel.install EpollModel.items].
    destruct (decide (0 <= n)%Z) as [P|P].
    + destruct (decide (Z.of_nat k = n)) as [<-|Y1].
      * rewrite lookup_insert, Nat2Z.id, lookup_insert. done.
      * rewrite lookup_insert_ne by done. rewrite (lookup_insert_ne _ (ep, Some k)) by (intros [= Q]; lia). by rewrite !lookup_empty.
    + rewrite !lookup_insert_ne, lookup_empty by lia. done.
Qed.

(** ** C89: reasons *)

(** [new] fails only because the kernel refused a call that it cannot do without, during the call, with that error;
    with an error of kind Unsupported where completion ports cannot be used at all ([shown_as]). *)
Theorem C89_reason f w e w' : sane w -> new f w = (Err e, w') ->
  exists d c x, done w' = done w ++ d /\ (c, Some x) ∈ d /\ ~ dispensable f c /\ shown_as c x e.
Proof.
  intros S E. pose proof (new_spec f w S) as G. rewrite E in G. destruct G as (d & I & c & x & H & Z & N). exists d, c, x.
  split; [apply (i_done _ _ _ _ _ I)|done].
Qed.
(** So a kernel without eventfd, timerfd and pipe2 is good enough. *)
Theorem C89_old_kernels f w : sane w -> (forall d c x, done (new f w).2 = done w ++ d -> (c, Some x) ∈ d -> dispensable f c) -> exists p, (new f w).1 = Ok p.
Proof.
  intros S H. destruct (new f w) as [[p|e|] w'] eqn:E; [by exists p| |].
  - exfalso. destruct (C89_reason f w e w' S E) as (d & c & x & D & I & N & _). apply N. by eapply H.
  - exfalso. by apply (C85_never_panics f w w' S).
Qed.

(** ** Examples *)

Definition says (l : list answer) (n : nat) : answer := nth n l (Ans None 0 0).
Definition refuse (e : errno) : answer := Ans (Some e) 0 0.
Definition give (n m : nat) : answer := Ans None n m.
(** The program has standard input, output and error open. *)
Definition fresh (l : list answer) : world := World {[0 := Desc KUser false false; 1 := Desc KUser false false; 2 := Desc KUser false false]} ∅ (says l) 0 [] [].
Lemma fresh_sane l : sane (fresh l).
Proof. intros x [v H]. cbn in H. by rewrite lookup_empty in H. Qed.
Definition fds (w : world) : list (nat * desc) := map_to_list (opened w).

(** Linux, an old kernel: no eventfd, no pipe2; the pipe is made, the second fcntl is refused: everything is closed. *)
Definition unlucky : list answer := [give 3 0; refuse (EOTHER 38); refuse (EOTHER 38); give 4 5; give 0 0; give 0 0; refuse (EOTHER 12)].
Example C85_case : (new Linux (fresh unlucky)).1 = Err (EOs (EOTHER 12))
  /\ (closes (new Linux (fresh unlucky)).2 = [(5, true); (4, true); (3, true)]) /\ length (fds (new Linux (fresh unlucky)).2) = 3.
Proof. split_and!; vm_compute; reflexivity. Qed.
(** Linux, timer registered, but not the notifier: the poller is dropped. *)
Definition late : list answer := [give 3 0; give 4 0; give 5 0; give 0 0; refuse (EOTHER 12); give 0 0; give 0 0].
Example C85_late_case : (new Linux (fresh late)).1 = Err (EOs (EOTHER 12)) /\ (closes (new Linux (fresh late)).2 = [(5, true); (3, true); (4, true)])
  /\ map_to_list (regs (new Linux (fresh late)).2) = [] /\ length (fds (new Linux (fresh late)).2) = 3.
Proof. split_and!; vm_compute; reflexivity. Qed.
(** Linux without eventfd, timerfd and pipe2. *)
Definition old : list answer := [give 3 0; refuse (EOTHER 38); refuse (EOTHER 38); give 4 5; give 0 0; give 0 0; give 0 0; give 0 0; give 0 0; give 0 0; refuse (EOTHER 38); give 0 0].
Example C89_case : (new Linux (fresh old)).1 = Ok (PEpoll 3 (NPipe 4 5) None)
  /\ opened (new Linux (fresh old)).2 !! 4 = Some (Desc KPipeRead true true) /\ opened (new Linux (fresh old)).2 !! 5 = Some (Desc KPipeWrite true false).
Proof. split_and!; vm_compute; reflexivity. Qed.
(** Windows: without the AFD device completion ports are unsupported; when the port is refused the device opened as a test is closed. *)
Definition no_afd : list answer := [give 0 0; refuse (EOTHER 5)].
Definition no_port : list answer := [give 0 0; give 3 0; refuse (EOTHER 8)].
Example C89_iocp_case : (new Iocp (fresh no_afd)).1 = Err (ESimple KUnsupported)
  /\ (new Iocp (fresh no_port)).1 = Err (EOs (EOTHER 8)) /\ (closes (new Iocp (fresh no_port)).2 = [(3, true)])
  /\ (new Iocp (fresh [])).1 = Err (ESimple KUnsupported) /\ (new Iocp (fresh [give 0 0; give 3 0; give 3 0])).1 = Ok (PIocp 3).
Proof. split_and!; vm_compute; reflexivity. Qed.
Definition plenty : list answer := [give 3 0; give 0 0; give 4 5].
Example C87_case : (new KqueuePair (fresh plenty)).1 = Ok (PKqueue 3 (Some (4, 5)))
  /\ opened (new KqueuePair (fresh plenty)).2 !! 4 = Some (Desc KStreamRead true true) /\ opened (new KqueuePair (fresh plenty)).2 !! 3 = Some (Desc KKqueue true false).
Proof. split_and!; vm_compute; reflexivity. Qed.
Example C88_case : (new KqueueUser (fresh plenty)).1 = Ok (PKqueue 3 None) /\ map_to_list (regs (new KqueueUser (fresh plenty)).2) = [((3, None), (Ev NOTIFY_KEY true false tt, Edge))].
Proof. split_and!; vm_compute; reflexivity. Qed.

(** A history: two pollers, the first is dropped, its numbers are given out again, a third fails. *)
Fixpoint run (s : process) (l : list action) : option process :=
  match l with
  | [] => Some s
  | a :: l => match act s a with Some s' => run s' l | None => None end
  end.
Lemma run_history b sc l : forall s s', history b sc s -> run s l = Some s' -> history b sc s'.
Proof.
  induction l as [|a l IH]; intros s s' H E; cbn [run] in E; [by injection E as <-|].
  destruct (act s a) as [s1|] eqn:A; [|done]. eapply IH; [|exact E]. by eapply hist_act.
Qed.
Definition begin (b : list nat) (sc : nat -> answer) : process :=
  Process (World (list_to_map (map (fun n => (n, Desc KUser false false)) b)) ∅ sc 0 [] []) b [].
Definition life : list answer :=
  [give 3 0; give 4 0; give 5 0; give 0 0; give 0 0;       (* Linux: 3, 4, 5 *)
   give 7 8; give 0 0; give 0 0;                           (* poll: 7, 8 *)
   give 0 0; refuse ENOENT;                                (* the first is dropped *)
   give 3 0; give 0 0; give 4 5; give 0 0; refuse (EOTHER 12)]. (* kqueue fails *)
Definition acts : list action :=
  [ANew Linux; AOpen 6; AWatch 0 6 (Ev 1%N true true tt) Level; ANew PollPipe; ADrop 0; AOpen 3; AClose 3; ANew KqueuePair].
Example C86_case : exists s, history [0; 1; 2] (says life) s /\ mine s = [6; 0; 1; 2] /\ pollers s = [None; Some (PPoll (NPipe 7 8))]
  /\ closes (env s) = [(5, true); (3, true); (4, true); (5, true); (4, true); (3, true)] /\ alive s (PPoll (NPipe 7 8)).
Proof.
  destruct (run (begin [0; 1; 2] (says life)) acts) as [s|] eqn:E; [|vm_compute in E; discriminate E]. exists s.
  split; [eapply run_history; [apply hist_start|exact E]|].
  assert (X : (mine <$> run (begin [0; 1; 2] (says life)) acts) = Some [6; 0; 1; 2]) by (vm_compute; reflexivity).
  assert (Y : (pollers <$> run (begin [0; 1; 2] (says life)) acts) = Some [None; Some (PPoll (NPipe 7 8))]) by (vm_compute; reflexivity).
  assert (Z : ((fun s => closes (env s)) <$> run (begin [0; 1; 2] (says life)) acts) = Some [(5, true); (3, true); (4, true); (5, true); (4, true); (3, true)]) by (vm_compute; reflexivity).
  rewrite E in X, Y, Z. cbn in X, Y, Z. injection X as X. injection Y as Y. injection Z as Z. clear E. split; [exact X|]. split; [exact Y|]. split; [exact Z|]. exists 1. by rewrite Y.
Qed.

Print Assumptions C85_failure_leaks_nothing.
Print Assumptions C85_success.
Print Assumptions C85_never_panics.
Print Assumptions C86_drop.
Print Assumptions C86_histories.
Print Assumptions C86_nothing_left.
Print Assumptions C86_sane.
Print Assumptions C87_flags.
Print Assumptions C88_watches.
Print Assumptions C88_epoll_starts.
Print Assumptions C89_reason.
Print Assumptions C89_old_kernels.
