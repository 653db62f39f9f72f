(** C96: wait() waits as long as it was told to. *)
From Coq Require Import ZArith NArith Lia List.
From Verif Require Import Types TimeModel TimeSpec LibModel LibSpec TimedModel TimedSpec TimedProofs.
Import ListNotations.
Open Scope Z_scope.

(** A wait that returns does so because of its last turn: either it was woken, or the timeout has passed since the call.
    Missing: timeouts of more than 2^31-1 milliseconds on epoll without a timerfd and on poll (see the refutation). *)
Theorem C96_not_early_partial : forall (X : Type) b start d (ts : list (turn X)) c nf n,
  0 <= start -> wf_duration d -> fits b d ->
  let o := lib_wait unix_instant_max false start (Some d) (map attempt_of ts) c nf in
  (forall i x t, nth_error ts i = Some x -> nth_error (wo_timeouts o) i = Some t ->
     start <= t_now x /\ honest (told unix_instant_max b t x) x) ->
  wo_res o = Some (Ok n) ->
  exists i x, S i = length (wo_timeouts o) /\ nth_error ts i = Some x /\
    ((exists l, t_end x = Woken l) \/ start + ns d <= t_back x).
Proof.
  intros X b start d ts c nf n S W F o K R. destruct (wait_last _ _ _ _ _ R) as (i & x & t & A & B & C & D).
  exists i, x. split; [exact A|]. split; [exact B|]. destruct D as [D|D]; [right|left; exact D].
  destruct (K i x t B C) as [K1 K2]. exact (not_early b start d ts c nf i t x S W F B C K2 K1 D).
Qed.
(** Without a timeout, or with one that no clock can hold, it returns only because it was woken. *)
Theorem C96_no_timeout : forall (X : Type) b start timeout (ts : list (turn X)) c nf n,
  (forall d, timeout = Some d -> wf_duration d /\ unix_instant_max < start + ns d) ->
  let o := lib_wait unix_instant_max false start timeout (map attempt_of ts) c nf in
  (forall i x t, nth_error ts i = Some x -> nth_error (wo_timeouts o) i = Some t -> honest (told unix_instant_max b t x) x) ->
  wo_res o = Some (Ok n) ->
  exists i x l, S i = length (wo_timeouts o) /\ nth_error ts i = Some x /\ t_end x = Woken l.
Proof.
  intros X b start timeout ts c nf n F o K R. destruct (wait_last _ _ _ _ _ R) as (i & x & t & A & B & C & D).
  destruct D as [D|[l D]]; [exfalso|exists i, x, l; auto]. destruct (K i x t B C) as (_ & _ & _ & K1). destruct (K1 D) as (m & T & _).
  assert (t = None) as ->; [|destruct b; discriminate T].
  destruct timeout as [d|].
  - destruct (F d eq_refl) as [W M]. destruct (LibProofs.wait_one_deadline _ _ _ _ _ _ _ _ W C) as (a & Ha & Ht). destruct t as [l|]; [|reflexivity]. exfalso.
    unfold o, lib_wait in C. destruct (LibProofs.wait_timeouts _ _ _ _ _ _ C) as (a' & _ & E). unfold deadline_of, checked_add in E. change (dur_nanos d) with (ns d) in E.
    destruct (start + ns d <=? unix_instant_max) eqn:Q; [apply Z.leb_le in Q; lia|discriminate E].
  - exact (LibProofs.wait_no_timeout _ _ _ _ _ _ _ C).
Qed.
(** No turn lasts longer than until the deadline, one millisecond of rounding, the time that passes before the system call
    is made, and the system's own delay.  Missing: timeouts of 2^32-1 milliseconds or more on completion ports (refuted
    below). *)
Theorem C96_not_late_partial : forall (X : Type) b start d (ts : list (turn X)) c nf i t x slack,
  0 <= start -> wf_duration d -> nth_error ts i = Some x ->
  t_at x + ns d <= unix_instant_max -> (b = Iocp -> ns d < (u32_max - 1) * 1000000) ->
  nth_error (wo_timeouts (lib_wait unix_instant_max false start (Some d) (map attempt_of ts) c nf)) i = Some t ->
  start <= t_now x -> honest (told unix_instant_max b t x) x -> prompt slack (told unix_instant_max b t x) x ->
  t_back x < Z.max (start + ns d) (t_now x) + 1000000 + (t_at x - t_now x) + slack.
Proof.
  intros X b start d ts c nf i t x slack S W E M IO H G K P. destruct (K) as (K1 & K2 & K3 & _).
  apply (not_late b start d ts c nf i t x slack); try assumption. lia.
Qed.
(** After 2^31-1 milliseconds, wait(25 days) gives up on epoll without a timerfd and on poll, although nothing has happened. *)
Theorem C96_refuted : forall b, b = EpollMs \/ b = Poll ->
  exists start d (ts : list (turn N)) x,
    0 <= start /\ wf_duration d /\ ts = [x] /\ t_end x = TimeUp /\ t_back x < start + ns d /\
    let o := lib_wait unix_instant_max false start (Some d) (map attempt_of ts) [] false in
    wo_res o = Some (Ok 0%N) /\
    (forall i y t, nth_error ts i = Some y -> nth_error (wo_timeouts o) i = Some t -> start <= t_now y /\ honest (told unix_instant_max b t y) y).
Proof.
  intros b Hb. exists 0, (Dur 2160000 0), [Turn 0 0 0 0 2147483647000000 TimeUp], (Turn 0 0 0 0 2147483647000000 TimeUp).
  split; [lia|]. split; [unfold wf_duration, u64_max; cbn; lia|]. split; [reflexivity|]. split; [reflexivity|]. split; [unfold ns; cbn; lia|].
  split; [vm_compute; reflexivity|]. intros i y t Hi Ht. destruct i as [|[|i]]; [|discriminate|discriminate]. injection Hi as <-.
  vm_compute in Ht. injection Ht as <-. split; [cbn; lia|]. unfold honest. cbn [t_now t_start t_read t_at t_back t_end]. split; [lia|]. split; [lia|]. split; [lia|].
  intros _. exists 2147483647000000. split; [|lia]. destruct Hb as [-> | ->]; vm_compute; reflexivity.
Qed.
(** On completion ports a timeout of 50 days is no limit: however prompt the system, the wait may last until it is woken. *)
Theorem C96_late_refuted : exists start d, 0 <= start /\ wf_duration d /\ start + ns d <= unix_instant_max /\
  forall late, 0 <= late -> exists (x : turn N) t l,
    let o := lib_wait unix_instant_max false start (Some d) (map attempt_of [x]) [] false in
    wo_timeouts o = [t] /\ start <= t_now x /\ honest (told unix_instant_max Iocp t x) x /\ prompt 0 (told unix_instant_max Iocp t x) x
    /\ t_end x = Woken l /\ t_at x = start /\ late <= t_back x.
Proof.
  exists 0, (Dur 4320000 0). split; [lia|]. split; [unfold wf_duration, u64_max; cbn; lia|]. split; [vm_compute; discriminate|].
  intros late L. exists (Turn 0 0 0 0 late (Woken [])), (Some (Dur 4320000 0)), []. split; [vm_compute; reflexivity|].
  split; [cbn; lia|]. assert (E : told unix_instant_max Iocp (Some (Dur 4320000 0)) (Turn 0 0 0 0 late (@Woken N [])) = Forever) by (vm_compute; reflexivity).
  rewrite E. split; [|split; [intros n Hn; discriminate|cbn; auto using Z.le_refl]].
  unfold honest. cbn [t_now t_start t_read t_at t_back t_end]. split; [lia|]. split; [lia|]. split; [lia|]. discriminate.
Qed.
Print Assumptions C96_late_refuted.
Print Assumptions C96_not_early_partial.
Print Assumptions C96_no_timeout.
Print Assumptions C96_not_late_partial.
Print Assumptions C96_refuted.

(** Interrupted once, then the time is up: 1.5 ms asked for at 10, a signal at 400000, on every backend. *)
Example C96_case : forall b, exists start d (ts : list (turn N)) x,
  0 <= start /\ wf_duration d /\ fits b d /\ nth_error ts 1 = Some x /\ t_end x = TimeUp /\
  let o := lib_wait unix_instant_max false start (Some d) (map attempt_of ts) [] false in
  wo_res o = Some (Ok 0%N) /\
  (forall i y t, nth_error ts i = Some y -> nth_error (wo_timeouts o) i = Some t ->
     start <= t_now y /\ honest (told unix_instant_max b t y) y /\ prompt 1000000 (told unix_instant_max b t y) y).
Proof.
  intros b. exists 10, (Dur 0 1500000), [Turn 20 20 20 30 400000 Signal; Turn 400010 400010 400010 400020 2400020 TimeUp], (Turn 400010 400010 400010 400020 2400020 TimeUp).
  split; [lia|]. split; [unfold wf_duration, u64_max; cbn; lia|]. split; [destruct b; vm_compute; try exact I; discriminate|]. split; [reflexivity|]. split; [reflexivity|].
  split; [vm_compute; reflexivity|]. intros i y t Hi Ht. destruct i as [|[|i]]; [| |destruct i; discriminate Hi].
  - injection Hi as <-. vm_compute in Ht. injection Ht as <-. split; [cbn; lia|]. split.
    + unfold honest. cbn [t_now t_start t_read t_at t_back t_end]. split; [lia|]. split; [lia|]. split; [lia|]. discriminate.
    + intros n. cbn [t_at t_back]. destruct b; intros E; vm_compute in E; injection E as <-; lia.
  - injection Hi as <-. vm_compute in Ht. injection Ht as <-. split; [cbn; lia|]. split.
    + unfold honest. cbn [t_now t_start t_read t_at t_back t_end]. split; [lia|]. split; [lia|]. split; [lia|]. intros _.
      exists (match b with EpollTimer | Kqueue | Port => 1100000 | _ => 2000000 end). destruct b; (split; [vm_compute; reflexivity|cbn; lia]).
    + intros n. cbn [t_at t_back]. destruct b; intros E; vm_compute in E; injection E as <-; lia.
Qed.
