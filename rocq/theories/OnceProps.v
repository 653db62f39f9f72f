(** C99: the functions of the system are looked up once, and every call has the same answer. *)
From stdpp Require Import prelude list.
From Verif Require Import Types OnceModel.
Local Open Scope nat_scope.

(** ** Specification *)

Inductive reachable (n : nat) : state -> Prop :=
| reach_start : reachable n (start n)
| reach_step s l s' : reachable n s -> step s l = Some s' -> reachable n s'.

(** The questions put to the system, with the answers. *)
Definition question (o : obs) : list (query * answer) := match o with Asked q a => [(q, a)] | _ => [] end.
Definition questions (h : list obs) : list (query * answer) := concat (map question h).
Global Arguments questions : simpl never.

(** What they amount to: all were answered, in order; or the last was refused. *)
Definition amounts (qs : list (query * answer)) (r : res (list N)) : Prop :=
  (exists m a1 a2 a3 a4, r = Ok [a1; a2; a3; a4] /\
     qs = [(Module, Found m); (Proc NtCancelIoFileEx, Found a1); (Proc NtCreateFile, Found a2);
           (Proc NtDeviceIoControlFile, Found a3); (Proc RtlNtStatusToDosError, Found a4)]) \/
  (exists qs' q e, r = Err (ESimple (kind (EOs e))) /\ qs = qs' ++ [(q, Refused e)]).

(** ** Proofs *)

Definition initialising (p : pc) : bool := match p with AskModule | AskNext _ | Store _ | Leave => true | _ => false end.
Definition found (m : N) (fs : list N) : list (query * answer) :=
  (Module, Found m) :: zip_with (fun f a => (Proc f, Found a)) names fs.
Global Arguments found : simpl never.
(** The questions asked so far by the thread that initialises the cell. *)
Definition progress (p : pc) (v : option cell) (qs : list (query * answer)) : Prop :=
  match p with
  | AskModule => qs = []
  | AskNext fs => length fs <= 4 /\ exists m, qs = found m fs
  | Store v => amounts qs (given v)
  | Leave => exists x, v = Some x /\ amounts qs (given x)
  | _ => False
  end.
Record inv (s : state) : Prop := {
  i_flag : match flag s with
           | Incomplete => questions (log s) = []
           | Running => exists i p, threads s !! i = Some p /\ progress p (value s) (questions (log s))
           | Complete => exists v, value s = Some v /\ amounts (questions (log s)) (given v)
           end;
  i_one : forall i p, threads s !! i = Some p -> initialising p = true -> flag s = Running /\
            forall j q, threads s !! j = Some q -> initialising q = true -> i = j;
  i_read : forall i, threads s !! i = Some Read -> flag s = Complete;
  i_got : forall i r, Got i r ∈ log s -> flag s = Complete /\ r = given <$> value s;
}.
Lemma progress_initialising p v qs : progress p v qs -> initialising p = true.
Proof. by destruct p. Qed.
Lemma questions_snoc h o : questions (h ++ [o]) = questions h ++ question o.
Proof. unfold questions. by rewrite map_app, concat_app, <- (app_nil_r (question o)) at 1. Qed.
Lemma found_snoc m fs x f : names !! length fs = Some f -> found m (fs ++ [x]) = found m fs ++ [(Proc f, Found x)].
Proof. destruct fs as [|a [|b [|c [|d [|]]]]]; unfold found; cbn; intros H; try done; by injection H as <-. Qed.
Lemma found_amounts m fs : length fs <= 4 -> names !! length fs = None -> amounts (found m fs) (Ok fs).
Proof.
  destruct fs as [|a [|b [|c [|d [|]]]]]; unfold found; cbn; intros L H; try done; [|lia]. left. by eexists m, a, b, c, d.
Qed.
Lemma inv_step s l s' : inv s -> step s l = Some s' -> inv s'.
Proof.
  intros [F O R G] E. destruct l as [i|i a]; cbn [step] in E.
  - destruct (threads s !! i) as [[]|] eqn:Hi; try done. injection E as <-. split; cbn.
    + rewrite questions_snoc, app_nil_r. destruct (flag s); [done| |done]. destruct F as (j & p & Hj & Hp). exists j, p. split; [|done].
      rewrite list_lookup_insert_ne; [done|]. intros ->. rewrite Hi in Hj. injection Hj as <-. done.
    + intros j p Hj Hp. apply list_lookup_insert_Some in Hj as [(-> & <- & _)|[N Hj]]; [done|]. destruct (O _ _ Hj Hp) as [Z O']. split; [done|].
      intros k q Hk Hq. apply list_lookup_insert_Some in Hk as [(-> & <- & _)|[N' Hk]]; [done|]. by eapply O'.
    + intros j Hj. apply list_lookup_insert_Some in Hj as [(-> & ? & _)|[N Hj]]; [done|]. by eapply R.
    + intros j r [Hj|Hj%elem_of_list_singleton]%elem_of_app; [|done]. by eapply G.
  - destruct (threads s !! i) as [p|] eqn:Hi; [|done]. cbn in E. pose proof (lookup_lt_Some _ _ _ Hi) as Li.
    assert (Hin : initialising p = true -> flag s = Running /\ progress p (value s) (questions (log s))
               /\ (forall j q, threads s !! j = Some q -> initialising q = true -> i = j) /\ (forall j r, Got j r ∉ log s)).
    { intros Hp. destruct (O _ _ Hi Hp) as [Z O']. rewrite Z in F. destruct F as (j & q & Hj & Hq).
      assert (i = j) as <- by (eapply O'; [done|by eapply progress_initialising]). rewrite Hi in Hj. injection Hj as <-.
      split_and!; [done|done|done|]. intros j r Hg. apply G in Hg as [Hg _]. congruence. }
    destruct p as [| | |fs|v| |]; cbn [thread_step] in E; try done.
    + destruct (flag s) eqn:Z; [|done|].
      * injection E as <-. split; cbn.
        -- exists i, AskModule. rewrite list_lookup_insert by done. done.
        -- intros j p Hj Hp. apply list_lookup_insert_Some in Hj as [(<- & <- & _)|[N Hj]]; [|by destruct (O _ _ Hj Hp)]. split; [done|].
           intros k q Hk Hq. apply list_lookup_insert_Some in Hk as [(-> & <- & _)|[N' Hk]]; [done|]. by destruct (O _ _ Hk Hq).
        -- intros j Hj. apply list_lookup_insert_Some in Hj as [(-> & ? & _)|[N Hj]]; [done|]. apply R in Hj. done.
        -- intros j r Hj. apply G in Hj as [? _]. done.
      * injection E as <-. split; cbn; rewrite ?Z.
        -- done.
        -- intros j p Hj Hp. apply list_lookup_insert_Some in Hj as [(-> & <- & _)|[N Hj]]; [done|]. by destruct (O _ _ Hj Hp).
        -- done.
        -- intros j r Hj. by apply G in Hj.
    + destruct (Hin eq_refl) as (Z & P & O' & NG). cbn in P. injection E as <-. split; cbn; rewrite ?Z.
      * eexists i, _. rewrite list_lookup_insert by done. split; [done|]. rewrite questions_snoc, P. destruct a as [x|e]; cbn.
        -- split; [lia|]. exists x. unfold found. by cbn.
        -- right. by exists [], Module, e.
      * intros j p Hj Hp. apply list_lookup_insert_Some in Hj as [(<- & <- & _)|[N Hj]]; [|specialize (O' _ _ Hj Hp); done]. split; [done|].
        intros k q Hk Hq. apply list_lookup_insert_Some in Hk as [(-> & <- & _)|[N' Hk]]; [done|]. by eapply O'.
      * intros j Hj. apply list_lookup_insert_Some in Hj as [(-> & ? & _)|[N Hj]]; [by destruct a|]. apply R in Hj. congruence.
      * intros j r [Hj|Hj%elem_of_list_singleton]%elem_of_app; [|done]. by apply NG in Hj.
    + destruct (Hin eq_refl) as (Z & P & O' & NG). cbn in P. destruct P as (L4 & m & P).
      destruct (names !! length fs) as [f|] eqn:Nf; injection E as <-.
      * split; cbn; rewrite ?Z.
        -- eexists i, _. rewrite list_lookup_insert by done. split; [done|]. rewrite questions_snoc, P. destruct a as [x|e]; cbn.
           ++ split; [|exists m; symmetry; by apply found_snoc]. rewrite app_length. apply lookup_lt_Some in Nf. cbn in *. lia.
           ++ right. by eexists _, (Proc f), e.
        -- intros j p Hj Hp. apply list_lookup_insert_Some in Hj as [(<- & <- & _)|[N Hj]]; [|specialize (O' _ _ Hj Hp); done]. split; [done|].
           intros k q Hk Hq. apply list_lookup_insert_Some in Hk as [(-> & <- & _)|[N' Hk]]; [done|]. by eapply O'.
        -- intros j Hj. apply list_lookup_insert_Some in Hj as [(-> & ? & _)|[N Hj]]; [by destruct a|]. apply R in Hj. congruence.
        -- intros j r [Hj|Hj%elem_of_list_singleton]%elem_of_app; [|done]. by apply NG in Hj.
      * split; cbn; rewrite ?Z.
        -- eexists i, _. rewrite list_lookup_insert by done. split; [done|]. rewrite P. cbn. by apply found_amounts.
        -- intros j p Hj Hp. apply list_lookup_insert_Some in Hj as [(<- & <- & _)|[N Hj]]; [|specialize (O' _ _ Hj Hp); done]. split; [done|].
           intros k q Hk Hq. apply list_lookup_insert_Some in Hk as [(-> & <- & _)|[N' Hk]]; [done|]. by eapply O'.
        -- intros j Hj. apply list_lookup_insert_Some in Hj as [(-> & ? & _)|[N Hj]]; [done|]. apply R in Hj. congruence.
        -- intros j r Hj. by apply NG in Hj.
    + destruct (Hin eq_refl) as (Z & P & O' & NG). cbn in P. injection E as <-. split; cbn; rewrite ?Z.
      * eexists i, _. rewrite list_lookup_insert by done. split; [done|]. cbn. eauto.
      * intros j p Hj Hp. apply list_lookup_insert_Some in Hj as [(<- & <- & _)|[N Hj]]; [|specialize (O' _ _ Hj Hp); done]. split; [done|].
        intros k q Hk Hq. apply list_lookup_insert_Some in Hk as [(-> & <- & _)|[N' Hk]]; [done|]. by eapply O'.
      * intros j Hj. apply list_lookup_insert_Some in Hj as [(-> & ? & _)|[N Hj]]; [done|]. apply R in Hj. congruence.
      * intros j r Hj. by apply NG in Hj.
    + destruct (Hin eq_refl) as (Z & P & O' & NG). cbn in P. injection E as <-. split; cbn.
      * done.
      * intros j p Hj Hp. apply list_lookup_insert_Some in Hj as [(<- & <- & _)|[N Hj]]; [done|specialize (O' _ _ Hj Hp); done].
      * done.
      * intros j r Hj. by apply NG in Hj.
    + pose proof (R _ Hi) as Z. injection E as <-. split; cbn; rewrite ?Z in *.
      * by rewrite questions_snoc, app_nil_r.
      * intros j p Hj Hp. apply list_lookup_insert_Some in Hj as [(<- & <- & _)|[N Hj]]; [done|]. by destruct (O _ _ Hj Hp).
      * done.
      * intros j r [Hj|Hj%elem_of_list_singleton]%elem_of_app; [by eapply G|]. by injection Hj as -> ->.
Qed.
Lemma inv_reach n s : reachable n s -> inv s.
Proof.
  induction 1 as [|s l s' R IH E]; [|by eapply inv_step]. split; cbn; try done.
  - intros i p [-> _]%lookup_replicate. done.
  - intros i [? _]%lookup_replicate. done.
  - intros i r H. by apply not_elem_of_nil in H.
Qed.

(** ** Theorems *)

(** Every call returns the same, and what it returns was written before. *)
Theorem C99_same_answer n s i r j r' : reachable n s -> Got i r ∈ log s -> Got j r' ∈ log s -> r = r' /\ r <> None.
Proof.
  intros R Hi Hj. destruct (inv_reach _ _ R) as [F _ _ G]. destruct (G _ _ Hi) as [Z ->]. destruct (G _ _ Hj) as [_ ->].
  rewrite Z in F. destruct F as (v & -> & _). done.
Qed.
(** It is what the answers of the system amount to.  These are all its answers: nothing was asked twice. *)
Theorem C99_decided_by_system n s i r : reachable n s -> Got i r ∈ log s ->
  exists x, r = Some x /\ amounts (questions (log s)) x.
Proof.
  intros R Hi. destruct (inv_reach _ _ R) as [F _ _ G]. destruct (G _ _ Hi) as [Z ->]. rewrite Z in F. destruct F as (v & -> & A). by exists (given v).
Qed.
(** So if one call succeeded, which [new()] makes sure of, no call fails, at any later time. *)
Theorem C99_never_fails_later n s i fs j e : reachable n s -> Got i (Some (Ok fs)) ∈ log s -> Got j (Some (Err e)) ∉ log s.
Proof. intros R Hi Hj. by destruct (C99_same_answer _ _ _ _ _ _ R Hi Hj) as [? _]. Qed.

(** Nobody waits for ever: the steps of all calls are bounded, and while a call has not returned, some call can go on,
    whatever the system answers. *)
Definition todo (p : pc) : nat :=
  match p with Out => 0 | Read => 1 | Enter => 10 | Leave => 2 | Store _ => 3 | AskNext fs => 8 - length fs | AskModule => 9 end.
Fixpoint total (l : list pc) : nat := match l with [] => 0 | p :: r => todo p + total r end.
Definition work (s : state) : nat := total (threads s).
Lemma total_le l : total l <= 10 * length l.
Proof. induction l as [|p l IH]; [cbn; lia|]. cbn [total length]. assert (todo p <= 10) by (destruct p; cbn [todo]; lia). lia. Qed.
Lemma total_insert l i p q : l !! i = Some p -> total (<[i:=q]> l) + todo p = total l + todo q.
Proof.
  revert i; induction l as [|x l IH]; intros [|i] H; try done; cbn [total insert list_insert lookup list_lookup] in *; [injection H as ->; lia|].
  specialize (IH _ H). unfold insert in *. lia.
Qed.
Lemma work_step n s i a s' : reachable n s -> step s (LGo i a) = Some s' -> work s' < work s.
Proof.
  intros R E. destruct (inv_reach _ _ R) as [F O _ _]. cbn [step] in E. destruct (threads s !! i) as [p|] eqn:Hi; [|done]. cbn in E.
  assert (forall q, todo q < todo p -> total (<[i:=q]> (threads s)) < work s) as K.
  { intros q Hq. pose proof (total_insert _ _ _ q Hi). unfold work. lia. }
  destruct p as [| | |fs|v| |]; cbn [thread_step] in E; try done.
  - destruct (flag s); [|done|]; injection E as <-; apply K; cbn; lia.
  - injection E as <-. destruct a; apply K; cbn; lia.
  - destruct (O _ _ Hi eq_refl) as [Z O']. rewrite Z in F. destruct F as (j & q & Hj & Hq).
    assert (i = j) as <- by (eapply O'; [done|by eapply progress_initialising]). rewrite Hi in Hj. injection Hj as <-. destruct Hq as [L4 _].
    destruct (names !! length fs) eqn:Nf; injection E as <-; [|apply K; cbn [todo]; lia].
    destruct a; apply K; cbn [todo]; [|lia]. apply lookup_lt_Some in Nf. cbn in Nf. rewrite app_length. cbn. lia.
  - injection E as <-. apply K. cbn. lia.
  - injection E as <-. apply K. cbn. lia.
  - injection E as <-. apply K. cbn. lia.
Qed.
(** [k] steps of calls that are under way. *)
Inductive goes : nat -> state -> state -> Prop :=
| goes_nil s : goes 0 s s
| goes_step k s s1 i a s2 : goes k s s1 -> step s1 (LGo i a) = Some s2 -> goes (S k) s s2.
Theorem C99_returns n s k s' : reachable n s -> goes k s s' ->
  k <= 10 * n /\ ((forall i p, threads s' !! i = Some p -> p = Out) \/ forall a, exists i s2, step s' (LGo i a) = Some s2).
Proof.
  intros R G.
  assert (reachable n s' /\ k + work s' <= work s) as [R' W].
  { induction G as [|k s s1 i a s2 G IH E]; [split; [done|lia]|]. destruct (IH R) as [R1 W1]. split; [by econstructor|].
    pose proof (work_step _ _ _ _ _ R1 E). lia. }
  assert (work s <= 10 * n) as B.
  { assert (length (threads s) = n) as <-.
    { clear - R. induction R as [|s l s' R IH E]; [cbn; by rewrite replicate_length|]. destruct l as [i|i a]; cbn [step] in E.
      - destruct (threads s !! i) as [[]|]; try done. injection E as <-. cbn. by rewrite insert_length.
      - destruct (threads s !! i) as [p|]; [|done]. cbn in E.
        destruct p as [| | |fs|v| |]; cbn [thread_step] in E; repeat case_match; try done; injection E as <-; cbn; by rewrite insert_length. }
    apply total_le. }
  split; [lia|].
  destruct (inv_reach _ _ R') as [F O Rd _].
  destruct (decide (Forall (fun p => match p with Out => true | _ => false end = true) (threads s'))) as [A|A].
  - left. intros i p Hi. rewrite Forall_lookup in A. specialize (A _ _ Hi). by destruct p.
  - right. intros a. apply not_Forall_Exists in A; [|apply _]. apply Exists_exists in A as (p & [i Hi]%elem_of_list_lookup & Hp). cbn in Hp.
    assert (forall i p, threads s' !! i = Some p -> initialising p = true -> exists i s2, step s' (LGo i a) = Some s2) as K.
    { clear i p Hi Hp. intros i p Hi Hp. exists i. cbn [step]. rewrite Hi. cbn. destruct p as [| | |fs|v| |]; try done; cbn [thread_step]; eauto; destruct (names !! length fs); eauto. }
    destruct (flag s') eqn:Z.
    + exists i. cbn [step]. rewrite Hi. cbn. destruct p as [| | |fs|v| |]; try done; cbn [thread_step]; rewrite ?Z; eauto; destruct (names !! length fs); eauto.
    + destruct F as (j & q & Hj & Hq). eapply K; [exact Hj|by eapply progress_initialising].
    + exists i. cbn [step]. rewrite Hi. cbn. destruct p as [| | |fs|v| |]; try done; cbn [thread_step]; rewrite ?Z; eauto; destruct (names !! length fs); eauto.
Qed.

(** Cases: two threads race, one looks the functions up, both get them; and a lookup that is refused. *)
Lemma run_reach n ls : forall s s', reachable n s -> run s ls = Some s' -> reachable n s'.
Proof.
  induction ls as [|l ls IH]; intros s s' R H; cbn [run] in H; [by injection H as <-|]. destruct (step s l) eqn:E; [|done].
  eapply IH; [|done]. by econstructor.
Qed.
Definition race : list label :=
  [LCall 0; LCall 1; LGo 1 (Found 0); LGo 1 (Found 5); LGo 1 (Found 11); LGo 1 (Found 12); LGo 1 (Found 13); LGo 1 (Found 14);
   LGo 1 (Found 0); LGo 1 (Found 0); LGo 1 (Found 0); LGo 0 (Found 0); LGo 1 (Found 0); LGo 0 (Found 0)].
Example C99_case : exists s, reachable 2 s /\ Got 0 (Some (Ok [11; 12; 13; 14]%N)) ∈ log s /\ Got 1 (Some (Ok [11; 12; 13; 14]%N)) ∈ log s.
Proof.
  destruct (run (start 2) race) as [s|] eqn:E; vm_compute in E; [|done]. exists s.
  split; [eapply (run_reach 2 race); [constructor|]; vm_compute; done|]. injection E as <-. cbn. split; repeat first [apply elem_of_list_here | apply elem_of_list_further].
Qed.
Example C99_refused_case : exists s, reachable 2 s /\ Got 0 (Some (Err (ESimple KOther))) ∈ log s /\ Asked (Proc NtCreateFile) (Refused (EOTHER 127)) ∈ log s.
Proof.
  destruct (run (start 2) [LCall 0; LGo 0 (Found 0); LGo 0 (Found 5); LGo 0 (Found 11); LGo 0 (Refused (EOTHER 127)); LGo 0 (Found 0); LGo 0 (Found 0); LGo 0 (Found 0)]) as [s|] eqn:E;
    vm_compute in E; [|done]. exists s.
  split; [eapply (run_reach 2 [LCall 0; LGo 0 (Found 0); LGo 0 (Found 5); LGo 0 (Found 11); LGo 0 (Refused (EOTHER 127)); LGo 0 (Found 0); LGo 0 (Found 0); LGo 0 (Found 0)]); [constructor|]; vm_compute; done|].
  injection E as <-. cbn. split; repeat first [apply elem_of_list_here | apply elem_of_list_further].
Qed.
Example C99_returns_case : exists s i, reachable 2 s /\ threads s !! i = Some Enter /\ flag s = Running.
Proof.
  destruct (run (start 2) (take 4 race)) as [s|] eqn:E; vm_compute in E; [|done]. exists s, 0.
  split; [eapply (run_reach 2 (take 4 race)); [constructor|]; vm_compute; done|]. by injection E as <-.
Qed.

Print Assumptions C99_same_answer.
Print Assumptions C99_decided_by_system.
Print Assumptions C99_never_fails_later.
Print Assumptions C99_returns.
Print Assumptions C99_case.
Print Assumptions C99_refused_case.
Print Assumptions C99_returns_case.
