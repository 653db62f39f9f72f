(** C104: the safety contract of add is what makes events trustworthy. *)
From stdpp Require Import prelude list gmap.
From Verif Require Import Types EventModel FileModel FileSpec.
Local Open Scope nat_scope.

Lemma file_snoc fd h o : file_at fd (h ++ [o]) = file_step fd (file_at fd h) o.
Proof. unfold file_at. by rewrite fold_left_app. Qed.
Lemma asked_file fd h : (fold_left (asked_step fd) h (None, None)).1 = file_at fd h.
Proof. induction h as [|o h IH] using rev_ind; [done|]. rewrite file_snoc, fold_left_app. cbn [fold_left asked_step fst]. by rewrite IH. Qed.
Lemma asked_snoc fd h o : asked fd (h ++ [o]) =
  match o with
  | AddRet g k (Ok _) | ModifyRet g k (Ok _) => if decide (g = fd) then Some (k, file_at fd h) else asked fd h
  | DeleteRet g (Ok _) => if decide (g = fd) then None else asked fd h
  | _ => asked fd h
  end.
Proof. unfold asked. rewrite fold_left_app. cbn [fold_left]. unfold asked_step at 1. cbn [snd]. by rewrite asked_file. Qed.

Lemma contract_snoc h o : contract (h ++ [o]) -> contract h /\
  match o with
  | AddRet fd _ _ | ModifyRet fd _ _ => file_at fd h <> None
  | Closed fd => asked fd h = None
  | _ => True
  end.
Proof.
  intros H. split; [|by eapply (H h o [])]. intros h1 o1 h2 ->. eapply (H h1 o1 (h2 ++ [o])). by rewrite <- app_assoc.
Qed.

(** The log describes the descriptors. *)
Lemma fds_log b s h : run b s h -> forall fd, fds s !! fd = file_at fd h.
Proof.
  induction 1 as [|s h l s' o Hr IH Hs]; intros fd; [done|]. rewrite file_snoc, <- IH. clear Hr IH.
  destruct l as [g|g g'|g|g k x|g k x|g x|[g f]]; cbn [step] in Hs.
  - destruct (fds s !! g) eqn:E; [done|]. injection Hs as <- <-. cbn. case_decide; subst; by rewrite ?lookup_insert, ?lookup_insert_ne.
  - destruct (fds s !! g) eqn:E; [|done]. destruct (fds s !! g') eqn:E'; [done|]. injection Hs as <- <-. cbn.
    case_decide; subst; by rewrite ?lookup_insert, ?lookup_insert_ne.
  - destruct (fds s !! g) eqn:E; [|done]. injection Hs as <- <-. unfold close. rewrite E. cbn.
    case_decide; subst; by rewrite ?lookup_delete, ?lookup_delete_ne.
  - destruct (add b s g k x) as [r t] eqn:E. injection Hs as <- <-. cbn.
    unfold add in E. repeat case_match; by simplify_eq.
  - destruct (modify b s g k x) as [r t] eqn:E. injection Hs as <- <-. cbn.
    unfold modify in E. repeat case_match; by simplify_eq.
  - destruct (delete b s g x) as [r t] eqn:E. injection Hs as <- <-. cbn.
    unfold delete in E. repeat case_match; by simplify_eq.
  - destruct (regs s !! (g, f)); [|done]. by injection Hs as <- <-.
Qed.

(** Under the contract registrations are those that were asked for. *)
Record good (b : backend) (s : state) (h : list obs) : Prop := Good {
  gd_reg : forall fd x k, regs s !! (fd, x) = Some k ->
    exists f, asked fd h = Some (k, Some f) /\ (fd, x) = ident b fd f;
  gd_file : forall fd k x, asked fd h = Some (k, x) -> exists f, x = Some f /\ file_at fd h = Some f
}.

(** What a call does to the registrations, and what it answers. *)
Definition put (b : backend) (s s' : state) (fd : Z) (k : N) (r : res unit) : Prop :=
  match r with
  | Ok _ => forall f, fds s !! fd = Some f -> regs s' = <[ident b fd f := k]> (regs s)
  | _ => regs s' = regs s
  end.
Lemma add_put b s fd k x : put b s (add b s fd k x).2 fd k (add b s fd k x).1.
Proof. destruct b; cbn [add]; repeat case_match; cbn; try done; intros f' E; by simplify_eq. Qed.
Lemma modify_put b s fd k x : put b s (modify b s fd k x).2 fd k (modify b s fd k x).1.
Proof. destruct b; cbn [modify]; repeat case_match; cbn; try done; intros f' E; by simplify_eq. Qed.
Lemma delete_put b s fd x :
  match (delete b s fd x).1 with
  | Ok _ => forall f, fds s !! fd = Some f -> regs (delete b s fd x).2 = base.delete (ident b fd f) (regs s)
  | _ => regs (delete b s fd x).2 = regs s
  end.
Proof. destruct b; cbn [delete]; repeat case_match; cbn; try done; intros f' E; by simplify_eq. Qed.
Lemma delete_same b s fd x : fds (delete b s fd x).2 = fds s.
Proof. destruct b; cbn [delete]; by repeat case_match. Qed.


Lemma good_put b s s' h fd k r (o : obs) :
  good b s h -> (forall g, fds s !! g = file_at g h) -> put b s s' fd k r -> file_at fd h <> None ->
  o = AddRet fd k r \/ o = ModifyRet fd k r -> good b s' (h ++ [o]).
Proof.
  intros [G1 G2] Hf Hp Hn Ho.
  assert (HF : forall g, file_at g (h ++ [o]) = file_at g h) by (intros g; rewrite file_snoc; by destruct Ho as [-> | ->]).
  assert (HA : forall g, asked g (h ++ [o]) =
     match r with Ok _ => if decide (fd = g) then Some (k, file_at g h) else asked g h | _ => asked g h end)
    by (intros g; rewrite asked_snoc; by destruct Ho as [-> | ->]).
  destruct (file_at fd h) as [f|] eqn:Ef; [|done]. destruct r as [u|e|].
  - cbn in Hp. assert (Hfd : fds s !! fd = Some f) by by rewrite Hf.
    specialize (Hp f Hfd). split.
    + intros g x k' H. rewrite HA, Hp in *. destruct (decide ((g, x) = ident b fd f)) as [E|E].
      * rewrite E, lookup_insert in H. injection H as <-. assert (g = fd) as -> by (by injection E).
        rewrite decide_True by done. rewrite Ef. by exists f.
      * rewrite lookup_insert_ne in H by done. destruct (G1 _ _ _ H) as (f' & A & I).
        destruct (decide (fd = g)) as [<-|]; [|by exists f']. exfalso. apply E. rewrite I.
        destruct (G2 _ _ _ A) as (f2 & [= <-] & F). rewrite Ef in F. by injection F as <-.
    + intros g k' x H. rewrite HA in H. rewrite HF. destruct (decide (fd = g)) as [<-|].
      * injection H as <- <-. rewrite Ef. by exists f.
      * by eapply G2.
  - cbn in Hp. split; [intros g x k'; rewrite HA, Hp; apply G1|intros g k' x; rewrite HA, HF; apply G2].
  - cbn in Hp. split; [intros g x k'; rewrite HA, Hp; apply G1|intros g k' x; rewrite HA, HF; apply G2].
Qed.

Lemma good_run b s h : run b s h -> contract h -> good b s h.
Proof.
  induction 1 as [|s h l s' o Hr IH Hs]; intros Hc.
  { split; [intros fd x k H; cbn in H; by rewrite lookup_empty in H|done]. }
  apply contract_snoc in Hc as [Hc Ho]. pose proof (IH Hc) as G. clear IH. pose proof G as [G1 G2].
  pose proof (fds_log _ _ _ Hr) as Hf.
  destruct l as [g|g g'|g|g k x|g k x|g x|[g f]]; cbn [step] in Hs.
  - destruct (fds s !! g) eqn:E; [done|]. injection Hs as <- <-. split; intros fd; rewrite asked_snoc; [apply G1|].
    intros k x H. destruct (G2 _ _ _ H) as (f & -> & F). exists f. split; [done|]. rewrite file_snoc. cbn.
    case_decide; [|done]. subst. by rewrite <- Hf, E in F.
  - destruct (fds s !! g) eqn:E; [|done]. destruct (fds s !! g') eqn:E'; [done|]. injection Hs as <- <-.
    split; intros fd; rewrite asked_snoc; [apply G1|].
    intros k x H. destruct (G2 _ _ _ H) as (f & -> & F). exists f. split; [done|]. rewrite file_snoc. cbn.
    case_decide; [|done]. subst. by rewrite <- Hf, E' in F.
  - destruct (fds s !! g) eqn:E; [|done]. injection Hs as <- <-. cbn in Ho. split; intros fd.
    + intros x k H. rewrite asked_snoc. apply G1. unfold close in H. rewrite E in H. cbn [regs] in H.
      destruct b; [|done| |].
      * destruct (held _ _); [done|]. by apply map_filter_lookup_Some in H as [H _].
      * by apply lookup_delete_Some in H as [_ H].
      * by apply lookup_delete_Some in H as [_ H].
    + intros k x. rewrite asked_snoc. intros H. destruct (G2 _ _ _ H) as (f & -> & F). exists f. split; [done|].
      rewrite file_snoc. cbn. case_decide; [|done]. subst. by rewrite Ho in H.
  - pose proof (add_put b s g k x) as P. destruct (add b s g k x) as [r t]. injection Hs as <- <-. cbn in P.
    eapply good_put; [exact G|exact Hf|exact P|exact Ho|by left].
  - pose proof (modify_put b s g k x) as P. destruct (modify b s g k x) as [r t]. injection Hs as <- <-. cbn in P.
    eapply good_put; [exact G|exact Hf|exact P|exact Ho|by right].
  - pose proof (delete_put b s g x) as P. destruct (delete b s g x) as [r t] eqn:E. injection Hs as <- <-. cbn [fst snd] in P.
    split; intros fd.
    + intros y k. rewrite asked_snoc. destruct r as [u|e|]; [|rewrite P; apply G1..].
      destruct (file_at g h) as [f|] eqn:Ef.
      * rewrite (P f) by by rewrite Hf. intros [Hn H]%lookup_delete_Some. destruct (G1 _ _ _ H) as (f' & A & I).
        case_decide; [|by exists f']. subst. exfalso. apply Hn. rewrite I.
        destruct (G2 _ _ _ A) as (f2 & [= <-] & F). rewrite Ef in F. by injection F as ->.
      * exfalso. assert (Hg : fds s !! g = None) by by rewrite Hf.
        destruct b; cbn [delete] in E; rewrite ?Hg in E; repeat case_match; simplify_eq.
        match goal with R : regs s !! _ = Some _ |- _ => destruct (G1 _ _ _ R) as (f' & A & _) end. destruct (G2 _ _ _ A) as (f2 & _ & F). by rewrite Ef in F.
    + intros k y. rewrite asked_snoc, file_snoc. cbn [file_step]. destruct r as [u|e|]; [|apply G2..].
      case_decide; [done|apply G2].
  - destruct (regs s !! (g, f)); [|done]. injection Hs as <- <-.
    split; intros fd; [intros y k|intros k y]; rewrite asked_snoc, ?file_snoc; cbn [file_step]; [apply G1|apply G2].
Qed.

(** If every registered descriptor is deleted before it is closed, every event is about the file that was registered,
    whatever else is opened, duplicated and closed, with whatever numbers, and whichever calls fail. *)
Theorem C104_contract_is_enough b s h : run b s h -> contract h -> events_belong h.
Proof.
  induction 1 as [|s h l s' o Hr IH Hs]; intros Hc h1 k fd f h2 E; [by destruct h1|].
  pose proof (contract_snoc _ _ Hc) as [Hc' _].
  destruct h2 as [|z h2 _] using rev_ind.
  - apply app_inj_tail in E as [-> ->]. destruct (good_run _ _ _ Hr Hc') as [G1 G2]. pose proof (fds_log _ _ _ Hr) as Hf.
    destruct l as [g|g g'|g|g k' x|g k' x|g x|[g y]]; cbn [step] in Hs; try (repeat case_match; by simplify_eq).
    destruct (regs s !! (g, y)) as [k'|] eqn:R; [|done]. injection Hs as <- <- <- <-.
    destruct (G1 _ _ _ R) as (f0 & A & I). destruct (G2 _ _ _ A) as (f1 & [= <-] & F). exists f0.
    split; [|done]. destruct b; [|by rewrite Hf..]. by injection I as ->.
  - rewrite app_comm_cons, app_assoc in E. apply app_inj_tail in E as [-> ->]. by eapply IH.
Qed.
Print Assumptions C104_contract_is_enough.

(** The numbers that kqueue's set of sources holds were asked for, if no add failed half-way. *)
Lemma sources_asked s h : run Kqueue s h -> adds_fail_as_duplicates h -> forall fd, fd ∈ sources s -> asked fd h <> None.
Proof.
  induction 1 as [|s h l s' o Hr IH Hs]; intros Ha fd; [cbn; set_solver|].
  assert (Ha' : adds_fail_as_duplicates h) by (intros g k e H; apply (Ha g k e); apply elem_of_app; by left).
  specialize (IH Ha' fd). rewrite asked_snoc.
  destruct l as [g|g g'|g|g k x|g k x|g x|[g f]]; cbn [step] in Hs.
  - destruct (fds s !! g); [done|]. injection Hs as <- <-. exact IH.
  - destruct (fds s !! g); [|done]. destruct (fds s !! g'); [done|]. injection Hs as <- <-. exact IH.
  - destruct (fds s !! g) eqn:E; [|done]. injection Hs as <- <-. unfold close. rewrite E. exact IH.
  - destruct (add Kqueue s g k x) as [r t] eqn:E. injection Hs as <- <-. cbn [add] in E.
    assert (Hl : forall e, r = Err e -> e = ESimple KAlreadyExists)
      by (intros e ->; apply (Ha g k e); apply elem_of_app; right; by left).
    destruct (decide (g ∈ sources s)); [injection E as <- <-; exact IH|].
    destruct x as [e|]; [injection E as <- <-; by specialize (Hl _ eq_refl)|].
    destruct (fds s !! g); [|injection E as <- <-; by specialize (Hl _ eq_refl)].
    injection E as <- <-. cbn. intros [H%elem_of_singleton|H]%elem_of_union; case_decide; try done. by apply IH.
  - destruct (modify Kqueue s g k x) as [r t] eqn:E. injection Hs as <- <-. cbn [modify] in E.
    repeat case_match; simplify_eq; try done; exact IH.
  - destruct (delete Kqueue s g x) as [r t] eqn:E. injection Hs as <- <-. cbn [delete] in E.
    destruct (decide (g ∈ sources s)); [|injection E as <- <-; exact IH].
    destruct x as [e'|]; [injection E as <- <-; exact IH|].
    destruct (fds s !! g); [|injection E as <- <-; exact IH]. injection E as <- <-. cbn.
    intros [H Hn]%elem_of_difference. case_decide; [subst; set_solver|by apply IH].
  - destruct (regs s !! (g, f)); [|done]. injection Hs as <- <-. exact IH.
Qed.

(** And a number that is used again starts afresh: under the contract an open descriptor that is not registered can be
    added, if the system call does not fail. *)
Theorem C104_number_starts_afresh b s h fd k :
  run b s h -> contract h -> adds_fail_as_duplicates h ->
  file_at fd h <> None -> asked fd h = None ->
  exists s', step b s (LAdd fd k None) = Some (s', AddRet fd k (Ok tt)) /\ run b s' (h ++ [AddRet fd k (Ok tt)]).
Proof.
  intros Hr Hc Ha Ho Hn. destruct (good_run _ _ _ Hr Hc) as [G1 _]. pose proof (fds_log _ _ _ Hr fd) as Hf.
  assert (Hreg : forall x, regs s !! (fd, x) = None).
  { intros x. destruct (regs s !! (fd, x)) eqn:E; [|done]. destruct (G1 _ _ _ E) as (f & A & _). by rewrite Hn in A. }
  destruct (file_at fd h) as [f|]; [|done].
  assert (exists s', add b s fd k None = (Ok tt, s')) as (s' & E).
  { destruct b; cbn [add]; rewrite ?Hf, ?Hreg; eauto. case_decide as D; [|eauto].
    by destruct (sources_asked _ _ Hr Ha fd D). }
  assert (S : step b s (LAdd fd k None) = Some (s', AddRet fd k (Ok tt))) by (cbn [step]; by rewrite E).
  exists s'. split; [exact S|]. by eapply run_step.
Qed.
Print Assumptions C104_number_starts_afresh.

(** *** Without the contract *)

(** Continuations in which the file stays open under some number and does not come back under [fd]. *)
Inductive later (fd : Z) (f : nat) : state -> list obs -> state -> Prop :=
| later_nil s : later fd f s [] s
| later_step s h s1 l s2 o : later fd f s h s1 -> step Epoll s1 l = Some (s2, o) ->
    fds s2 !! fd <> Some f -> (exists g, fds s2 !! g = Some f) -> later fd f s (h ++ [o]) s2.

Lemma held_open (m : gmap Z nat) f : (exists g, m !! g = Some f) -> held m f = true.
Proof.
  intros (g & H). unfold held. apply existsb_exists. exists (g, f). split; [|by apply Nat.eqb_refl].
  apply elem_of_list_In. by apply elem_of_map_to_list.
Qed.

(** epoll: a registration whose descriptor has been closed while its file lives on under another one can be neither
    changed nor removed: whatever is called, with that number or any other, wait may go on reporting the old key. *)
Theorem C104_epoll_left_over fd f k s h s' :
  regs s !! (fd, f) = Some k -> fds s !! fd <> Some f -> later fd f s h s' ->
  step Epoll s' (LReport (fd, f)) = Some (s', Got k fd (Some f)).
Proof.
  intros R F L. assert (regs s' !! (fd, f) = Some k /\ fds s' !! fd <> Some f) as [H _].
  { induction L as [s|s h s1 l s2 o L IH Hs F2 Hg]; [done|]. destruct (IH R F) as [R1 F1]. split; [|done]. clear IH L R F.
    destruct l as [g|g g'|g|g k' x|g k' x|g x|[g y]]; cbn [step] in Hs.
    - destruct (fds s1 !! g); [done|]. by injection Hs as <- <-.
    - destruct (fds s1 !! g); [|done]. destruct (fds s1 !! g'); [done|]. by injection Hs as <- <-.
    - destruct (fds s1 !! g) as [f'|] eqn:E; [|done]. injection Hs as <- <-. unfold close in *. rewrite E in *. cbn in *.
      destruct (held _ f') eqn:Hh; [done|]. apply map_filter_lookup_Some. split; [done|]. cbn. intros ->.
      rewrite held_open in Hh; done.
    - cbn [add] in Hs. repeat case_match; simplify_eq; try done; cbn. rewrite lookup_insert_ne; [done|]. intros [= -> ->]. done.
    - cbn [modify] in Hs. repeat case_match; simplify_eq; try done; cbn. rewrite lookup_insert_ne; [done|]. intros [= -> ->]. done.
    - cbn [delete] in Hs. repeat case_match; simplify_eq; try done; cbn. rewrite lookup_delete_ne; [done|]. intros [= -> ->]. done.
    - destruct (regs s1 !! (g, y)); [|done]. by injection Hs as <- <-. }
  cbn [step]. by rewrite H.
Qed.
Print Assumptions C104_epoll_left_over.

Fixpoint exec (b : backend) (s : state) (ls : list label) : option (state * list obs) :=
  match ls with
  | [] => Some (s, [])
  | l :: ls => match step b s l with
               | Some (s', o) => match exec b s' ls with Some (s2, h) => Some (s2, o :: h) | None => None end
               | None => None
               end
  end.
Lemma exec_run b ls : forall s h s' h', run b s h -> exec b s ls = Some (s', h') -> run b s' (h ++ h').
Proof.
  induction ls as [|l ls IH]; intros s h s' h' Hr E; cbn in E.
  - injection E as <- <-. by rewrite app_nil_r.
  - destruct (step b s l) as [[s1 o]|] eqn:S; [|done]. destruct (exec b s1 ls) as [[s2 h2]|] eqn:E2; [|done].
    injection E as <- <-. rewrite cons_middle, app_assoc. eapply IH; [|exact E2]. by eapply run_step.
Qed.

(** Dropping a source without deleting it, epoll: after the descriptor is closed an event still comes with its key. *)
Theorem C104_epoll_contract_needed :
  exists s h, run Epoll s h /\ file_at 5 h = None /\
    exists h1, h = h1 ++ [Got 7 5 (Some 0)] /\ file_at 5 h1 = None.
Proof.
  destruct (exec Epoll init [LOpen 5; LDup 5 6; LAdd 5 7 None; LClose 5; LReport (5%Z, 0)]) as [[s h]|] eqn:E;
    vm_compute in E; [|discriminate].
  exists s, h. injection E as <- <-. split.
  - eapply (exec_run Epoll [LOpen 5; LDup 5 6; LAdd 5 7 None; LClose 5; LReport (5%Z, 0)] init []); [apply run_init|by vm_compute].
  - split; [by vm_compute|]. by exists [Opened 5 0; Opened 6 0; AddRet 5 7 (Ok tt); Closed 5].
Qed.
Print Assumptions C104_epoll_contract_needed.

(** poll: the number is used again, and the readiness of the new file comes with the key of the old one. *)
Theorem C104_poll_contract_needed :
  exists s h1, run Poll s (h1 ++ [Got 7 5 (Some 1)]) /\ asked 5 h1 = Some (7%N, Some 0) /\ file_at 5 h1 = Some 1.
Proof.
  set (ls := [LOpen 5; LAdd 5 7 None; LClose 5; LOpen 5; LReport (5%Z, 0)]).
  destruct (exec Poll init ls) as [[s h]|] eqn:E; [|by vm_compute in E].
  exists s, [Opened 5 0; AddRet 5 7 (Ok tt); Closed 5; Opened 5 1]. split; [|split; by vm_compute].
  pose proof (exec_run Poll ls init [] s h (run_init _) E) as R. vm_compute in E. injection E as <- <-. exact R.
Qed.
Print Assumptions C104_poll_contract_needed.

(** kqueue: the new file cannot be added, although nothing is registered for it. *)
Theorem C104_kqueue_contract_needed :
  exists s h, run Kqueue s (h ++ [AddRet 5 8 (Err (ESimple KAlreadyExists))]) /\ file_at 5 h = Some 1 /\
    regs s = ∅ /\ adds_fail_as_duplicates h.
Proof.
  set (ls := [LOpen 5; LAdd 5 7 None; LClose 5; LOpen 5; LAdd 5 8 None]).
  destruct (exec Kqueue init ls) as [[s h]|] eqn:E; [|by vm_compute in E].
  exists s, [Opened 5 0; AddRet 5 7 (Ok tt); Closed 5; Opened 5 1].
  pose proof (exec_run Kqueue ls init [] s h (run_init _) E) as R. vm_compute in E. injection E as <- <-.
  split; [exact R|]. split; [by vm_compute|]. split; [apply map_to_list_empty_iff; by vm_compute|].
  intros fd k e H. repeat (apply elem_of_cons in H as [H|H]; [discriminate|]). by apply elem_of_nil in H.
Qed.
Print Assumptions C104_kqueue_contract_needed.

(** *** The hypotheses are met *)
(** A descriptor is added, duplicated, deleted and closed, its number is used again for another file and added with
    another key: the event is the new file's, on every backend. *)
Definition tidy : list label :=
  [LOpen 5; LDup 5 6; LAdd 5 7 None; LReport (5%Z, 0); LDelete 5 None; LClose 5; LOpen 5; LAdd 5 8 None].
Definition tidy_log : list obs :=
  [Opened 5 0; Opened 6 0; AddRet 5 7 (Ok tt); Got 7 5 (Some 0); DeleteRet 5 (Ok tt); Closed 5; Opened 5 1;
   AddRet 5 8 (Ok tt); Got 8 5 (Some 1)].
Definition tidy_report (b : backend) : label := LReport (5%Z, match b with Epoll => 1 | _ => 0 end).

Example C104_case b : exists s, run b s tidy_log /\ contract tidy_log /\ adds_fail_as_duplicates tidy_log /\
  events_belong tidy_log.
Proof.
  assert (exists s, exec b init (tidy ++ [tidy_report b]) = Some (s, tidy_log)) as (s & E)
    by (destruct b; eexists; vm_compute; reflexivity).
  pose proof (exec_run b _ init [] s _ (run_init _) E) as R.
  assert (C : contract tidy_log).
  { intros h1 o h2 H.
    do 9 (destruct h1 as [|? h1]; [injection H as <- _; by vm_compute|injection H as <- H]).
    by destruct h1. }
  exists s. split; [exact R|]. split; [exact C|]. split; [|by eapply C104_contract_is_enough].
  intros fd k e H. repeat (apply elem_of_cons in H as [H|H]; [discriminate|]). by apply elem_of_nil in H.
Qed.

Lemma later_cons fd f l s s1 s' o h : step Epoll s l = Some (s1, o) ->
  fds s1 !! fd <> Some f -> (exists g, fds s1 !! g = Some f) -> later fd f s1 h s' -> later fd f s (o :: h) s'.
Proof.
  intros S F G L. induction L as [s1|s1 h s2 l2 s3 o2 L IH S2 F2 G2].
  - change [o] with ([] ++ [o]). eapply later_step; [apply later_nil|exact S|done|done].
  - rewrite app_comm_cons. eapply later_step; [by apply IH|exact S2|done|done].
Qed.
(** A left-over registration: neither delete on the closed number, nor add and delete of another file under that number,
    end it. *)
Example C104_left_over_case : exists s s' h,
  regs s !! (5%Z, 0) = Some 7%N /\ fds s !! 5%Z <> Some 0 /\ later 5 0 s h s' /\
  h = [DeleteRet 5 (Err (EOs EBADF)); Opened 5 1; AddRet 5 9 (Ok tt); DeleteRet 5 (Ok tt); DeleteRet 6 (Err (EOs ENOENT))].
Proof.
  destruct (exec Epoll init [LOpen 5; LDup 5 6; LAdd 5 7 None; LClose 5]) as [[s h0]|] eqn:E; [|by vm_compute in E].
  exists s. vm_compute in E. injection E as <- _.
  eexists _, _. split; [by vm_compute|]. split; [by vm_compute|]. split; [|reflexivity].
  eapply (later_cons _ _ (LDelete 5 None)); [vm_compute; reflexivity|by vm_compute|by exists 6%Z|].
  eapply (later_cons _ _ (LOpen 5)); [vm_compute; reflexivity|by vm_compute|by exists 6%Z|].
  eapply (later_cons _ _ (LAdd 5 9 None)); [vm_compute; reflexivity|by vm_compute|by exists 6%Z|].
  eapply (later_cons _ _ (LDelete 5 None)); [vm_compute; reflexivity|by vm_compute|by exists 6%Z|].
  eapply (later_cons _ _ (LDelete 6 None)); [vm_compute; reflexivity|by vm_compute|by exists 6%Z|].
  apply later_nil.
Qed.
