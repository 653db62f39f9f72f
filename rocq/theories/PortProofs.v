(** Invariants of the event-port model. *)
From stdpp Require Import prelude list gmap.
From Verif Require Import Bits Types EventModel EventSpec PortModel PortSpec.
Local Open Scope nat_scope.

(* ------------------------------------------------------------------ *)
(** ** Queues *)

Definition fd_of (x : item) : option Z := match x with IFd fd => Some fd | IUser _ _ => None end.
Definition fds (l : list item) : list Z := omap fd_of l.
Definition users (l : list item) : list item :=
  List.filter (fun x => match x with IUser _ _ => true | _ => false end) l.

Lemma elem_of_fds l fd : fd ∈ fds l <-> IFd fd ∈ l.
Proof.
  unfold fds. rewrite elem_of_list_omap. split.
  - intros ([g|e u] & H & E); cbn in E; congruence.
  - intros H. by exists (IFd fd).
Qed.

Lemma elem_unqueue x l fd : x ∈ unqueue l fd <-> x ∈ l /\ x <> IFd fd.
Proof.
  unfold unqueue. rewrite !elem_of_list_In, filter_In, bool_decide_eq_true. done.
Qed.

Lemma fds_app l1 l2 : fds (l1 ++ l2) = fds l1 ++ fds l2.
Proof. unfold fds. apply omap_app. Qed.

Lemma fds_unqueue_in l fd g : g ∈ fds (unqueue l fd) <-> g ∈ fds l /\ g <> fd.
Proof. rewrite !elem_of_fds, elem_unqueue. naive_solver. Qed.

Lemma fds_cons x l : fds (x :: l) = match fd_of x with Some g => g :: fds l | None => fds l end.
Proof. by destruct x. Qed.
Lemma unqueue_cons x l fd :
  unqueue (x :: l) fd = if decide (x <> IFd fd) then x :: unqueue l fd else unqueue l fd.
Proof. unfold unqueue; cbn. by case_bool_decide; case_decide. Qed.

Lemma fds_unqueue_nodup l fd : NoDup (fds l) -> NoDup (fds (unqueue l fd)).
Proof.
  induction l as [|x l IH]; [done|]. rewrite unqueue_cons. case_decide as D.
  - rewrite !fds_cons. destruct (fd_of x) as [g|]; [|done].
    rewrite !NoDup_cons. intros [Hn Hd]. split; [|auto].
    rewrite fds_unqueue_in. tauto.
  - rewrite fds_cons. destruct (fd_of x); [rewrite NoDup_cons; intros [_ ?]|]; auto.
Qed.

Lemma users_app l1 l2 : users (l1 ++ l2) = users l1 ++ users l2.
Proof. unfold users. apply List.filter_app. Qed.
Lemma users_unqueue l fd : users (unqueue l fd) = users l.
Proof.
  induction l as [|x l IH]; [done|]. rewrite unqueue_cons. case_decide as D.
  - destruct x; cbn [users List.filter]; fold (users l) (users (unqueue l fd)); congruence.
  - destruct x as [g|]; cbn [users List.filter]; [exact IH|]. discriminate.
Qed.

Lemma length_split l : length l = length (fds l) + length (users l).
Proof.
  induction l as [|[g|e u] l IH]; [done| |]; rewrite fds_cons; cbn [fd_of length users List.filter];
    fold (users l); rewrite IH; lia.
Qed.

Lemma retrieved l (m : gmap Z assoc) fd :
  foldl retrieve m l !! fd = if decide (IFd fd ∈ l) then None else m !! fd.
Proof.
  revert m. induction l as [|x l IH]; intros m; cbn [foldl].
  - rewrite decide_False; [done|apply not_elem_of_nil].
  - rewrite IH. destruct (decide (IFd fd ∈ l)) as [H|H].
    { rewrite decide_True; [done|by right]. }
    destruct x as [g|e u]; cbn [retrieve].
    + destruct (decide (g = fd)) as [->|N].
      * rewrite lookup_delete, decide_True; [done|by left].
      * rewrite lookup_delete_ne by done. rewrite decide_False; [done|].
        rewrite elem_of_cons. intros [[= E]|?]; congruence.
    + rewrite decide_False; [done|]. rewrite elem_of_cons. by intros [?|?].
Qed.

(* ------------------------------------------------------------------ *)
(** ** The invariant of the kernel *)

Lemma is_empty_spec x : is_empty x = true <-> x = 0%N.
Proof. unfold is_empty. apply N.eqb_eq. Qed.
Lemma is_empty_false x : is_empty x = false <-> x <> 0%N.
Proof. unfold is_empty. apply N.eqb_neq. Qed.

Lemma lor_nonzero x y : y <> 0%N -> N.lor x y <> 0%N.
Proof. intros H E. apply N.lor_eq_0_iff in E. tauto. Qed.

Record kinv (k : kernel) : Prop := {
  ki_nodup : NoDup (fds (queue k));
  ki_queued : forall fd, IFd fd ∈ queue k <-> exists a, assocs k !! fd = Some a /\ as_fired a <> 0%N
}.

Lemma kinv_masks k ms : kinv k -> kinv (Kernel (assocs k) (queue k) ms).
Proof. intros [A B]. by split. Qed.

Lemma kinv_fire k fd m : kinv k -> kinv (fire k fd m).
Proof.
  intros [A B]. unfold fire. destruct (assocs k !! fd) as [a|] eqn:E; [|by split].
  destruct (is_empty (matching (as_events a) m)) eqn:H; [by split|].
  apply is_empty_false in H. destruct (is_empty (as_fired a)) eqn:F.
  - apply is_empty_spec in F.
    assert (Hn : IFd fd ∉ queue k).
    { rewrite B. intros (a' & E' & Hf). congruence. }
    split; cbn [queue assocs].
    + rewrite fds_app. apply NoDup_app. split; [done|]. split; [|apply NoDup_singleton].
      intros g Hg. cbn. rewrite elem_of_list_singleton. intros ->. by apply Hn, elem_of_fds.
    + intros g. rewrite elem_of_app, elem_of_list_singleton.
      destruct (decide (g = fd)) as [->|N].
      * rewrite lookup_insert. split; [|by right]. intros _. eexists. split; [done|].
        cbn. by apply lor_nonzero.
      * rewrite lookup_insert_ne by done. rewrite <- B. split; [intros [?|[= ->]]; done|by left].
  - apply is_empty_false in F. split; cbn [queue assocs]; [done|].
    intros g. rewrite B. destruct (decide (g = fd)) as [->|N].
    + rewrite lookup_insert. split; intros _; eexists; split; eauto.
      cbn. by apply lor_nonzero.
    + by rewrite lookup_insert_ne.
Qed.

Lemma kinv_forget k fd : kinv k -> kinv (forget k fd).
Proof.
  intros [A B]. split; cbn [forget queue assocs]; [by apply fds_unqueue_nodup|].
  intros g. rewrite elem_unqueue, B. destruct (decide (g = fd)) as [->|N].
  - rewrite lookup_delete. naive_solver.
  - rewrite lookup_delete_ne by done. naive_solver.
Qed.

Lemma kinv_assoc0 k fd e u :
  kinv k -> kinv (Kernel (<[fd := Assoc e u 0]> (assocs k)) (unqueue (queue k) fd) (masks k)).
Proof.
  intros [A B]. split; cbn [queue assocs]; [by apply fds_unqueue_nodup|].
  intros g. rewrite elem_unqueue, B. destruct (decide (g = fd)) as [->|N].
  - rewrite lookup_insert. split; [naive_solver|]. intros (a & [= <-] & H). by cbn in H.
  - rewrite lookup_insert_ne by done. naive_solver.
Qed.

Lemma kinv_send k e u : kinv k -> kinv (send k e u).
Proof.
  intros [A B]. split; cbn [send queue assocs].
  - rewrite fds_app. cbn. by rewrite app_nil_r.
  - intros g. rewrite elem_of_app, elem_of_list_singleton, B. naive_solver.
Qed.

Lemma kinv_getn k n :
  kinv k -> kinv (Kernel (foldl retrieve (assocs k) (take n (queue k))) (drop n (queue k)) (masks k)).
Proof.
  intros [A B]. rewrite <- (take_drop n (queue k)) in A. rewrite fds_app, NoDup_app in A.
  destruct A as (A1 & A2 & A3). split; cbn [queue assocs]; [done|].
  intros g. rewrite retrieved. case_decide as D.
  - split; [|naive_solver]. intros H. exfalso.
    apply (A2 g); by apply elem_of_fds.
  - rewrite <- B. rewrite <- (take_drop n (queue k)) at 2. rewrite elem_of_app. tauto.
Qed.

Lemma kinv_step s l s' : kinv (kern s) -> step s l = Some s' -> kinv (kern s').
Proof.
  intros K H. destruct l as [fd e m f|fd e m f|fd f|f|fd m|fd|max o]; cbn [step] in H.
  1,2: unfold add, modify, associate in H; destruct m, f; injection H as <-; cbn [kern]; try done;
       by apply kinv_fire, kinv_assoc0.
  - unfold delete_fd, dissociate in H. destruct f; [by injection H as <-|].
    destruct (assocs (kern s) !! fd); injection H as <-; [by apply kinv_forget|done].
  - unfold notify in H. destruct f; injection H as <-; [done|by apply kinv_send].
  - injection H as <-. by apply kinv_fire, kinv_masks.
  - injection H as <-. cbn [kern]. by apply (kinv_masks (forget (kern s) fd)), kinv_forget.
  - unfold wait in H. destruct o as [|e].
    + case_decide; [done|]. unfold getn in H. injection H as <-. by apply kinv_getn.
    + destruct e; injection H as <-; done.
Qed.

Lemma kinv_reach s : reachable s -> kinv (kern s).
Proof.
  induction 1; [|by eapply kinv_step].
  split; cbn; [constructor|]. intros fd. rewrite lookup_empty. split; [by intros ?%elem_of_nil|naive_solver].
Qed.

(* ------------------------------------------------------------------ *)
(** ** The log and the kernel *)

Lemma registered_app fd h o : registered fd (h ++ [o]) = after fd (registered fd h) o.
Proof. unfold registered. by rewrite fold_left_app. Qed.
Lemma readiness_app fd h o : readiness fd (h ++ [o]) = became fd (readiness fd h) o.
Proof. unfold readiness. by rewrite fold_left_app. Qed.
Lemma collect_fst fd h : (fold_left (collect fd) h (0%N, 0%N)).1 = readiness fd h.
Proof.
  induction h as [|o h IH] using rev_ind; [done|].
  rewrite readiness_app, fold_left_app, <- IH. done.
Qed.
Lemma flags_app fd h o :
  flags_since fd (h ++ [o]) =
  match registers fd o, o with
  | Some _, _ => became fd (readiness fd h) o
  | None, Happened g x => if decide (g = fd) then N.lor (flags_since fd h) x else flags_since fd h
  | None, _ => flags_since fd h
  end.
Proof. unfold flags_since. rewrite fold_left_app, <- collect_fst. done. Qed.

Lemma matching_lor e a b : matching e (N.lor a b) = N.lor (matching e a) (matching e b).
Proof. unfold matching. apply N.land_lor_distr_l. Qed.

Definition wanted (e : event N) (m : N) : N := matching (port_interest e) m.

(** What the kernel holds for a descriptor, as a function of the log. *)
Definition entry (fd : Z) (h : list obs) : option assoc :=
  match registered fd h with
  | None => None
  | Some e => Some (Assoc (port_interest e) (key_to_u64 (ev_key e)) (wanted e (flags_since fd h)))
  end.

Record linv (s : state) : Prop := {
  li_ready : forall fd, ready (kern s) fd = readiness fd (log s);
  li_assoc : forall fd, assocs (kern s) !! fd = entry fd (log s)
}.

Lemma fire_assoc k fd m g :
  assocs (fire k fd m) !! g =
  if decide (g = fd) then
    match assocs k !! fd with
    | None => None
    | Some a => Some (Assoc (as_events a) (as_user a) (N.lor (as_fired a) (matching (as_events a) m)))
    end
  else assocs k !! g.
Proof.
  unfold fire. case_decide as D; subst.
  - destruct (assocs k !! fd) as [a|] eqn:E; [|done].
    destruct (is_empty (matching (as_events a) m)) eqn:H.
    + apply is_empty_spec in H. rewrite H, N.lor_0_r, E. by destruct a.
    + cbn. by rewrite lookup_insert.
  - destruct (assocs k !! fd) as [a|] eqn:E; [|done].
    destruct (is_empty (matching (as_events a) m)); [done|]. cbn. by rewrite lookup_insert_ne.
Qed.
Lemma fire_masks k fd m : masks (fire k fd m) = masks k.
Proof. unfold fire. destruct (assocs k !! fd); [|done]. by destruct (is_empty _). Qed.
Lemma fire_ready k fd m g : ready (fire k fd m) g = ready k g.
Proof. unfold ready. by rewrite fire_masks. Qed.

(** An entry that concerns neither the registration nor the readiness of [fd]. *)
Lemma entry_same fd h o :
  registers fd o = None ->
  match o with DeleteRet g (Ok _) | Closed g | Happened g _ => g <> fd | _ => True end ->
  ~ delivers fd o ->
  entry fd (h ++ [o]) = entry fd h.
Proof.
  intros R X D. unfold entry. rewrite registered_app, flags_app. unfold after. rewrite R.
  assert (E : (match o with
               | Happened g x => if decide (g = fd) then N.lor (flags_since fd h) x else flags_since fd h
               | _ => flags_since fd h end) = flags_since fd h).
  { destruct o; try done. by rewrite decide_False. }
  rewrite E.
  destruct o as [| |g [| |]| | | |]; try (by rewrite (decide_False D)); by rewrite decide_False.
Qed.

Lemma entry_register fd h o e :
  registers fd o = Some e -> readiness fd (h ++ [o]) = readiness fd h ->
  entry fd (h ++ [o]) =
    Some (Assoc (port_interest e) (key_to_u64 (ev_key e)) (wanted e (readiness fd h))).
Proof.
  intros R X. unfold entry. rewrite registered_app, flags_app. unfold after. rewrite R.
  rewrite readiness_app in X. by rewrite X.
Qed.

Lemma entry_ended fd h o :
  registers fd o = None ->
  match o with DeleteRet g (Ok _) | Closed g => g = fd | _ => delivers fd o end ->
  entry fd (h ++ [o]) = None.
Proof.
  intros R D. unfold entry. rewrite registered_app. unfold after. rewrite R.
  destruct o as [| |g [| |]| | | |]; try done; by rewrite decide_True.
Qed.

(** Entries that change neither readiness nor, unless they register, registrations. *)
Definition plain (o : obs) : bool :=
  match o with DeleteRet _ (Ok _) | Closed _ | Happened _ _ => false | _ => true end.
Lemma plain_became o fd m : plain o = true -> became fd m o = m.
Proof. by destruct o. Qed.
Lemma plain_other o fd :
  plain o = true ->
  match o with DeleteRet g (Ok _) | Closed g | Happened g _ => g <> fd | _ => True end.
Proof. by destruct o as [| |? [| |]| | | |]. Qed.

Lemma linv_associate k h fd e f (con : res unit -> obs) :
  (forall g, ready k g = readiness g h) ->
  (forall g, assocs k !! g = entry g h) ->
  (forall g, registers g (con (Ok tt)) = if decide (fd = g) then Some e else None) ->
  (forall g x, registers g (con (Err x)) = None) ->
  (forall r g, ~ delivers g (con r)) ->
  (forall r, plain (con r) = true) ->
  let (r, k') := associate k fd (port_interest e) (key_to_u64 (ev_key e)) f in
  linv (State k' (h ++ [con r])).
Proof.
  intros R A Ro Re D X. unfold associate. destruct f as [x|].
  - split; intros g; cbn [kern log].
    + rewrite readiness_app, R. by rewrite plain_became.
    + rewrite A. symmetry. apply entry_same; [apply Re|by apply plain_other|apply D].
  - assert (RR : forall g, readiness g (h ++ [con (Ok tt)]) = readiness g h).
    { intros g. rewrite readiness_app. by apply plain_became. }
    split; intros g; cbn [kern log].
    + rewrite fire_ready, RR. apply R.
    + rewrite fire_assoc. cbn [assocs]. case_decide as N; subst.
      * rewrite lookup_insert. cbn. rewrite (entry_register _ _ _ e); [|by rewrite Ro, decide_True|done].
        by rewrite R.
      * rewrite lookup_insert_ne by done. rewrite A. symmetry. apply entry_same.
        -- rewrite Ro. by rewrite decide_False.
        -- by apply plain_other.
        -- apply D.
Qed.

Lemma linv_error (s : state) o :
  linv s ->
  (forall g, registers g o = None) -> (forall g, ~ delivers g o) ->
  plain o = true ->
  linv (State (kern s) (log s ++ [o])).
Proof.
  intros [R A] Ro D X. split; intros g; cbn [kern log].
  - rewrite readiness_app, R. by rewrite plain_became.
  - rewrite A. symmetry. apply entry_same; [apply Ro|by apply plain_other|apply D].
Qed.

Lemma report_items k l : map fst (map to_event (map (report_of k) l)) = l.
Proof.
  induction l as [|x l IH]; [done|]. cbn. f_equal; [|exact IH].
  destruct x; cbn; [|done]. by destruct (assocs k !! fd).
Qed.

Lemma linv_step s l s' : linv s -> legal l -> step s l = Some s' -> linv s'.
Proof.
  intros L Hl H. pose proof L as [R A].
  destruct l as [fd e m f|fd e m f|fd f|f|fd m|fd|max o]; cbn [step] in H.
  - unfold add, modify in H. destruct m.
    2-4: injection H as <-; apply linv_error; [done|done|cbn; tauto|done].
    pose proof (linv_associate (kern s) (log s) fd e f (AddRet fd e Oneshot) R A) as W.
    destruct (associate _ _ _ _ _) as [r k']. injection H as <-. apply W; cbn; tauto.
  - unfold modify in H. destruct m.
    2-4: injection H as <-; apply linv_error; [done|done|cbn; tauto|done].
    pose proof (linv_associate (kern s) (log s) fd e f (ModifyRet fd e Oneshot) R A) as W.
    destruct (associate _ _ _ _ _) as [r k']. injection H as <-. apply W; cbn; tauto.
  - unfold delete_fd, dissociate in H.
    destruct f as [x|].
    { assert (forall r, linv (State (kern s) (log s ++ [DeleteRet fd (Err r)]))) as W.
      { intros r. apply linv_error; [done|done|cbn; tauto|done]. }
      cbn in Hl. destruct x; injection H as <-; try apply W. done. }
    assert (W : forall k', (forall g, ready k' g = ready (kern s) g) ->
              (forall g, assocs k' !! g = if decide (g = fd) then None else assocs (kern s) !! g) ->
              linv (State k' (log s ++ [DeleteRet fd (Ok tt)]))).
    { intros k' K1 K2. split; intros g; cbn [kern log].
      - rewrite readiness_app, K1. apply R.
      - rewrite K2. case_decide as D; subst.
        + symmetry. by apply entry_ended.
        + rewrite A. symmetry. apply entry_same; [done|first [exact I|cbn; congruence]|cbn; tauto]. }
    destruct (assocs (kern s) !! fd) eqn:E; injection H as <-; apply W; cbn [forget assocs]; try done.
    + intros g. case_decide as D; subst; [apply lookup_delete|by apply lookup_delete_ne].
    + intros g. case_decide as D; [by subst|done].
  - unfold notify in H. destruct f; injection H as <-.
    + apply linv_error; [done|done|cbn; tauto|done].
    + split; intros g; cbn [kern log].
      * rewrite readiness_app. apply R.
      * cbn. rewrite A. symmetry. apply entry_same; [done|first [exact I|cbn; congruence]|cbn; tauto].
  - injection H as <-. split; intros g; cbn [kern log].
    + rewrite fire_ready, readiness_app. unfold ready; cbn [masks became]. case_decide as D; subst.
      * by rewrite lookup_insert.
      * rewrite lookup_insert_ne by done. apply R.
    + rewrite fire_assoc. cbn [assocs]. case_decide as D; subst.
      * rewrite A. unfold entry. rewrite registered_app, flags_app. cbn.
        destruct (registered fd (log s)) as [e|]; [|done].
        destruct (decide (fd = fd)); [|done]. cbn. f_equal. f_equal. unfold wanted.
        symmetry. apply N.land_lor_distr_l.
      * rewrite A. symmetry. apply entry_same; [done|first [exact I|cbn; congruence]|cbn; tauto].
  - injection H as <-. split; intros g; cbn [kern log].
    + rewrite readiness_app. unfold ready; cbn [masks became forget]. case_decide as D; subst.
      * by rewrite lookup_delete.
      * rewrite lookup_delete_ne by done. apply R.
    + cbn [assocs forget]. destruct (decide (g = fd)) as [->|D].
      * rewrite lookup_delete. symmetry. by apply entry_ended.
      * rewrite lookup_delete_ne by done. rewrite A. symmetry. apply entry_same; [done|first [exact I|cbn; congruence]|cbn; tauto].
  - unfold wait in H. destruct o as [|e].
    + case_decide; [done|]. unfold getn in H. injection H as <-.
      split; intros g; cbn [kern log].
      * rewrite readiness_app. apply R.
      * cbn [assocs]. rewrite retrieved. case_decide as D.
        -- symmetry. apply entry_ended; [done|]. cbn. by rewrite report_items.
        -- rewrite A. symmetry. apply entry_same; [done|done|]. cbn. by rewrite report_items.
    + destruct e; injection H as <-; (apply linv_error; [done|done|intros g X; by apply elem_of_nil in X|done]).
Qed.
