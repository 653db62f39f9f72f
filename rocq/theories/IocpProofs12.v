(** Packets that nobody refers to; what is arranged for a socket. *)
From stdpp Require Import prelude list gmap.
From Verif Require Import Bits Types EventModel Pool IocpModel IocpSpec IocpProofs IocpProofs2 IocpProofs3 IocpProofs4 IocpProofs5 IocpProofs6 IocpProofs7 IocpProofs8 IocpProofs9 IocpProofs10 IocpProofs11.
Local Open Scope nat_scope.

(* ------------------------------------------------------------------ *)
(** ** What is arranged for a socket *)

Lemma mine_in n o l : o ∈ mine n l -> o ∈ l /\ op_pk o = n.
Proof. unfold mine. rewrite elem_of_list_In, List.filter_In, <- elem_of_list_In. intros [A B]. split; [done|]. by apply bool_decide_eq_true in B. Qed.
Lemma settled_arranged c s n k : reachable c s -> socks (pmem s) !! n = Some k -> spared (PSock n) (log s) ->
  settled s n k -> arranged s n \/ PSock n ∈ pending s.
Proof.
  intros R Hk Sp St. pose proof (ainv_reach _ _ _ _ R Hk) as A.
  destruct (decide (0 < coming s n)) as [|Z]; [left; by right; right|].
  destruct St as [St|[St|[St|St]]]; [| |done|by right]; left; destruct (mine n (ops (sys s))) as [|o F] eqn:EF.
  1, 3: destruct (a_idle _ _ _ _ _ _ A Sp) as [I _]; [unfold coming in Z; cbn; lia|congruence].
  all: assert (Ho : o ∈ mine n (ops (sys s))) by (rewrite EF; by left); destruct (mine_in _ _ _ Ho) as [H1 H2];
    destruct (a_ops _ _ _ _ _ _ A o) as (_ & _ & _ & _ & _ & S); [by left|];
    destruct (op_cancel o) eqn:Ec; [right; left; by exists o|].
  - left. exists o. split_and!; try done. unfold asked. rewrite (a_int _ _ _ _ _ _ A). rewrite St in S. injection S as S. by rewrite <- S.
  - congruence.
Qed.
Lemma registered_packet c s x n : reachable c s -> sources s !! x = Some n -> exists k, socks (pmem s) !! n = Some k.
Proof. intros R H. destruct (t_src _ (tinv_reach _ _ R) _ _ H) as (k & Hk & _). by exists k. Qed.
Lemma registered_arranged c s x n : reachable c s -> sources s !! x = Some n -> spared (PSock n) (log s) ->
  arranged s n \/ PSock n ∈ pending s \/ updating s (PSock n).
Proof.
  intros R H Sp. destruct (registered_packet _ _ _ _ R H) as [k Hk].
  destruct (oinv_reach _ _ R _ _ _ H Hk Sp) as [S|U]; [|by right; right]. destruct (settled_arranged _ _ _ _ R Hk Sp S); auto.
Qed.
Lemma blocked_arranged c s x n l z : reachable c s -> sources s !! x = Some n -> spared (PSock n) (log s) ->
  waiter s = WBlock l z -> calls_at_clock (log s) = ∅ ->
  arranged s n \/ exists i cl u, threads s !! i = Some (Upd cl (PSock n) u).
Proof.
  intros R H Sp W C. destruct (binv_reach _ _ R) as [_ B]. destruct (B _ _ W C) as [P D].
  destruct (registered_arranged _ _ _ _ R H Sp) as [?|[Hp|[U|(i & q & Hq & U)]]]; [by left| | |].
  - rewrite P in Hp. by apply not_elem_of_nil in Hp.
  - rewrite W in U. by apply not_elem_of_nil in U.
  - right. specialize (D _ _ Hq). destruct q; try (by apply not_elem_of_nil in U). cbn in D, U. exists i, c0, u.
    destruct D as [-> | ->]; apply elem_of_list_singleton in U; by subst.
Qed.

(* ------------------------------------------------------------------ *)
(** ** Packets that nobody refers to *)

Definition of_source (p : pid) : Prop := match p with PSock _ | PWait _ => True | _ => False end.
Lemma owners_in s p : of_source p ->
  p ∈ owners s <-> p ∈ system_refs (sys s) \/ p ∈ table_refs s \/ p ∈ pending s \/ p ∈ wait_refs (waiter s)
                   \/ exists i q, threads s !! i = Some q /\ p ∈ pc_refs q.
Proof.
  intros O. unfold owners. rewrite !elem_of_app.
  assert (N : p ∉ user_refs (pmem s)).
  { unfold user_refs. intros [->|H]%elem_of_cons; [done|]. apply elem_of_list_fmap in H as (? & -> & _). done. }
  assert (T : p ∈ concat (map pc_refs (threads s)) <-> exists i q, threads s !! i = Some q /\ p ∈ pc_refs q).
  { rewrite elem_of_list_In, in_concat. split.
    - intros (l & Hl & Hp). apply in_map_iff in Hl as (q & <- & Hq). apply elem_of_list_In, elem_of_list_lookup in Hq as [i Hi]. exists i, q. by rewrite elem_of_list_In.
    - intros (i & q & Hi & Hp). exists (pc_refs q). split; [|by apply elem_of_list_In]. apply in_map, elem_of_list_In. by eapply elem_of_list_lookup_2. }
  rewrite T. tauto.
Qed.
Lemma system_in k p :
  p ∈ system_refs k <-> (exists o, o ∈ ops k /\ p = PSock (op_pk o)) \/ p ∈ queue k \/ (exists h n, waits k !! h = Some n /\ p = PWait n)
                        \/ exists x, x ∈ cbs k /\ p = cb_packet x.
Proof.
  unfold system_refs. rewrite !elem_of_app, !elem_of_list_fmap. split.
  - intros [(o & -> & Ho)|[?|[(n & -> & Hn)|(x & -> & Hx)]]]; [left; eauto|auto| |right; right; right; eauto].
    right. right. left. apply elem_of_list_fmap in Hn as ([h n'] & -> & Hn). apply elem_of_map_to_list in Hn. eauto.
  - intros [(o & Ho & ->)|[?|[(h & n & Hn & ->)|(x & Hx & ->)]]]; [left; eauto|auto| |right; right; right; eauto].
    right. right. left. exists n. split; [done|]. apply elem_of_list_fmap. exists (h, n). split; [done|]. by apply elem_of_map_to_list.
Qed.
Lemma poll_sys_refs m k n x o p : p ∈ system_refs (ef_sys (afd_poll m k n x o)) -> p ∈ system_refs k \/ p = PSock n.
Proof.
  unfold afd_poll. destruct (sk_in_use x); [by left|]. destruct o as [e|]; [destruct (bad_handle e); by left|].
  cbn [ef_sys]. rewrite !system_in. cbn. intros [(o & [Ho|Ho]%elem_of_app & ->)|?]; [left; eauto| |auto].
  apply elem_of_list_singleton in Ho as ->. by right.
Qed.
Lemma cancel_sys_refs m k n x o p : p ∈ system_refs (ef_sys (afd_cancel m k n x o)) -> p ∈ system_refs k.
Proof.
  unfold afd_cancel. destruct (sk_iosb x); try done. destruct (in_flight k n); [|done]. destruct o; [done|].
  cbn [ef_sys]. rewrite !system_in. cbn. intros [(o & Ho & ->)|?]; [|by right].
  apply elem_of_list_fmap in Ho as (o' & -> & Ho). left. exists o'. split; [done|]. unfold cancel_op. by case_match.
Qed.
Lemma update_sys_refs m k q o p : p ∈ system_refs (ef_sys (update m k q o)) -> p ∈ system_refs k \/ p = q.
Proof.
  destruct q as [n|n|n|]; cbn [update]; try by left.
  - destruct (socks m !! n) as [x|]; [|by left]. destruct (sk_deleting x); [by left|]. destruct (sk_status x) as [|f|].
    + apply poll_sys_refs.
    + case_bool_decide; [|by left]. intros Hc. left. by eapply cancel_sys_refs.
    + by left.
  - destruct (wtbs m !! n) as [w|]; [|by left]. destruct (no_interest _); [by left|]. destruct (wt_status w); try by left.
    destruct o; [by left|]. cbn [ef_sys]. rewrite !system_in. cbn. intros [?|[?|[(h & j & Hj & ->)|?]]]; [left; auto..| |left; auto].
    apply lookup_insert_Some in Hj as [[_ <-]|[_ Hj]]; [by right|]. left. right. right. left. eauto.
Qed.
Lemma delete_sys_refs m k q o p : p ∈ system_refs (ef_sys (begin_delete m k q o)) -> p ∈ system_refs k.
Proof.
  destruct q as [n|n|n|]; cbn [begin_delete]; try done.
  - destruct (socks m !! n) as [x|]; [|done]. destruct (sk_deleting x); [done|]. destruct (sk_status x) as [|f|]; try done. apply cancel_sys_refs.
  - destruct (wtbs m !! n) as [w|]; [|done]. destruct (wt_status w); try done.
    cbn [ef_sys]. rewrite !system_in. cbn. intros [?|[?|[(h' & j & Hj & ->)|?]]]; auto.
    apply lookup_delete_Some in Hj as [_ Hj]. right. right. left. eauto.
Qed.
Lemma table_in_src s x n : sources s !! x = Some n -> PSock n ∈ table_refs s.
Proof. intros H. unfold table_refs. apply elem_of_app. left. apply elem_of_list_fmap. exists n. split; [done|]. apply elem_of_list_fmap. exists (x, n). split; [done|]. by apply elem_of_map_to_list. Qed.
Lemma table_in_wtb s x n : waitables s !! x = Some n -> PWait n ∈ table_refs s.
Proof. intros H. unfold table_refs. apply elem_of_app. right. apply elem_of_list_fmap. exists n. split; [done|]. apply elem_of_list_fmap. exists (x, n). split; [done|]. by apply elem_of_map_to_list. Qed.
Lemma table_out s p : p ∈ table_refs s -> (exists x n, sources s !! x = Some n /\ p = PSock n) \/ (exists x n, waitables s !! x = Some n /\ p = PWait n).
Proof.
  unfold table_refs. intros [H|H]%elem_of_app; apply elem_of_list_fmap in H as (n & -> & H); apply elem_of_list_fmap in H as ([x n'] & -> & H); apply elem_of_map_to_list in H;
    [left|right]; by exists x, n'.
Qed.

Definition from (s s' : state) (p : pid) : Prop := p ∈ owners s' -> p ∈ owners s \/ ~ exists_in (pmem s) p.
Lemma from_thread s s1 i q q' p :
  of_source p -> threads s !! i = Some q -> threads s1 = threads s -> waiter s1 = waiter s ->
  (p ∈ system_refs (sys s1) -> p ∈ owners s \/ ~ exists_in (pmem s) p) ->
  (p ∈ table_refs s1 -> p ∈ owners s \/ ~ exists_in (pmem s) p) ->
  (p ∈ pending s1 -> p ∈ owners s \/ ~ exists_in (pmem s) p) ->
  (p ∈ pc_refs q' -> p ∈ owners s \/ ~ exists_in (pmem s) p) -> from s (set_pc s1 i q') p.
Proof.
  intros O Hq E1 E2 A B C D. unfold from. rewrite (owners_in (set_pc s1 i q')) by done. cbn. intros [H|[H|[H|[H|(j & r & Hj & H)]]]]; auto.
  - left. apply owners_in; [done|]. rewrite <- E2. auto.
  - rewrite E1 in Hj. apply list_lookup_insert_Some in Hj as [(_ & <- & _)|[_ Hj]]; [auto|]. left. apply owners_in; [done|]. do 4 right. eauto.
Qed.
Lemma from_waiter s s1 w p :
  of_source p -> threads s1 = threads s ->
  (p ∈ system_refs (sys s1) -> p ∈ owners s) -> (p ∈ table_refs s1 -> p ∈ owners s) -> (p ∈ pending s1 -> p ∈ owners s) ->
  (p ∈ wait_refs w -> p ∈ owners s) -> from s (set_waiter s1 w) p.
Proof.
  intros O E1 A B C D. unfold from. rewrite (owners_in (set_waiter s1 w)) by done. cbn. rewrite E1. intros [H|[H|[H|[H|(j & r & Hj & H)]]]]; auto.
  left. apply owners_in; [done|]. do 4 right. eauto.
Qed.
(** The parts of the owners. *)
Lemma own_sys s p : of_source p -> p ∈ system_refs (sys s) -> p ∈ owners s.
Proof. intros O H. apply owners_in; auto. Qed.
Lemma own_table s p : of_source p -> p ∈ table_refs s -> p ∈ owners s.
Proof. intros O H. apply owners_in; auto. Qed.
Lemma own_pending s p : of_source p -> p ∈ pending s -> p ∈ owners s.
Proof. intros O H. apply owners_in; auto. Qed.
Lemma own_wait s p : of_source p -> p ∈ wait_refs (waiter s) -> p ∈ owners s.
Proof. intros O H. apply owners_in; auto 6. Qed.
Lemma own_pc s i q p : of_source p -> threads s !! i = Some q -> p ∈ pc_refs q -> p ∈ owners s.
Proof. intros O H1 H2. apply owners_in; [done|]. do 4 right. eauto. Qed.

(** An update brings in nothing but what it updates. *)
Lemma ustep_from c s p0 u o s1 x p : ustep c s p0 u o = (s1, x) -> of_source p ->
  (p ∈ system_refs (sys s1) -> p ∈ system_refs (sys s) \/ p ∈ upd_refs p0 u)
  /\ table_refs s1 = table_refs s /\ (p ∈ pending s1 -> p ∈ pending s \/ p ∈ upd_refs p0 u)
  /\ (forall u', x = inl u' -> p ∈ upd_refs p0 u' -> p ∈ pending s \/ p ∈ upd_refs p0 u).
Proof.
  intros H O. assert (D : forall q, sys (do_update s q o).2 = ef_sys (update (pmem s) (sys s) q o) /\ pending (do_update s q o).2 = pending s
    /\ table_refs (do_update s q o).2 = table_refs s) by done.
  destruct u as [| | |[|n]|n q]; unfold ustep in H.
  - injection H as <- <-. split_and!; auto. intros u' [= <-]. destruct (polling s); auto.
  - specialize (D p0). destruct (do_update s p0 o) as [r s2]. injection H as <- <-. destruct D as (D1 & D2 & D3). cbn in D1, D2, D3. split_and!; try done.
    + rewrite D1. intros [?| ->]%update_sys_refs; [by left|]. right. by left.
    + rewrite D2. auto.
  - case_decide; injection H as <- <-; split_and!; auto.
    + cbn. intros [?|?%elem_of_list_singleton]%elem_of_app; [by left|]. right. subst. by left.
    + by intros u' [= <-].
    + intros u' [= <-]. auto.
  - injection H as <- <-. split_and!; auto. intros u' [= <-]. auto.
  - destruct (pending s) as [|q l] eqn:E; injection H as <- <-; split_and!; auto.
    + rewrite E. auto.
    + intros u' [= <-]. auto.
    + cbn. intros Hp. left. by right.
    + intros u' [= <-]. cbn. intros [->|Hq]%elem_of_cons; [right; by left|]. apply elem_of_list_singleton in Hq as ->. left. by left.
  - specialize (D q). destruct (do_update s q o) as [r s2]. destruct D as (D1 & D2 & D3). cbn in D1, D2, D3.
    assert (X : p ∈ system_refs (sys s2) -> p ∈ system_refs (sys s) \/ p ∈ upd_refs p0 (UDrainDo n q)).
    { rewrite D1. intros [?| ->]%update_sys_refs; [by left|]. right. right. by left. }
    destruct r as [[]|e|]; injection H as <- <-; (split; [exact X|]); (split; [done|]); (split; [cbn; rewrite D2; auto|]); intros u' [= <-].
    intros Hp. right. cbn in Hp |- *. apply elem_of_list_singleton in Hp. subst. by left.
Qed.
Lemma fresh_next m p : dom_ok m -> p = PSock (next m) \/ p = PWait (next m) -> ~ exists_in m p.
Proof. intros (D1 & D2 & _) [-> | ->] H; [apply D1 in H|apply D2 in H]; lia. Qed.
Lemma lookup_table s c p : lookup_packet s c = Some p -> p ∈ table_refs s.
Proof.
  destruct c; cbn; try done; intros H; apply fmap_Some in H as (n & H & ->); first [by eapply table_in_src|by eapply table_in_wtb].
Qed.
Lemma thread_from c s i q a s' p :
  tinv s -> of_source p -> threads s !! i = Some q -> thread_step c s i q a = Some s' -> from s s' p.
Proof.
  intros T O Hq H. pose proof (t_pc _ T _ _ Hq) as P. pose proof (own_sys s p O) as OS. pose proof (own_table s p O) as OT.
  pose proof (own_pending s p O) as OP. pose proof (own_pc s i q p O Hq) as OQ.
  assert (N : forall s2 q2, threads s2 = threads s -> waiter s2 = waiter s -> sys s2 = sys s -> table_refs s2 = table_refs s -> pending s2 = pending s ->
     (p ∈ pc_refs q2 -> p ∈ owners s \/ ~ exists_in (pmem s) p) -> from s (set_pc s2 i q2) p).
  { intros s2 q2 E1 E2 E3 E4 E5 E6. eapply from_thread; try done; [rewrite E3|rewrite E4|rewrite E5]; auto. }
  assert (Z : p ∈ [] -> p ∈ owners s \/ ~ exists_in (pmem s) p) by by intros ?%not_elem_of_nil.
  destruct q, a; try done; unfold thread_step in H; cbn in P.
  - injection H as <-. apply (N (emit s (Called i c0)) (entry c0)); try done. destruct c0; try done; by destruct m.
  - destruct o; [injection H as <-; by apply N|]. destruct (new_packet _ _) as [[[m q] ob]|] eqn:E; [|done]. cbn [mbind option_bind] in H. injection H as <-.
    apply N; try done. cbn. intros ->%elem_of_list_singleton. right. apply fresh_next; [apply T|].
    destruct c0; cbn in E; try done; injection E as _ <- _; auto.
  - destruct (insert_packet _ _ _) as [s1|] eqn:E; injection H as <-; [|by apply N].
    cbn in OQ. assert (X : threads s1 = threads s /\ waiter s1 = waiter s /\ sys s1 = sys s /\ pending s1 = pending s /\ (p ∈ table_refs s1 -> p ∈ table_refs s \/ p = p0)).
    { destruct c0, p0; cbn in E; try done; (case_in E; [done|]); injection E as <-; split_and!; try done; intros [(y & m' & Hm & ->)|(y & m' & Hm & ->)]%table_out; cbn in Hm;
        try (left; by eapply table_in_src); try (left; by eapply table_in_wtb);
        apply lookup_insert_Some in Hm as [[_ <-]|[_ Hm]]; auto; left; [by eapply table_in_src|by eapply table_in_wtb]. }
    destruct X as (X1 & X2 & X3 & X4 & X5). eapply from_thread; try done; [rewrite X3; auto| |rewrite X4; auto|].
    + intros [?| ->]%X5; [auto|]. left. apply OQ. by left.
    + intros Hp%elem_of_list_singleton. left. apply OQ. subst. by left.
  - destruct (lookup_packet _ _) as [p1|] eqn:E; injection H as <-; apply N; try done. cbn. intros ->%elem_of_list_singleton. left. apply OT. by eapply lookup_table.
  - destruct (do_set _ _ _) as [[s1 b]|] eqn:E; [|done]. cbn [mbind option_bind] in H. injection H as <-.
    assert (X : threads s1 = threads s /\ waiter s1 = waiter s /\ sys s1 = sys s /\ pending s1 = pending s /\ table_refs s1 = table_refs s).
    { destruct c0, p0; cbn in E; try done; (case_in E; [|done]); cbn in E; by injection E as <- _. }
    destruct X as (X1 & X2 & X3 & X4 & X5). destruct b; apply N; try done. cbn. auto.
  - destruct (ustep _ _ _ _ _) as [s1 x] eqn:E. injection H as <-. destruct (ustep_frame _ _ _ _ _ _ _ E) as (X1 & X2 & _).
    destruct (ustep_from _ _ _ _ _ _ _ p E O) as (F1 & F2 & F3 & F4). cbn in OQ. eapply from_thread; try done.
    + intros [?|?]%F1; auto.
    + rewrite F2. auto.
    + intros [?|?]%F3; auto.
    + destruct x as [u'|r]; [|done]. intros [?|?]%F4; auto.
  - destruct (lookup_packet _ _) as [p1|] eqn:E; injection H as <-; [|by apply N].
    pose proof (lookup_table _ _ _ E) as X.
    eapply from_thread; try done; [by destruct c0|by destruct c0|destruct c0; by auto| |destruct c0; by auto|].
    + intros Ht. left. apply OT. apply table_out in Ht as [(y & m' & Hm & ->)|(y & m' & Hm & ->)]; destruct c0; cbn in Hm; try (by eapply table_in_src); try (by eapply table_in_wtb);
        apply lookup_delete_Some in Hm as [_ Hm]; [by eapply table_in_src|by eapply table_in_wtb].
    + cbn. intros ->%elem_of_list_singleton. auto.
  - assert (D : sys (do_delete s p0 o).2 = ef_sys (begin_delete (pmem s) (sys s) p0 o) /\ pending (do_delete s p0 o).2 = pending s
      /\ table_refs (do_delete s p0 o).2 = table_refs s /\ threads (do_delete s p0 o).2 = threads s /\ waiter (do_delete s p0 o).2 = waiter s) by done.
    destruct (do_delete s p0 o) as [r s1]. destruct D as (D1 & D2 & D3 & D4 & D5). cbn in D1, D2, D3, D4, D5. injection H as <-.
    eapply from_thread; try done; [rewrite D1|rewrite D3|rewrite D2]; auto. intros ?%delete_sys_refs; auto.
  - destruct (notified s); injection H as <-; by apply N.
  - unfold do_post in H; destruct o; injection H as <-; [by apply N|].
    eapply from_thread; try done; auto. rewrite system_in. cbn. intros [?|[[?|Hp]%elem_of_app|?]]; [left; apply OS, system_in; auto..| |left; apply OS, system_in; auto].
    apply elem_of_list_singleton in Hp as ->. by destruct p0.
  - injection H as <-. by apply (N (emit s (Returned i c0 r)) Out).
Qed.
Ltac mem := unfold upd_refs in *; cbn [app] in *; rewrite ?elem_of_app, ?elem_of_cons, ?elem_of_nil in *; tauto.
Lemma wait_from c s a s' p :
  tinv s -> of_source p -> wait_step c s a = Some s' -> from s s' p.
Proof.
  intros T O H. unfold wait_step in H. pose proof (own_sys s p O) as OS. pose proof (own_table s p O) as OT.
  pose proof (own_pending s p O) as OP. pose proof (own_wait s p O) as OW.
  assert (N : forall s2 w, threads s2 = threads s -> sys s2 = sys s -> table_refs s2 = table_refs s -> pending s2 = pending s ->
     (p ∈ wait_refs w -> p ∈ owners s) -> from s (set_waiter s2 w) p).
  { intros s2 w E1 E3 E4 E5 E6. eapply from_waiter; try done; [rewrite E3|rewrite E4|rewrite E5]; auto. }
  assert (NE : forall s2, threads s2 = threads s -> sys s2 = sys s -> table_refs s2 = table_refs s -> pending s2 = pending s ->
     (p ∈ wait_refs (waiter s2) -> p ∈ owners s) -> from s s2 p).
  { intros s2 E1 E3 E4 E5 E6. apply (N s2 (waiter s2)) in E6; try done. }
  assert (Z : p ∈ [] -> p ∈ owners s) by by intros ?%not_elem_of_nil.
  destruct (waiter s) as [|l|l|l q|l z|l z b|l z b|l z p1 b|l z b ret p1 u|l e g|l|d own b] eqn:E, a;
    try done; try (by destruct b); cbn in OW; try (injection H as <-; by apply N).
  - destruct (pending s) as [|q r] eqn:Ep; injection H as <-.
    + apply (N (emit s (Clock now))); try done; by rewrite Ep.
    + eapply from_waiter; try done; cbn; auto. 
      * intros ?. apply OP. by right.
      * intros ->%elem_of_list_singleton. apply OP. by left.
  - assert (D : sys (do_update s q o).2 = ef_sys (update (pmem s) (sys s) q o) /\ pending (do_update s q o).2 = pending s
      /\ table_refs (do_update s q o).2 = table_refs s /\ threads (do_update s q o).2 = threads s) by done.
    destruct (do_update s q o) as [r s1]. destruct D as (D1 & D2 & D3 & D4). cbn in D1, D2, D3, D4. injection H as <-.
    eapply from_waiter; try done; [rewrite D1|rewrite D3|rewrite D2|]; auto; [|by destruct r].
    intros [?| ->]%update_sys_refs; auto. apply OW. by left.
  - case_decide; [done|]. injection H as <-. eapply from_waiter; try done.
    + rewrite system_in. cbn. intros [?|[Hq|?]]; [apply OS, system_in; auto| |apply OS, system_in; auto].
      apply OS, system_in. right. left. apply elem_of_list_lookup in Hq as [j Hj]. rewrite lookup_drop in Hj. by eapply elem_of_list_lookup_2.
    + cbn. intros Hq. apply OS, system_in. right. left. apply elem_of_list_lookup in Hq as [j Hj]. apply lookup_take_Some in Hj as [Hj _]. by eapply elem_of_list_lookup_2.
  - destruct b; [case_match|]; injection H as <-; by apply N.
  - destruct p1 as [j|j|j|]; unfold feed_step in H.
    + destruct (socks (pmem s) !! j) as [k|] eqn:Ek; [|done]. cbn [mbind option_bind] in H.
      destruct (feed_sock k) as [k'|k'|k' r] eqn:F.
      * destruct (sources s !! sk_socket k) as [n'|] eqn:Es; [|injection H as <-; by apply N].
        assert (TR : forall y, y ∈ table_refs (set_maps s (delete (sk_socket k) (sources s)) (waitables s)) -> y ∈ table_refs s).
        { intros y [(x0 & m' & Hm & ->)|(x0 & m' & Hm & ->)]%table_out; cbn in Hm; [|by eapply table_in_wtb]. apply lookup_delete_Some in Hm as [_ Hm]. by eapply table_in_src. }
        case_decide.
        { injection H as <-. eapply from_waiter; try done; cbn; auto. intros Hp. apply OW; mem. }
        set (s2 := set_maps _ _ _) in *.
        assert (D : sys (do_delete s2 (PSock n') o).2 = ef_sys (begin_delete (pmem s2) (sys s2) (PSock n') o) /\ pending (do_delete s2 (PSock n') o).2 = pending s
           /\ table_refs (do_delete s2 (PSock n') o).2 = table_refs s2 /\ threads (do_delete s2 (PSock n') o).2 = threads s) by done.
        destruct (do_delete s2 (PSock n') o) as [r s3]. destruct D as (D1 & D2 & D3 & D4). cbn [snd] in D1, D2, D3, D4. injection H as <-.
        assert (K : forall s4 w, sys s4 = sys s3 -> pending s4 = pending s3 -> table_refs s4 = table_refs s3 -> threads s4 = threads s3 -> (p ∈ wait_refs w -> p ∈ owners s) -> from s (set_waiter s4 w) p).
        { intros s4 w E1 E2 E3 E4 E5. eapply from_waiter; try done; [congruence|rewrite E1, D1|rewrite E3, D3|rewrite E2, D2]; auto.
          - intros ?%delete_sys_refs. auto. }
        destruct r as [[]|err|]; apply K; try done; cbn; intros Hp; apply OW; mem.
      * injection H as <-. apply NE; try done. cbn. intros Hp. apply OW. by right.
      * injection H as <-. by apply NE.
    + destruct (wtbs (pmem s) !! j) as [k|] eqn:Ek; [|done]. cbn [mbind option_bind] in H. destruct (feed_wtb k) as [k' r]. injection H as <-. by apply NE.
    + destruct (customs (pmem s) !! j) as [k|] eqn:Ek; [|done]. cbn [mbind option_bind] in H. injection H as <-. apply NE; try done. cbn. intros Hp. apply OW. by right.
    + injection H as <-. apply NE; try done. cbn. intros Hp. apply OW. by right.
  - destruct (ustep _ _ _ _ _) as [s1 x] eqn:Eu. injection H as <-. destruct (ustep_frame _ _ _ _ _ _ _ Eu) as (X1 & _).
    destruct (ustep_from _ _ _ _ _ _ _ p Eu O) as (F1 & F2 & F3 & F4). change (p ∈ upd_refs p1 u ++ b -> p ∈ owners s) in OW.
    assert (K : forall s4 w, sys s4 = sys s1 -> pending s4 = pending s1 -> table_refs s4 = table_refs s1 -> threads s4 = threads s1 -> (p ∈ wait_refs w -> p ∈ owners s) -> from s (set_waiter s4 w) p).
    { intros s4 w E1 E2 E3 E4 E5. eapply from_waiter; try done; [congruence|rewrite E1|rewrite E3, F2|rewrite E2]; auto.
      - intros [?|?]%F1; auto. apply OW, elem_of_app; by left.
      - intros [?|?]%F3; auto. apply OW, elem_of_app; by left. }
    destruct x as [u'|[[]|err|]]; apply K; try done; cbn [wait_refs opened batch app]; intros Hp.
    + apply elem_of_app in Hp as [Hp|Hp]; [|apply OW, elem_of_app; by right]. destruct (F4 _ eq_refl Hp); [auto|]. apply OW, elem_of_app; by left.
    + apply OW, elem_of_app; by right.
    + apply OW, elem_of_app; by right.
Qed.

Lemma env_from c s l s' p : of_source p -> tinv s ->
  step c s l = Some s' -> (match l with LThread _ _ | LWait _ _ _ | LWaiter _ => False | _ => True end) -> from s s' p.
Proof.
  intros O T H X. destruct (env_log _ _ _ _ H X) as (W & Et & _ & Ep & _). unfold from. rewrite !owners_in by done. rewrite W, Et, Ep.
  assert (Y : table_refs s' = table_refs s /\ (p ∈ system_refs (sys s') -> p ∈ system_refs (sys s))).
  { destruct l; try done; cbn -[do_post] in H.
    - by injection H as <-.
    - destruct (ops (sys s) !! i) as [x|] eqn:Ei; [|done]. cbn in H. case_in H; [|done]. cbn in H. injection H as <-. split; [done|].
      rewrite !system_in. cbn. intros [(o & Ho & ->)|[[?|Hq]%elem_of_app|?]]; auto.
      + left. exists o. split; [|done]. unfold remove_nth in Ho. apply elem_of_app in Ho as [Ho|Ho]; apply elem_of_list_lookup in Ho as [j Hj].
        * apply lookup_take_Some in Hj as [Hj _]. by eapply elem_of_list_lookup_2.
        * rewrite lookup_drop in Hj. by eapply elem_of_list_lookup_2.
      + left. apply elem_of_list_singleton in Hq as ->. exists x. split; [by eapply elem_of_list_lookup_2|done].
    - destruct (waits (sys s) !! h) as [n|] eqn:Eh; [|done]. cbn in H. injection H as <-. split; [done|].
      rewrite !system_in. cbn. intros [?|[?|[(h' & j & Hj & ->)|(x & [Hx|Hx]%elem_of_app & ->)]]]; auto.
      + apply lookup_delete_Some in Hj as [_ Hj]. right. right. left. eauto.
      + right. right. right. eauto.
      + apply elem_of_list_singleton in Hx as ->. right. right. left. eauto.
    - destruct (cbs (sys s) !! j) as [x|] eqn:Ej; [|done]. cbn -[do_post] in H. assert (Hx : x ∈ cbs (sys s)) by by eapply elem_of_list_lookup_2.
      destruct x as [m|m].
      + case_in H; [|done]. cbn in H. injection H as <-. split; [done|]. rewrite !system_in. cbn. intros [?|[?|[?|(x & Hx' & ->)]]]; auto.
        right. right. right. apply elem_of_list_lookup in Hx' as [i Hi]. apply list_lookup_insert_Some in Hi as [(_ & <- & _)|[_ Hi]].
        * by exists (CbStart m).
        * exists x. split; [by eapply elem_of_list_lookup_2|done].
      + injection H as <-. assert (R : forall x, x ∈ remove_nth j (cbs (sys s)) -> x ∈ cbs (sys s)).
        { intros x Hx'. unfold remove_nth in Hx'. apply elem_of_app in Hx' as [Ho|Ho]; apply elem_of_list_lookup in Ho as [i Hj].
          - apply lookup_take_Some in Hj as [Hj _]. by eapply elem_of_list_lookup_2.
          - rewrite lookup_drop in Hj. by eapply elem_of_list_lookup_2. }
        destruct o; (split; [done|]); rewrite !system_in; cbn.
        * intros [?|[?|[?|(x & ?%R & ->)]]]; eauto 6.
        * intros [?|[[?|Hq]%elem_of_app|[?|(x & ?%R & ->)]]]; eauto 6. apply elem_of_list_singleton in Hq as ->. right. right. right. by exists (CbPost m). }
  destruct Y as [-> Y]. tauto.
Qed.
Lemma step_from c s l s' p : of_source p -> tinv s -> step c s l = Some s' -> from s s' p.
Proof.
  intros O T H. destruct (step_cases _ _ _ _ H) as [(i & q & a & _ & Hq & X)|[(a & _ & X)|[(cap & d & old & E & ->)|X]]].
  - by eapply thread_from.
  - by eapply wait_from.
  - unfold from. rewrite !owners_in by done. rewrite E. tauto.
  - by eapply env_from.
Qed.

Lemma later_reachable c s s' : reachable c s -> later c s s' -> reachable c s'.
Proof. intros R. induction 1; [done|]. by eapply reach_step. Qed.
Lemma step_log c s l s' : tinv s -> step c s l = Some s' -> exists d, log s' = log s ++ d.
Proof.
  intros T H. destruct (step_cases _ _ _ _ H) as [(i & q & a & _ & Hq & X)|[(a & _ & X)|[(cap & d0 & old & E & ->)|X]]].
  - destruct (thread_log _ _ _ _ _ _ T Hq X) as (_ & d' & Ed' & _). eauto.
  - destruct (wait_keeps _ _ _ _ T X) as (d & _ & Ed & _). eauto.
  - by eexists.
  - destruct (env_calls _ _ _ _ H X) as (d & Ed & _). eauto.
Qed.
Lemma wait_fed c s a s' p r d : tinv s -> wait_step c s a = Some s' -> log s' = log s ++ d -> Fed p r ∈ d -> opened (waiter s) = [p].
Proof.
  intros T H Ed Hin. pose proof (t_wait _ T) as TW. unfold wait_step in H.
  assert (N : log s' = log s -> opened (waiter s) = [p]).
  { intros E. rewrite E in Ed. rewrite <- (app_nil_r (log s)) in Ed at 1. apply app_inv_head in Ed as <-. by apply not_elem_of_nil in Hin. }
  assert (N1 : forall o, log s' = log s ++ [o] -> match o with Fed _ _ => False | _ => True end -> opened (waiter s) = [p]).
  { intros o E F. rewrite E in Ed. apply app_inv_head in Ed as <-. apply elem_of_list_singleton in Hin. by subst o. }
  assert (M : forall d, Forall mishap d -> Fed p r ∉ d).
  { intros d0 F Hy. rewrite Forall_forall in F. by apply F in Hy. }
  assert (ML : forall b, Fed p r ∉ map Lost b).
  { intros b Hy. by apply elem_of_list_fmap in Hy as (? & ? & _). }
  destruct (waiter s) as [|l|l|l q|l z|l z b|l z b|l z p1 b|l z b ret p1 u|l e g|l|d0 own b] eqn:E, a;
    try done; try (by destruct b); cbn in TW; try (injection H as <-; by apply N).
  - destruct (pending s) as [|q l0] eqn:Ep; injection H as <-; [by eapply N1|by apply N].
  - assert (X : log (do_update s q o).2 = log s ++ (if ef_fault (update (pmem s) (sys s) q o) then [Fault q] else [])) by done.
    destruct (do_update s q o) as [r0 s1]. injection H as <-. cbn in X. destruct (ef_fault _); [by eapply N1|]. rewrite app_nil_r in X. by apply N.
  - case_decide; [done|]. injection H as <-. by apply N.
  - destruct b; [case_match|]; injection H as <-; by apply N.
  - destruct (feed_log _ _ _ _ _ _ _ T E H) as (_ & _ & _ & _ & _ & r1 & d1 & L & D). rewrite L in Ed. apply app_inv_head in Ed as <-.
    apply elem_of_cons in Hin as [Hin|Hin]; [by injection Hin as -> _|]. exfalso.
    assert (G : forall d2, Forall deletes d2 -> Fed p r ∉ d2).
    { intros d2 F Hy. rewrite Forall_forall in F. by apply F in Hy as [?|[? ?]]. }
    destruct D as [(D1 & _)|(d2 & -> & D1 & _)]; [by eapply G|]. apply elem_of_app in Hin as [Hin|Hin]; [by eapply G|by eapply ML].
  - exfalso. destruct TW as (TW1 & TW2 & TW3). destruct (ustep _ _ _ _ _) as [s1 x] eqn:Eu.
    destruct (ustep_log _ _ _ _ _ _ _ TW1 TW2 Eu) as (Q & d1 & D1 & D2 & D3 & D4).
    destruct x as [u'|[[]|e|]]; [| | |done]; injection H as <-; cbn in Ed; rewrite D1 in Ed; rewrite <- ?app_assoc in Ed; apply app_inv_head in Ed; subst d.
    1,2: by eapply M. apply elem_of_app in Hin as [Hin|Hin]; [by eapply M|by eapply ML].
  - injection H as <-. by eapply N1.
  - injection H as <-. by eapply N1.
Qed.
Lemma step_fed c s l s' p r d : tinv s -> of_source p -> step c s l = Some s' -> log s' = log s ++ d -> Fed p r ∈ d -> p ∈ owners s.
Proof.
  intros T O H Ed Hin. destruct (step_cases _ _ _ _ H) as [(i & q & a & _ & Hq & X)|[(a & _ & X)|[(cap & d0 & old & E & ->)|X]]].
  - destruct (thread_log _ _ _ _ _ _ T Hq X) as (_ & d' & Ed' & As & _). assert (d' = d) as -> by (rewrite Ed in Ed'; by apply app_inv_head in Ed').
    rewrite Forall_forall in As. by apply As in Hin.
  - pose proof (wait_fed _ _ _ _ _ _ _ T X Ed Hin) as Op. apply own_wait; [done|]. destruct (waiter s); try done. cbn in Op. injection Op as ->. by left.
  - cbn in Ed. apply app_inv_head in Ed as <-. by apply elem_of_list_singleton in Hin.
  - destruct (env_log _ _ _ _ H X) as (_ & _ & _ & _ & _ & d' & Ed' & As & _). assert (d' = d) as -> by (rewrite Ed in Ed'; by apply app_inv_head in Ed').
    rewrite Forall_forall in As. by apply As in Hin.
Qed.
Lemma unreferred_later c s s' p : reachable c s -> of_source p -> Removed p ∈ log s -> p ∉ owners s -> later c s s' ->
  p ∉ owners s' /\ exists d, log s' = log s ++ d /\ forall r, Fed p r ∉ d.
Proof.
  intros R O E U. induction 1 as [|s1 l s2 HL IH L H]; [split_and!; try done; exists []; rewrite app_nil_r; split; [done|]; intros r; apply not_elem_of_nil|].
  destruct IH as (I2 & d & I3 & I4). pose proof (later_reachable _ _ _ R HL) as R1. pose proof (tinv_reach _ _ R1) as T1.
  destruct (step_log _ _ _ _ T1 H) as [d' Ed].
  assert (EX : exists_in (pmem s1) p) by (apply (k_gone _ (kinv_reach _ _ R1)); rewrite I3; apply elem_of_app; by left).
  split_and!.
  - intros Hp. by destruct (step_from _ _ _ _ _ O T1 H Hp).
  - exists (d ++ d'). split; [by rewrite Ed, I3, app_assoc|]. intros r [Hr|Hr]%elem_of_app; [by apply I4 in Hr|].
    apply I2. by eapply step_fed.
Qed.
