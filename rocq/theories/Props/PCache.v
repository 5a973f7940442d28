(** The link cache: C27 to C33. *)
From Verif.Model Require Import Cache Store.
From Verif.Spec Require Import OptionsSpec CacheSpec.
From Verif.Proof Require Import AttrsP CacheP.

(** The cache after a history of calls. *)
Definition after (ks : list ccall) : cache := crun new_cache (ccall_op <$> ks).
(** its elementary events, newest first *)
Definition events (ks : list ccall) : list cev := reverse (ks ≫= ccall_events).

Lemma after_agree ks : cache_agree (events ks) (after ks).
Proof.
  pose proof (crun_agree [] new_cache ks cache_agree_new) as H.
  rewrite app_nil_r in H. exact H.
Qed.
Lemma after_from ks o st u : cache_get_from o st (after ks) u = one_slot (from_val (events ks) u).
Proof. destruct (after_agree ks) as [H _]. exact (index_agree_get _ _ _ _ o st u H). Qed.
Lemma after_to ks o st u : cache_get_to o st (after ks) u = one_slot (to_val (events ks) u).
Proof. destruct (after_agree ks) as [_ H]. exact (index_agree_get _ _ _ _ o st u H). Qed.
Lemma after_snoc ks k : after (ks ++ [k]) = (cstep (after ks) (ccall_op k)).2.
Proof. unfold after, crun. rewrite fmap_app, fold_left_app. done. Qed.
Lemma events_snoc ks k : events (ks ++ [k]) = reverse (ccall_events k) ++ events ks.
Proof. unfold events. rewrite bind_app, reverse_app. simpl. by rewrite app_nil_r. Qed.
Lemma events_app ks js : events (ks ++ js) = events js ++ events ks.
Proof. unfold events. by rewrite bind_app, reverse_app. Qed.

(** C28.  Every call succeeds, and GetFrom and GetTo return exactly what
    Spec/CacheSpec.v reads off the history: at most one link per UID. *)
Theorem c28_exact_content :
  forall (ks : list ccall) (o : iter_order) (st : site) (u : UID),
    cache_get_from o st (after ks) u = one_slot (from_val (events ks) u) /\
    cache_get_to o st (after ks) u = one_slot (to_val (events ks) u) /\
    forall k, (cstep (after ks) (ccall_op k)).1 = Ok ().
Proof.
  intros ks o st u. split; [apply after_from|]. split; [apply after_to|].
  intros k. destruct (ccall_agree _ _ k (after_agree ks)) as (c1&->&_). done.
Qed.
Print Assumptions c28_exact_content.

Definition ua : UID := UVal "a". Definition ub : UID := UVal "b". Definition uc : UID := UVal "c".
Definition lk (n : string) (f t : UID) : link := Link (UVal n) f t 0%N.
Example c28_example :
  cache_get_from iter_id [] (after [KPut (lk "1" ua ub) []; KPut (lk "2" ua ub) []; KPut (lk "3" ua uc) [];
     KBulkPut [lk "4" ua uc; lk "5" ub uc] [CUpsert]; KDelete ub]) ua = Ok [Some (lk "4" ua uc)].
Proof. vm_compute. reflexivity. Qed.

(** C27, the full statement: a link put into the cache stays reachable from both
    of its ends as long as neither end is deleted and the cache is not cleared. *)
Definition harmless (l : link) (e : cev) : Prop :=
  match e with EPut _ _ => True | EDel u => u <> l_from l /\ u <> l_to l | EClear => False end.
Definition joins (l : link) (r : res (list (option link))) : Prop :=
  exists ls l', r = Ok ls /\ Some l' ∈ ls /\ l_from l' = l_from l /\ l_to l' = l_to l.
Definition c27_full : Prop :=
  forall ks l s js, Forall (harmless l) (js ≫= ccall_events) ->
    forall o st,
      joins l (cache_get_from o st (after (ks ++ [KPut l s] ++ js)) (l_from l)) /\
      joins l (cache_get_to o st (after (ks ++ [KPut l s] ++ js)) (l_to l)).
(** It is false: a second link from the same origin evicts the first. *)
Theorem c27_links_found_from_both_ends_refuted : ~ c27_full.
Proof.
  intros H. destruct (H [] (lk "1" ua ub) [] [KPut (lk "2" ua uc) []]) with (o := iter_id) (st := @nil nat)
    as [(ls&l'&Hr&Hin&_&Ht) _].
  - repeat constructor.
  - assert (Hls : Ok ls = Ok [Some (lk "2" ua uc)]) by (rewrite <- Hr; vm_compute; reflexivity).
    injection Hls as ->. apply elem_of_list_singleton in Hin. injection Hin as ->. discriminate Ht.
Qed.
Print Assumptions c27_links_found_from_both_ends_refuted.

(** What holds: the link stays reachable from its origin (end) as long as, in
    addition, no link from the same origin to another end (to the same end from
    another origin) is put. *)
Definition same_row (key peer : link -> UID) (l : link) (e : cev) : Prop :=
  match e with
  | EPut l' _ => key l' = key l -> peer l' = peer l
  | EDel u => u <> key l
  | EClear => False
  end.
Lemma index_val_stays key peer (l : link) es h l0 :
  index_val key peer h (key l) = Some l0 -> key l0 = key l -> peer l0 = peer l ->
  Forall (same_row key peer l) es ->
  exists l', index_val key peer (es ++ h) (key l) = Some l' /\ key l' = key l /\ peer l' = peer l.
Proof.
  intros H0 Hk Hp. induction es as [|e es IH]; intros Hes; [eauto|].
  apply Forall_cons in Hes as [He Hes]. destruct (IH Hes) as (l'&H1&H2&H3).
  destruct e as [x ups|u|]; simpl in *.
  - case_bool_decide as E; [|eauto]. rewrite H1. case_bool_decide; [eauto|].
    exists x. eauto.
  - rewrite bool_decide_false by done. eauto.
  - done.
Qed.
Theorem c27_links_found_from_both_ends_partial :
  forall ks l s js o st,
    (Forall (same_row l_from l_to l) (js ≫= ccall_events) ->
     joins l (cache_get_from o st (after (ks ++ [KPut l s] ++ js)) (l_from l))) /\
    (Forall (same_row l_to l_from l) (js ≫= ccall_events) ->
     joins l (cache_get_to o st (after (ks ++ [KPut l s] ++ js)) (l_to l))).
Proof.
  intros ks l s js o st.
  assert (Hgen : forall key peer,
    (forall x y, key x = key y -> peer x = peer y -> l_from x = l_from y /\ l_to x = l_to y) ->
    Forall (same_row key peer l) (js ≫= ccall_events) ->
    joins l (one_slot (index_val key peer (events (ks ++ [KPut l s] ++ js)) (key l)))).
  { intros key peer Hkp Hall. rewrite !events_app.
    assert (Hput : exists l0, index_val key peer (events [KPut l s] ++ events ks) (key l) = Some l0 /\
                              key l0 = key l /\ peer l0 = peer l).
    { unfold events at 1. simpl. rewrite bool_decide_true by done.
      assert (Hkey : forall h x, index_val key peer h (key l) = Some x -> key x = key l).
      { induction h as [|[y b|v|] h IH]; simpl; intros x; [done| | |done].
        - case_bool_decide; [|apply IH]. destruct (index_val key peer h (key l)) eqn:E.
          + case_bool_decide; intros [= <-]; [by apply IH|done].
          + by intros [= <-].
        - case_bool_decide; [done|apply IH]. }
      destruct (index_val key peer (events ks) (key l)) as [x|] eqn:E.
      - case_bool_decide as D; [|eauto]. destruct D as [D _]. exists x. eauto.
      - eauto. }
    destruct Hput as (l0&E0&E1&E2).
    destruct (index_val_stays key peer l (events js) _ l0 E0 E1 E2) as (l'&E&F1&F2).
    { unfold events. by apply Forall_reverse. }
    rewrite <- app_assoc. rewrite E. destruct (Hkp l' l F1 F2) as [G1 G2].
    exists [Some l'], l'. split; [done|]. split; [left|]. done. }
  rewrite after_from, after_to. split.
  - apply (Hgen l_from l_to). auto.
  - apply (Hgen l_to l_from). auto.
Qed.
Print Assumptions c27_links_found_from_both_ends_partial.
Example c27_example :
  Forall (same_row l_from l_to (lk "1" ua ub)) ([KPut (lk "2" ub ua) []; KPut (lk "3" ua ub) [CUpsert]; KDelete ub] ≫= ccall_events).
Proof. repeat constructor; done. Qed.

(** C29.  Putting a link between ends that an index already joins keeps the stored
    link in that index; with WithUpsert both indexes return the new link. *)
Theorem c29_put_without_upsert_keeps :
  forall ks l l0 o st,
    l_from l0 = l_from l -> l_to l0 = l_to l ->
    (cache_get_from o st (after ks) (l_from l) = Ok [Some l0] ->
     forall o' st', cache_get_from o' st' (after (ks ++ [KPut l []])) (l_from l) = Ok [Some l0]) /\
    (cache_get_to o st (after ks) (l_to l) = Ok [Some l0] ->
     forall o' st', cache_get_to o' st' (after (ks ++ [KPut l []])) (l_to l) = Ok [Some l0]).
Proof.
  intros ks l l0 o st Hf Ht. rewrite after_from, after_to.
  assert (Hone : forall v, one_slot v = Ok [Some l0] -> v = Some l0)
    by (intros [v|] [= ->]; done).
  split; intros H o' st'; apply Hone in H.
  - rewrite after_from, events_snoc. unfold from_val in *. simpl. rewrite bool_decide_true by done.
    rewrite H. by rewrite bool_decide_true.
  - rewrite after_to, events_snoc. unfold to_val in *. simpl. rewrite bool_decide_true by done.
    rewrite H. by rewrite bool_decide_true.
Qed.
Print Assumptions c29_put_without_upsert_keeps.
Theorem c29_put_with_upsert_replaces :
  forall ks l s o st, s <> [] ->
    cache_get_from o st (after (ks ++ [KPut l s])) (l_from l) = Ok [Some l] /\
    cache_get_to o st (after (ks ++ [KPut l s])) (l_to l) = Ok [Some l].
Proof.
  intros ks l s o st Hs. rewrite after_from, after_to, events_snoc. unfold from_val, to_val. simpl.
  rewrite !bool_decide_true by done.
  split.
  - destruct (index_val l_from l_to (events ks) (l_from l)); [|done].
    rewrite bool_decide_false; [done|]. by intros [_ ?].
  - destruct (index_val l_to l_from (events ks) (l_to l)); [|done].
    rewrite bool_decide_false; [done|]. by intros [_ ?].
Qed.
Print Assumptions c29_put_with_upsert_replaces.
Example c29_example :
  cache_get_from iter_id [] (after [KPut (lk "1" ua ub) []]) ua = Ok [Some (lk "1" ua ub)] /\
  cache_get_from iter_id [] (after [KPut (lk "1" ua ub) []; KPut (lk "2" ua ub) [CUpsert]]) ua = Ok [Some (lk "2" ua ub)].
Proof. split; vm_compute; reflexivity. Qed.

(** C30, the full statement, and the link that survives Delete(b) in the other
    index. *)
Definition touches (u : UID) (l : link) : Prop := l_from l = u \/ l_to l = u.
Definition c30_full : Prop :=
  forall ks u v o st ls,
    cache_get_from o st (after (ks ++ [KDelete u])) v = Ok ls \/
    cache_get_to o st (after (ks ++ [KDelete u])) v = Ok ls ->
    forall l, Some l ∈ ls -> ~ touches u l.
Theorem c30_delete_removes_all_refuted : ~ c30_full.
Proof.
  intros H. refine (H [KPut (lk "1" ua ub) []] ub ua iter_id [] [Some (lk "1" ua ub)] _ (lk "1" ua ub) _ _).
  - left. vm_compute. reflexivity.
  - left.
  - by right.
Qed.
Print Assumptions c30_delete_removes_all_refuted.
(** What holds: Delete(u) empties GetFrom(u) and GetTo(u) and changes nothing
    else. *)
Theorem c30_delete_removes_all_partial :
  forall ks u o st,
    cache_get_from o st (after (ks ++ [KDelete u])) u = Ok [] /\
    cache_get_to o st (after (ks ++ [KDelete u])) u = Ok [] /\
    forall v, v <> u ->
      cache_get_from o st (after (ks ++ [KDelete u])) v = cache_get_from o st (after ks) v /\
      cache_get_to o st (after (ks ++ [KDelete u])) v = cache_get_to o st (after ks) v.
Proof.
  intros ks u o st. rewrite !after_from, !after_to, events_snoc. unfold from_val, to_val. simpl.
  rewrite !bool_decide_true by done. split; [done|]. split; [done|].
  intros v Hv. rewrite !after_from, !after_to, events_snoc. unfold from_val, to_val. simpl.
  by rewrite !bool_decide_false by done.
Qed.
Print Assumptions c30_delete_removes_all_partial.

(** C31, the full statement, and the history after which the two indexes
    disagree. *)
Definition returns (r : res (list (option link))) (l : link) : Prop := exists ls, r = Ok ls /\ Some l ∈ ls.
Definition c31_full : Prop :=
  forall ks l o st,
    returns (cache_get_from o st (after ks) (l_from l)) l <-> returns (cache_get_to o st (after ks) (l_to l)) l.
Theorem c31_indexes_agree_refuted : ~ c31_full.
Proof.
  intros H.
  destruct (H [KPut (lk "1" ua ub) []; KPut (lk "2" ua uc) []] (lk "1" ua ub) iter_id []) as [_ Hb].
  destruct Hb as (ls&Hr&Hin).
  - exists [Some (lk "1" ua ub)]. split; [vm_compute; reflexivity|left].
  - assert (Hls : Ok ls = Ok [Some (lk "2" ua uc)]) by (rewrite <- Hr; vm_compute; reflexivity).
    injection Hls as ->. apply elem_of_list_singleton in Hin. discriminate Hin.
Qed.
Print Assumptions c31_indexes_agree_refuted.
(** What holds: an index never returns a link under a wrong UID or one that was
    not put, and right after a Put with upsert both return it. *)
Theorem c31_indexes_agree_partial :
  forall ks l u o st,
    (returns (cache_get_from o st (after ks) u) l ->
       l_from l = u /\ exists ups, EPut l ups ∈ events ks) /\
    (returns (cache_get_to o st (after ks) u) l ->
       l_to l = u /\ exists ups, EPut l ups ∈ events ks).
Proof.
  intros ks l u o st.
  assert (Hgen : forall key peer h, returns (one_slot (index_val key peer h u)) l ->
     key l = u /\ exists ups, EPut l ups ∈ h).
  { intros key peer h (ls&Hr&Hin). unfold one_slot in Hr.
    destruct (index_val key peer h u) as [x|] eqn:E; injection Hr as <-; [|by apply elem_of_nil in Hin].
    apply elem_of_list_singleton in Hin. injection Hin as ->.
    revert x E. induction h as [|[y b|v|] h IH]; simpl; intros x; [done| | |done].
    - case_bool_decide as D.
      + destruct (index_val key peer h u) eqn:E.
        * case_bool_decide; intros [= <-].
          -- destruct (IH _ eq_refl) as (?&b'&?). split; [done|]. exists b'. by right.
          -- split; [done|]. exists b. left.
        * intros [= <-]. split; [done|]. exists b. left.
      + intros E. destruct (IH _ E) as (?&b'&?). split; [done|]. exists b'. by right.
    - case_bool_decide; [done|]. intros E. destruct (IH _ E) as (?&b'&?). split; [done|].
      exists b'. by right. }
  rewrite after_from, after_to. split; apply Hgen.
Qed.
Print Assumptions c31_indexes_agree_partial.

(** C32.  Bulk writes are folds of the single ones, whatever the options. *)
Theorem c32_bulk_writes_are_folds :
  forall c ls opts us,
    cstep c (CBulkPut ls opts) = (Ok (), crun c ((fun l => CPut l opts) <$> ls)) /\
    cstep c (CBulkDelete us) = (Ok (), crun c (CDelete <$> us)).
Proof.
  intros c ls opts us. split.
  - revert c. induction ls as [|l ls IH]; intros c; [done|]. cbn [cstep cache_bulk_put] in *.
    rewrite fmap_cons. unfold crun. cbn [fold_left].
    assert (Hp : exists c1, cache_put c l opts = (Ok (), c1)).
    { unfold cache_put. destruct (co_upsert _); eauto. }
    destruct Hp as [c1 Hp]. simpl (cstep c (CPut l opts)). rewrite Hp. apply IH.
  - revert c. induction us as [|u us IH]; intros c; [done|]. apply IH.
Qed.
Print Assumptions c32_bulk_writes_are_folds.
(** Bulk reads: exactly the requested UIDs that are known, each with what GetFrom
    (GetTo) returns for it. *)
Theorem c32_bulk_reads_match :
  forall ks us o st,
    (exists r, cache_bulk_get_from o st (after ks) us = Ok r /\
       forall u, r !! u = if bool_decide (u ∈ us) then
                            match cache_get_from o st (after ks) u with
                            | Ok [] => None | Ok ls => Some ls | _ => None end
                          else None) /\
    (exists r, cache_bulk_get_to o st (after ks) us = Ok r /\
       forall u, r !! u = if bool_decide (u ∈ us) then
                            match cache_get_to o st (after ks) u with
                            | Ok [] => None | Ok ls => Some ls | _ => None end
                          else None).
Proof.
  intros ks us o st.
  assert (Hgen : forall key peer h m, index_agree key peer h m ->
    exists r, bulk_get_index o st m us ∅ = Ok r /\
      forall u, r !! u = if bool_decide (u ∈ us) then
                            match one_slot (index_val key peer h u) with
                            | Ok [] => None | Ok ls => Some ls | _ => None end
                          else None).
  { intros key peer h m Hm. destruct (bulk_get_index_spec o st m us ∅) as (r&Hr&Hs).
    exists r. split; [done|]. intros u. destruct (Hs u) as [H1 H2]. specialize (Hm u).
    unfold one_slot. destruct (index_val key peer h u) as [l|].
    - destruct Hm as [_ Hm]. case_bool_decide as Hin.
      + destruct (H2 Hin _ Hm) as [st' ->]. by rewrite map_range_singleton.
      + rewrite Hm in H1. rewrite H1. by rewrite lookup_empty.
    - rewrite Hm in H1. rewrite H1, lookup_empty. by case_bool_decide. }
  destruct (after_agree ks) as [Ha Hb]. split.
  - destruct (Hgen _ _ _ _ Ha) as (r&Hr&Hs). exists r. split; [done|].
    intros u. rewrite after_from. apply Hs.
  - destruct (Hgen _ _ _ _ Hb) as (r&Hr&Hs). exists r. split; [done|].
    intros u. rewrite after_to. apply Hs.
Qed.
Print Assumptions c32_bulk_reads_match.
Example c32_example :
  match cache_bulk_get_from iter_id [] (after [KBulkPut [lk "1" ua ub; lk "2" ub uc] []]) [ua; uc; ub; ua] with
  | Ok r => (r !! ua, r !! ub, r !! uc) = (Some [Some (lk "1" ua ub)], Some [Some (lk "2" ub uc)], None)
  | _ => False
  end.
Proof. vm_compute. reflexivity. Qed.

(** C33, full statement for the cache, and two UIDs with equal text that the cache
    tells apart (pointer identity of *UID). *)
Definition c33_cache : Prop :=
  forall ks o st u v, uid_string u = uid_string v ->
    cache_get_from o st (after ks) u = cache_get_from o st (after ks) v.
Theorem c33_uids_compared_by_text_refuted : ~ c33_cache.
Proof.
  intros H. specialize (H [KPut (lk "1" (UPtr 1 "a") ub) []] iter_id [] (UPtr 1 "a") (UPtr 2 "a") eq_refl).
  vm_compute in H. discriminate H.
Qed.
Print Assumptions c33_uids_compared_by_text_refuted.
(** What holds: plan and store (graph) calls depend on the text only. *)
Theorem c33_uids_compared_by_text_partial :
  forall u v, uid_string u = uid_string v ->
    (forall p, plan_get p u = plan_get p v /\ plan_delete p u = plan_delete p v) /\
    (forall s, store_get s u = store_get s v /\ store_delete s u = store_delete s v) /\
    (forall w s x opts, store_link w s u x opts = store_link w s v x opts /\
                        store_link w s x u opts = store_link w s x v opts) /\
    (forall s x, store_unlink s u x = store_unlink s v x /\ store_unlink s x u = store_unlink s x v) /\
    (forall o st g, wg_from o st g u = wg_from o st g v) /\
    (forall g x, wg_edge g u x = wg_edge g v x /\ wg_edge g x u = wg_edge g x v).
Proof.
  intros u v H.
  assert (He : forall g x, wg_edge g u x = wg_edge g v x /\ wg_edge g x u = wg_edge g x v)
    by (intros; unfold wg_edge; rewrite H; done).
  split; [intros p; unfold plan_get, plan_delete; by rewrite H|].
  split; [intros s; unfold store_get, store_delete, wg_node, wg_remove_node, removenode_commit; rewrite H; done|].
  split.
  { intros w s x opts. unfold store_link, wg_link, link_check.
    destruct (He (s_g s) x) as [-> ->]. rewrite H. done. }
  split; [intros s x; unfold store_unlink, wg_unlink; rewrite H; done|].
  split; [intros o st g; unfold wg_from; by rewrite H|done].
Qed.
Print Assumptions c33_uids_compared_by_text_partial.
