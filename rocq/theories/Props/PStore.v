(** The store: C17 to C21. *)
From Verif.Model Require Import Store.
From Verif.Spec Require Import OptionsSpec EntitySpec GraphSpec SubSpec StoreSpec.
From Verif.Proof Require Import OptionsP AttrsP GonumP GraphP GraphP2 StoreP.
From Verif.Props Require Import PEntity PGraph.

(** C17.  One call, from any store whose graph was only used through a store: the
    result and the new state are those of the map and relation, unless the id
    allocator of the graph is exhausted. *)
Theorem c17_step :
  forall dir o st w s a c r x r' a',
    tidy dir (s_g s) -> shows (s_g s) a ->
    sstep o st (w, s) (scall_op c) = (r, x) -> astep dir a c = (r', a') ->
    (ret_shows r r' /\ shows (s_g x.2) a' /\ tidy dir (s_g x.2) /\ s_uid x.2 = s_uid s) \/
    ((exists e l, c = CAdd e l) /\ r = SRUnit (Panic PNoSlot) /\ x = (w, s)).
Proof. exact sim_step. Qed.
Print Assumptions c17_step.

(** C17.  Whole histories on a new store, over the default undirected graph or
    over a new graph of either kind: all results and the final state agree. *)
Definition fresh_graph (dir : bool) (l : list mstore_syn) : Prop :=
  match default None (last_set mstore_graph_of l) with
  | None => dir = false
  | Some g => exists w opts, g = if dir then (new_wdg w opts).1 else (new_wug w opts).1
  end.
Theorem c17_refinement :
  forall dir l w s w1 o i cs rs x rs' a,
    fresh_graph dir l -> new_store w (mstore_den <$> l) = (s, w1) ->
    (Z.of_nat (length cs) <= max_int64)%Z ->
    sresults o i (w1, s) (scall_op <$> cs) = (rs, x) ->
    aresults dir (AState ∅ ∅) cs = (rs', a) ->
    Forall2 ret_shows rs rs' /\ shows (s_g x.2) a.
Proof.
  intros dir l w s w1 o i cs rs x rs' a Hf Hn Hlen Hs Ha.
  assert (Hg : exists w0 opts, s_g s = if dir then (new_wdg w0 opts).1 else (new_wug w0 opts).1).
  { unfold new_store in Hn. rewrite mstore_opts_last in Hn. cbn [mo_uid mo_graph] in Hn.
    destruct (uid_or_new _ _) as [u w2]. unfold fresh_graph in Hf.
    destruct (default None (last_set mstore_graph_of l)) as [g|].
    - injection Hn as <- <-. exact Hf.
    - subst dir. destruct (new_wug w2 []) as [g w3] eqn:Eg. injection Hn as <- <-. exists w2, []. by rewrite Eg. }
  destruct Hg as (w0&opts&Hg).
  assert (Ht : tidy dir (s_g s)) by (rewrite Hg; constructor).
  assert (Hc : cap 0 (s_g s)) by (rewrite Hg; apply cap_new).
  assert (Hsh : shows (s_g s) (AState ∅ ∅)).
  { assert (He : g_nodes (s_g s) = ∅).
    { rewrite Hg. unfold new_wdg, new_wug, new_wg. destruct dir; by destruct (uid_or_new _ _). }
    split; cbn.
    - intros u. rewrite lookup_empty. unfold wg_node. by rewrite He, lookup_empty.
    - intros u v. rewrite lookup_empty. intros e. unfold wg_edge. by rewrite He, lookup_empty. }
  clear Hf Hn Hg.
  assert (Hk : exists k, (0 <= k)%Z /\ (k + Z.of_nat (length cs) <= max_int64)%Z /\ cap k (s_g s))
    by (exists 0%Z; split; [lia|]; split; [lia|done]).
  clear Hc Hlen. revert Hs Ha Ht Hsh Hk.
  generalize (AState ∅ ∅) as a0. revert i w1 s rs x rs'.
  induction cs as [|c cs IH]; intros i w1 s rs x rs' a0 Hs Ha Ht Hsh (k&Hk0&Hk&Hc).
  - cbn in Hs, Ha. injection Hs as <- <-. injection Ha as <- <-. split; [constructor|done].
  - rewrite fmap_cons in Hs. cbn [sresults] in Hs. cbn [aresults] in Ha.
    destruct (sstep o [i] (w1, s) (scall_op c)) as [r [w2 s2]] eqn:E1.
    destruct (sresults o (S i) (w2, s2) (scall_op <$> cs)) as [rs2 x2] eqn:E2. injection Hs as <- <-.
    destruct (astep dir a0 c) as [r' a1] eqn:E3.
    destruct (aresults dir a1 cs) as [rs3 a2] eqn:E4. injection Ha as <- <-.
    cbn [length] in Hk.
    destruct (cap_step dir k _ _ _ _ _ _ _ Ht Hc ltac:(lia) E1) as [Hns Hc2].
    destruct (sim_step dir _ _ _ _ _ _ _ _ _ _ Ht Hsh E1 E3) as [(Hr&Hsh2&Ht2&_)|(_&->&_)]; [|done].
    cbn [snd] in *.
    destruct (IH _ _ _ _ _ _ _ E2 E4 Ht2 Hsh2) as [H1 H2].
    { exists (k + 1)%Z. split; [lia|]. split; [lia|done]. }
    split; [by constructor|done].
Qed.
Print Assumptions c17_refinement.
Definition c17_history : list scall :=
  [CAdd (gent0 ua) []; CAdd (gent0 ub) [SAttrs (Some 5%N)]; CAdd (gent0 ua) []; CLink ua ub []; CLink ub ua [SUpsert];
   CGet ub; CLink ua uc []; CDelete ua; CGet ua; CAdd (gent0 ua) []; CUnlink ub ua; CLink ua ua []].
Example c17_example :
  (aresults false (AState ∅ ∅) c17_history).1 =
  [AUnit (Ok ()); AUnit (Ok ()); AUnit (Err StoreErrAlreadyExists); AUnit (Ok ()); AUnit (Ok ());
   AEnt (Ok (gent0 ub, Some 5%N)); AUnit (Err StoreErrEntityNotFound); AUnit (Ok ());
   AEnt (Err StoreErrEntityNotFound); AUnit (Ok ()); AUnit (Ok ()); AUnit (Panic PSelfEdge)].
Proof. vm_compute. reflexivity. Qed.

(** C18, the full statement; false when the entity is known: the stored node is
    what NewNode returns, so the new entity and its attributes are dropped. *)
Definition c18_full : Prop :=
  forall dir o st w s e l x, tidy dir (s_g s) -> default false (last_set store_upsert_of l) = true ->
    store_add o st w s e (store_den <$> l) = (Ok (), x) ->
    exists n, store_get x.2 (ge_uid e) = Ok n /\ node_shows n (e, default None (last_set store_attrs_of l)).
Definition store0 : store := (new_store w0 []).1.
Definition store1 : store := (store_add iter_id [] w0 store0 (gent0 ua) []).2.2.
Lemma store0_tidy : tidy false (s_g store0).
Proof. exact (tidy_new false (World ∅ 1 (fun _ => "u"%string) 1) []). Qed.
Lemma store1_tidy : tidy false (s_g store1).
Proof. apply store_add_tidy, store0_tidy. Qed.
Definition gent1 (u : UID) : gent := GEnt u "other" 3%N false false "".
Theorem c18_upsert_replaces_refuted : ~ c18_full.
Proof.
  intros H.
  destruct (H false iter_id [] w0 store1 (gent1 ua) [SUpsert; SAttrs (Some 9%N)]
              (store_add iter_id [] w0 store1 (gent1 ua) [store_with_upsert; store_with_attrs (Some 9%N)]).2
              store1_tidy eq_refl ltac:(vm_compute; reflexivity)) as (n&Hn&He&_).
  vm_compute in Hn. injection Hn as <-. discriminate He.
Qed.
Print Assumptions c18_upsert_replaces_refuted.
(** What upsert does: an unknown entity is stored as asked; for a known one the
    call succeeds and the store does not change. *)
Theorem c18_upsert_replaces_partial :
  forall dir o st w s e l r x, tidy dir (s_g s) -> default false (last_set store_upsert_of l) = true ->
    store_add o st w s e (store_den <$> l) = (r, x) -> r <> Panic PNoSlot ->
    r = Ok () /\
    match store_get s (ge_uid e) with
    | Ok _ => x.2 = s
    | _ => (exists n, store_get x.2 (ge_uid e) = Ok n /\
                      node_shows n (e, default None (last_set store_attrs_of l))) /\
           forall u, ~ same_text u (ge_uid e) -> store_get x.2 u = store_get s u
    end.
Proof.
  intros dir o st w s e l r x Ht Hl Hadd Hp. unfold store_get.
  destruct (wg_node_total (s_g s) (ge_uid e)) as [[n Hn]|Hn]; rewrite Hn.
  - destruct (store_add_known _ _ _ _ _ _ _ _ _ _ Ht Hn Hadd) as [[-> _]|[-> ->]]; [done|]. by rewrite Hl.
  - cbn. destruct (store_add_new _ _ _ _ _ _ _ _ _ Ht Hn Hadd) as [[-> _]|(->&_&n&Hs&Hnode&_)]; [done|].
    split; [done|]. split.
    + exists n. rewrite Hnode. by rewrite bool_decide_true.
    + intros u Hu. rewrite Hnode. by rewrite bool_decide_false.
Qed.
Print Assumptions c18_upsert_replaces_partial.
Example c18_example :
  (exists n, store_get store1 ua = Ok n) /\ store_get store1 ub = Err StoreErrEntityNotFound /\
  (store_add iter_id [] w0 store1 (gent0 ub) [store_with_upsert]).1 = Ok ().
Proof. split; [eexists; vm_compute; reflexivity|]. split; vm_compute; reflexivity. Qed.

(** C19, the full statement; false for two or more UIDs: the index is never moved. *)
Definition c19_full : Prop :=
  forall s us ns, store_bulk_get s us = Ok ns ->
    forall i u, us !! i = Some u -> exists n, store_get s u = Ok n /\ ns !! i = Some (Some n).
Definition store2 : store := (store_add iter_id [] w0 store1 (gent0 ub) []).2.2.
Theorem c19_bulk_get_refuted : ~ c19_full.
Proof.
  intros H. specialize (H store2 [ua; ub]).
  destruct (store_bulk_get store2 [ua; ub]) as [ns| |] eqn:E; [|vm_compute in E; done..].
  destruct (H ns eq_refl 1 ub eq_refl) as (n&_&Hn). vm_compute in E. injection E as <-. discriminate Hn.
Qed.
Print Assumptions c19_bulk_get_refuted.
(** What BulkGet returns: the first failure, else one slot per UID of which the
    first holds the entity of the last UID and the others are nil. *)
Theorem c19_bulk_get_partial :
  forall s us,
    match store_bulk_get s us with
    | Ok ns =>
        length ns = length us /\ (forall u, u ∈ us -> exists n, store_get s u = Ok n) /\
        (forall u, last us = Some u -> exists n, store_get s u = Ok n /\ ns !! 0 = Some (Some n)) /\
        (forall i, 0 < i < length us -> ns !! i = Some None)
    | Err e => exists pre u post, us = pre ++ u :: post /\ store_get s u = Err e /\
                                  forall v, v ∈ pre -> exists n, store_get s v = Ok n
    | Panic _ => False
    end.
Proof.
  intros s us. unfold store_bulk_get.
  assert (Hgen : forall us ents, 
    match bulk_get_loop s 0 ents us with
    | Ok ns =>
        length ns = length ents /\ (forall u, u ∈ us -> exists n, store_get s u = Ok n) /\
        (length ents > 0 -> forall u, last us = Some u -> exists n, store_get s u = Ok n /\ ns !! 0 = Some (Some n)) /\
        (forall i, 0 < i -> ns !! i = ents !! i)
    | Err e => exists pre u post, us = pre ++ u :: post /\ store_get s u = Err e /\
                                  forall v, v ∈ pre -> exists n, store_get s v = Ok n
    | Panic _ => False
    end).
  { clear us. induction us as [|u us IH]; intros ents.
    - cbn. split; [done|]. split; [intros u Hu; inversion Hu|]. split; [done|done].
    - cbn [bulk_get_loop].
      assert (Hg : (exists n, store_get s u = Ok n) \/ exists e, store_get s u = Err e).
      { unfold store_get. destruct (wg_node_total (s_g s) u) as [[n ->]| ->]; cbn; eauto. }
      destruct Hg as [[n Hn]|[e He]].
      + rewrite Hn. specialize (IH (<[0:=Some n]> ents)).
        destruct (bulk_get_loop s 0 (<[0:=Some n]> ents) us) as [ns|e|p] eqn:El; [| |done].
        * destruct IH as (H1&H2&H3&H4). rewrite insert_length in H1, H3. split; [done|]. split.
          { intros v [->|Hv]%elem_of_cons; eauto. }
          split.
          { intros Hlen v Hv. destruct us as [|u' us].
            - cbn in Hv. injection Hv as <-. exists n. split; [done|]. cbn in El. injection El as <-.
              by rewrite list_lookup_insert.
            - apply H3; [done|]. by rewrite last_cons_cons in Hv. }
          intros i Hi. rewrite H4 by done. rewrite list_lookup_insert_ne; [done|lia].
        * destruct IH as (pre&v&post&->&Hv&Hpre). exists (u :: pre), v, post. split; [done|]. split; [done|].
          intros x [->|Hx]%elem_of_cons; eauto.
      + rewrite He. exists [], u, us. split; [done|]. split; [done|]. intros v Hv. inversion Hv. }
  specialize (Hgen us (replicate (length us) None)).
  destruct (bulk_get_loop s 0 _ us) as [ns| |]; [|done|done].
  destruct Hgen as (H1&H2&H3&H4). rewrite replicate_length in *. split; [done|]. split; [done|]. split.
  - intros u Hu. apply H3; [|done]. destruct us; [done|]. cbn. lia.
  - intros i Hi. rewrite H4 by lia. apply lookup_replicate_2. lia.
Qed.
Print Assumptions c19_bulk_get_partial.
(** The full statement does hold for at most one UID. *)
Theorem c19_bulk_get_one_partial :
  forall s us ns, length us <= 1 -> store_bulk_get s us = Ok ns ->
    forall i u, us !! i = Some u -> exists n, store_get s u = Ok n /\ ns !! i = Some (Some n).
Proof.
  intros s us ns Hlen H i u Hi. pose proof (c19_bulk_get_partial s us) as Hp. rewrite H in Hp.
  destruct Hp as (_&_&Hlast&_). destruct us as [|v [|]]; [done| |cbn in Hlen; lia].
  destruct i; [|done]. cbn in Hi. injection Hi as <-. by apply Hlast.
Qed.
Print Assumptions c19_bulk_get_one_partial.
Example c19_example : exists ns, store_bulk_get store2 [ub; ua; ub] = Ok ns /\ length ns = 3.
Proof. eexists. split; vm_compute; reflexivity. Qed.

(** C20.  The bulk operations. *)
Definition add_rel (o : iter_order) (l : list store_syn) (x : world * store) (e : gent) (r : res unit) (x' : world * store) : Prop :=
  exists st, sstep o st x (SAdd e (store_den <$> l)) = (SRUnit r, x').
Definition delete_rel (x : store) (u : UID) (r : res unit) (x' : store) : Prop := store_delete x u = (r, x').
Definition link_rel (l : list store_syn) (u : UID) (x : world * store) (v : UID) (r : res unit) (x' : world * store) : Prop :=
  store_link x.1 x.2 u v (store_den <$> l) = (r, x').
Definition unlink_rel (u : UID) (x : store) (v : UID) (r : res unit) (x' : store) : Prop := store_unlink x u v = (r, x').
Lemma bulk_spec_cons {S A} (f : S -> A -> res unit -> S -> Prop) s x s1 l r s' :
  f s x (Ok ()) s1 -> bulk_spec f s1 l r s' -> bulk_spec f s (x :: l) r s'.
Proof.
  intros H. assert (Hc : forall q, (exists pre y post s2, l = pre ++ y :: post /\ all_ok f s1 pre s2 /\ f s2 y q s') ->
    exists pre y post s2, x :: l = pre ++ y :: post /\ all_ok f s pre s2 /\ f s2 y q s').
  { intros q (pre&y&post&s2&->&Hok&Hy). exists (x :: pre), y, post, s2. split; [done|]. split; [|done].
    by econstructor. }
  destruct r as [[]| |]; cbn; [|apply Hc|apply Hc]. intros H'. by econstructor.
Qed.
Lemma bulk_spec_stop {S A} (f : S -> A -> res unit -> S -> Prop) s x l r s' :
  f s x r s' -> (forall u, r <> Ok u) -> bulk_spec f s (x :: l) r s'.
Proof.
  intros H Hr. destruct r as [u| |]; [by destruct (Hr u)| |]; cbn; exists [], x, l, s; (split; [done|]); split; (done || constructor).
Qed.
Theorem c20_bulk_add :
  forall o st l es w s r x, store_bulk_add o st w s es (store_den <$> l) = (r, x) ->
    bulk_spec (add_rel o l) (w, s) es r x.
Proof.
  intros o st l es. induction es as [|e es IH]; intros w s r x H.
  - cbn in H. injection H as <- <-. constructor.
  - cbn [store_bulk_add] in H. destruct (store_add o (st ++ [length es]) w s e (store_den <$> l)) as [r1 [w1 s1]] eqn:E.
    assert (Hs : add_rel o l (w, s) e r1 (w1, s1)) by (exists (st ++ [length es]); cbn [sstep]; by rewrite E).
    destruct r1 as [[]| |].
    + eapply bulk_spec_cons; [exact Hs|]. by apply IH.
    + injection H as <- <-. by apply bulk_spec_stop.
    + injection H as <- <-. by apply bulk_spec_stop.
Qed.
Print Assumptions c20_bulk_add.
Theorem c20_bulk_delete :
  forall us s r x, store_bulk_delete s us = (r, x) -> bulk_spec delete_rel s us r x.
Proof.
  induction us as [|u us IH]; intros s r x H.
  - cbn in H. injection H as <- <-. constructor.
  - cbn [store_bulk_delete] in H. destruct (store_delete s u) as [r1 s1] eqn:E. destruct r1 as [[]| |].
    + eapply bulk_spec_cons; [exact E|]. by apply IH.
    + injection H as <- <-. by apply bulk_spec_stop.
    + injection H as <- <-. by apply bulk_spec_stop.
Qed.
Print Assumptions c20_bulk_delete.
Theorem c20_bulk_link :
  forall l u vs w s r x, store_bulk_link w s u vs (store_den <$> l) = (r, x) -> bulk_spec (link_rel l u) (w, s) vs r x.
Proof.
  intros l u vs. induction vs as [|v vs IH]; intros w s r x H.
  - cbn in H. injection H as <- <-. constructor.
  - cbn [store_bulk_link] in H. destruct (store_link w s u v (store_den <$> l)) as [r1 [w1 s1]] eqn:E.
    destruct r1 as [[]| |].
    + eapply bulk_spec_cons; [exact E|]. by apply IH.
    + injection H as <- <-. by apply bulk_spec_stop.
    + injection H as <- <-. by apply bulk_spec_stop.
Qed.
Print Assumptions c20_bulk_link.
Theorem c20_bulk_unlink :
  forall u vs s r x, store_bulk_unlink s u vs = (r, x) -> bulk_spec (unlink_rel u) s vs r x.
Proof.
  intros u. induction vs as [|v vs IH]; intros s r x H.
  - cbn in H. injection H as <- <-. constructor.
  - cbn [store_bulk_unlink] in H. destruct (store_unlink s u v) as [r1 s1] eqn:E. destruct r1 as [[]| |].
    + eapply bulk_spec_cons; [exact E|]. by apply IH.
    + injection H as <- <-. by apply bulk_spec_stop.
    + injection H as <- <-. by apply bulk_spec_stop.
Qed.
Print Assumptions c20_bulk_unlink.
Example c20_example :
  (store_bulk_add iter_id [] w0 store0 [gent0 ua; gent0 ub; gent0 ua; gent0 uc] []).1 = Err StoreErrAlreadyExists /\
  (store_bulk_link w0 store2 ua [ub; uc] []).1 = Err StoreErrEntityNotFound /\
  (store_bulk_delete store2 [ua; uc; ub]).1 = Ok () /\ (store_bulk_unlink store2 ua [ub; uc]).1 = Ok ().
Proof. split_and!; vm_compute; reflexivity. Qed.

(** C21, the full statement; false: the attributes are lost. *)
Definition c21_full : Prop :=
  forall dir o st w s e x n, tidy dir (s_g s) ->
    store_add o st w s e [] = (Ok (), x) -> store_get x.2 (ge_uid e) = Ok n ->
    ge_uid (gent_of_node n) = ge_uid e /\ ge_type (gent_of_node n) = ge_type e /\
    attrs_map x.1 (ge_attrs (gent_of_node n)) = attrs_map w (ge_attrs e).
Theorem c21_stored_attributes_refuted : ~ c21_full.
Proof.
  intros H. set (w := World {[0%N := {["k" := "v"]}]} 1 (fun _ => "u"%string) 0).
  destruct (store_add iter_id [] w store0 (gent0 ua) []) as [r x] eqn:E.
  destruct (store_get x.2 ua) as [n| |] eqn:En.
  2,3: apply (f_equal snd) in E; cbn [snd] in E; rewrite <- E in En; vm_compute in En; discriminate En.
  assert (r = Ok ()) as -> by (apply (f_equal fst) in E; cbn [fst] in E; rewrite <- E; vm_compute; reflexivity).
  destruct (H false iter_id [] w store0 (gent0 ua) x n store0_tidy E En) as (_&_&Ha).
  apply (f_equal snd) in E. cbn [snd] in E. rewrite <- E in En, Ha. clear E H.
  vm_compute in En. injection En as <-.
  apply (f_equal (.!! "k"%string)) in Ha. vm_compute in Ha. discriminate Ha.
Qed.
Print Assumptions c21_stored_attributes_refuted.
(** What Get returns after a successful Add of a new entity: its UID, type and DOT
    id; the attributes are those of WithAttrs, else a new empty set; the entity's
    own attributes are not touched. *)
Theorem c21_stored_attributes_partial :
  forall dir o st w s e l x n, tidy dir (s_g s) -> (forall m, store_get s (ge_uid e) <> Ok m) ->
    store_add o st w s e (store_den <$> l) = (Ok (), x) -> store_get x.2 (ge_uid e) = Ok n ->
    ge_uid (gent_of_node n) = ge_uid e /\ ge_type (gent_of_node n) = ge_type e /\ n_ent n = e /\
    ge_dotid (gent_of_node n) = (if ge_dot e then ge_dotid e else uid_string (ge_uid e)) /\
    attrs_spec w x.1 (default None (last_set store_attrs_of l)) (ge_attrs (gent_of_node n)) /\
    world_kept w x.1 false.
Proof.
  intros dir o st w s e l x n Ht Hno Hadd Hget.
  assert (Hn : wg_node (s_g s) (ge_uid e) = Err GraphErrNodeNotFound).
  { unfold store_get in Hno. destruct (wg_node_total (s_g s) (ge_uid e)) as [[m Hm]|Hm]; [|done].
    rewrite Hm in Hno. by destruct (Hno m). }
  destruct (store_add_new _ _ _ _ _ _ _ _ _ Ht Hn Hadd) as [[? _]|(_&_&m&Hs&Hnode&_)]; [done|].
  unfold store_get in Hget. rewrite Hnode, bool_decide_true in Hget by done. cbn in Hget. injection Hget as ->.
  destruct Hs as (H1&H2&H3). cbn [fst snd] in *.
  unfold store_add in Hadd. rewrite store_opts_last in Hadd. cbn [so_upsert so_attrs] in Hadd.
  set (oa := default None (last_set store_attrs_of l)) in *.
  destruct (wg_new_node o st w (s_g s) e [graph_with_attrs oa]) as [[k w1]| |] eqn:En; [|done|done].
  apply wg_new_node_ok in En as (id&n0&_&Hm&He&Hid&Hk).
  rewrite (proj1 (wg_node_Err _ _) Hn) in Hk. cbn in Hk. subst k.
  destruct (c38_node w id e [GAttrs oa] n0 w1 Hm) as (_&_&_&Ha&_&_&Hkeep). cbn in Ha.
  assert (n_attrs n = n_attrs n0 /\ x.1 = w1) as [Hna Hx].
  { assert (Hkey : n_key n0 = uid_string (ge_uid e)) by (unfold n_key, n_uid; by rewrite He).
    assert (Hadd' : forall up r1 g1, addnode_commit (s_g s) n0 up = (r1, g1) -> r1 = Ok () -> wg_node g1 (ge_uid e) = Ok n0).
    { intros up r1 g1. unfold addnode_commit. rewrite Hkey.
      destruct (b_nodes (g_b (s_g s)) !! n_id n0) as [b|] eqn:Eb.
      - rewrite (proj1 (wg_node_Err _ _) Hn). intros [= <- <-] _. apply wg_node_Ok. cbn. by rewrite lookup_insert.
      - destruct (b_add_node_ok _ _ Eb) as (b'&->&_). intros [= <- <-] _. apply wg_node_Ok. cbn. by rewrite lookup_insert. }
    destruct (default false (last_set store_upsert_of l)).
    - destruct (wg_add_node (s_g s) (MemNode n0) _) as [r1 g1] eqn:Ea. cbn [wg_add_node] in Ea.
      injection Hadd as -> <-. apply Hadd' in Ea; [|done]. split; [|done].
      specialize (Hnode (ge_uid e)). rewrite bool_decide_true in Hnode by done. cbn in Hnode. congruence.
    - destruct (wg_add_node (s_g s) (MemNode n0) _) as [r1 g1] eqn:Ea. cbn [wg_add_node] in Ea.
      injection Hadd as Hr <-. assert (r1 = Ok ()) as ->.
      { destruct r1 as [[]| |]; [done| |done]. cbn in Hr. by case_bool_decide. }
      apply Hadd' in Ea; [|done]. split; [|done].
      specialize (Hnode (ge_uid e)). rewrite bool_decide_true in Hnode by done. cbn in Hnode. congruence. }
  rewrite Hx. unfold gent_of_node, n_uid, n_type. cbn. rewrite H1, Hna.
  repeat (split; [done|]). done.
Qed.
Print Assumptions c21_stored_attributes_partial.
Example c21_example :
  tidy false (s_g store1) /\ (forall m, store_get store1 ub <> Ok m) /\
  (store_add iter_id [] w0 store1 (gent0 ub) []).1 = Ok () /\
  exists n, store_get store2 ub = Ok n.
Proof.
  split; [exact store1_tidy|]. split; [intros m H; vm_compute in H; discriminate H|].
  split; [vm_compute; reflexivity|]. eexists. vm_compute. reflexivity.
Qed.
