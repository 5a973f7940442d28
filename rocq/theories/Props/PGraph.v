(** The in-memory graph under sequential use: C01 to C10, C15, C16. *)
From Verif.Model Require Import Graph.
From Verif.Spec Require Import OptionsSpec EntitySpec GraphSpec SubSpec.
From Verif.Proof Require Import OptionsP AttrsP GonumP GraphP GraphP2.
From Verif.Props Require Import PEntity.

Definition w0 : world := World ∅ 0 (fun _ => "u"%string) 0.
Definition ua : UID := UVal "a". Definition ub : UID := UVal "b". Definition uc : UID := UVal "c".
Definition gent0 (u : UID) : gent := GEnt u "t" 0%N false false "".
Definition mkn (u : UID) (id : Z) (a : N) : node := Node (gent0 u) id (uid_string u) a.
Definition gnew (dir : bool) : wg := if dir then (new_wdg w0 []).1 else (new_wug w0 []).1.
(** a graph built by a history of calls *)
Definition built (dir : bool) (ops : list gop) : wg := (grun iter_id 0 (w0, gnew dir) ops).2.
Definition put (u : UID) (id : Z) (a : N) : gop := GAddNode (MemNode (mkn u id a)) [].
Lemma built_reach dir ops : reach dir (built dir ops).
Proof.
  unfold built. assert (H : reach dir (w0, gnew dir).2) by (simpl; unfold gnew; constructor).
  revert H. generalize (w0, gnew dir), 0. induction ops as [|op ops IH]; intros [w g] i H; [done|].
  cbn [grun]. apply IH. by apply reach_step.
Qed.

(** C01.  Whatever the history: reported edges join two different nodes that are
    also reported; the edge found for a pair joins that pair; undirected graphs
    answer the same, turned around, for the swapped pair. *)
Theorem c01_adjacency_sound :
  forall dir g, reach dir g ->
    (forall e, edge_listed g e ->
       n_id (ed_from e) <> n_id (ed_to e) /\
       exists a b, listed g a /\ listed g b /\ n_id a = n_id (ed_from e) /\ n_id b = n_id (ed_to e)) /\
    (forall u v e, wg_edge g u v = Ok e ->
       exists a b, wg_node g u = Ok a /\ wg_node g v = Ok b /\ edge_ids e = (n_id a, n_id b) /\
         (edge_listed g e \/ dir = false /\ edge_listed g (edge_reversed e))) /\
    (dir = false -> forall u v, wg_edge g v u = rmap edge_reversed (wg_edge g u v)).
Proof.
  intros dir g Hr. destruct (reach_base _ _ Hr) as (Hd&Hb&Hk). split_and!.
  - intros e He. apply edge_listed_iff in He; [|done].
    destruct (bw_edge _ Hb _ _ _ He) as (Hne&[a Ha]&[b Hb']&_).
    split; [done|]. exists a, b. rewrite !listed_iff by done.
    rewrite (bw_id _ Hb _ _ Ha), (bw_id _ Hb _ _ Hb'). done.
  - intros u v e. rewrite wg_edge_cases. destruct (wg_node g u) as [a| |]; [|done..].
    destruct (wg_node g v) as [b| |]; [|done..].
    destruct (b_weighted_edge (g_b g) (n_id a) (n_id b)) as [e'|] eqn:E; [|done].
    intros [= <-]. exists a, b. do 2 (split; [done|]). pose proof (b_weighted_edge_ends _ _ _ _ Hb E) as He.
    split; [done|]. rewrite !edge_listed_iff by done. rewrite He. cbn [fst snd].
    unfold b_weighted_edge in E. destruct (adj_get (b_from (g_b g)) (n_id a) (n_id b)) as [e0|] eqn:E0; [|done].
    rewrite Hd in E. destruct dir; [by injection E as <-; left|].
    case_bool_decide; injection E as <-; [by left|]. right. split; [done|].
    rewrite edge_reversed_inv. unfold ends in *. cbn in *. injection He as He1 He2. rewrite He1, He2.
    by rewrite (bw_sym _ Hb Hd).
  - intros Hdir u v. rewrite !wg_edge_cases. destruct (wg_node_total g u) as [[a Ha]|Ha]; rewrite Ha.
    + destruct (wg_node_total g v) as [[b Hb']|Hb']; rewrite Hb'; [|done].
      rewrite (b_weighted_edge_sym _ _ _ Hb) by congruence.
      by destruct (b_weighted_edge (g_b g) (n_id a) (n_id b)).
    + by destruct (wg_node_total g v) as [[b Hb']|Hb']; rewrite Hb'.
Qed.
Print Assumptions c01_adjacency_sound.
(** In tidy histories the ends of a reported edge are the very nodes Node returns. *)
Theorem c01_edge_ends_are_stored_nodes :
  forall dir g, tidy dir g -> forall e, edge_listed g e ->
    wg_node g (n_uid (ed_from e)) = Ok (ed_from e) /\ wg_node g (n_uid (ed_to e)) = Ok (ed_to e) /\
    wg_edge g (n_uid (ed_from e)) (n_uid (ed_to e)) = Ok e.
Proof.
  intros dir g Ht e He. destruct (tidy_inv _ _ Ht) as ((Hd&Hb&Hk)&[Hx1 Hx2]&Ho).
  apply edge_listed_iff in He; [|done]. destruct (Ho _ _ _ He) as [H1 H2].
  apply Hx2 in H1, H2. pose proof H1 as K1. pose proof H2 as K2.
  rewrite wg_edge_cases. apply wg_node_Ok in H1, H2. rewrite H1, H2. do 2 (split; [done|]).
  unfold b_weighted_edge. unfold ends in He. simpl in He. rewrite He.
  destruct (b_dir (g_b g)); [done|]. by rewrite bool_decide_true.
Qed.
Print Assumptions c01_edge_ends_are_stored_nodes.
Example c01_example :
  let g := built false [put ua 5 1; put ub 7 1; GLink ua ub []; put uc 5 2; GLink uc ub []] in
  reach false g /\ match wg_edge g ub ua with Ok e => edge_ids e = (7, 5)%Z | _ => False end.
Proof. split; [apply built_reach|]. vm_compute. reflexivity. Qed.

(** C02.  NewNode returns the stored node of a known UID, else a node for the given
    entity whose id no listed node has; it never fails, and panics only when int64
    ids are used up. *)
Theorem c02_fresh_ids :
  forall dir g o st w e opts, reach dir g ->
    match wg_new_node o st w g e opts with
    | Ok (n, _) =>
        match wg_node g (ge_uid e) with
        | Ok m => n = m
        | _ => n_ent n = e /\ forall m, listed g m -> n_id m <> n_id n
        end
    | Err _ => False
    | Panic p => p = PNoSlot
    end.
Proof.
  intros dir g o st w e opts Hr. destruct (reach_base _ _ Hr) as (Hd&Hb&Hk).
  pose proof (b_new_node_id_panic o st (g_b g)) as Hp.
  destruct (wg_new_node o st w g e opts) as [[n w1]|x|p] eqn:E.
  - apply wg_new_node_ok in E as (id&n0&Hid&_&He0&Hi0&->). unfold wg_node.
    destruct (g_nodes g !! uid_string (ge_uid e)); [done|]. simpl. split; [done|].
    intros m Hm. apply listed_iff in Hm; [|done]. intros E. rewrite E, Hi0 in Hm.
    apply (b_new_node_id_fresh _ _ _ _ Hb) in Hid. congruence.
  - unfold wg_new_node, newnode_id in E. destruct (b_new_node_id o st (g_b g)); [|done|done].
    cbn in E. by destruct (mem_new_node _ _ _ _).
  - unfold wg_new_node, newnode_id in E. destruct (b_new_node_id o st (g_b g)); [| |].
    + cbn in E. by destruct (mem_new_node _ _ _ _).
    + done.
    + cbn in E. injection E as <-. naive_solver.
Qed.
Print Assumptions c02_fresh_ids.
Example c02_example :
  let g := built true [put ua 0 1; put ub 4 1; GRemoveNode ua; put uc (-3) 2; GRemoveNode ub] in
  reach true g /\
  match wg_new_node iter_id [] w0 g (gent0 ua) [] with Ok (n, _) => n_id n = 0%Z | _ => False end /\
  match wg_new_node iter_id [] w0 (built true [put ub (-3) 1]) (gent0 ua) [] with Ok (n, _) => n_id n = 0%Z | _ => False end.
Proof. split; [apply built_reach|]. split; vm_compute; reflexivity. Qed.

(** C03, the full statement; false when callers add nodes with ids of their own:
    the second node can be looked up but is not listed. *)
Definition c03_full : Prop := forall dir g, reach dir g -> agree g.
Theorem c03_lookup_enumeration_refuted : ~ c03_full.
Proof.
  intros H. specialize (H true _ (built_reach true [put ua 5 1; put ub 5 1])).
  destruct (H ub (mkn ub 5 1)) as [H1 _]. destruct H1 as [H1 _]; [vm_compute; reflexivity|].
  destruct (H1 iter_id []) as (ns&Hns&Hin). vm_compute in Hns. injection Hns as <-.
  apply elem_of_list_singleton in Hin. discriminate Hin.
Qed.
Print Assumptions c03_lookup_enumeration_refuted.
(** It holds after every history in which nodes enter through NewNode. *)
Theorem c03_lookup_enumeration_partial : forall dir g, tidy dir g -> agree g.
Proof.
  intros dir g Ht. destruct (tidy_inv _ _ Ht) as ((Hd&Hb&Hk)&Hx&_). by apply gexact_agree.
Qed.
Print Assumptions c03_lookup_enumeration_partial.
(** and such graphs are consistent, the hypothesis of several theorems below *)
Theorem c03_tidy_consistent : forall dir g, tidy dir g -> reach dir g /\ consistent g.
Proof.
  intros dir g Ht. split; [by apply tidy_reach|].
  destruct (tidy_inv _ _ Ht) as ((Hd&Hb&Hk)&Hx&_). apply gwf_consistent; [done..|]. by apply gexact_gwf.
Qed.
Print Assumptions c03_tidy_consistent.

(** Exactly what AddNode does, in all states. *)
Definition id_taken (g : wg) (i : Z) : Prop := exists m, listed g m /\ n_id m = i.
Theorem c05_add_node_exact :
  forall dir g n l r g', reach dir g -> wg_add_node g (MemNode n) (graph_den <$> l) = (r, g') ->
    let upsert := default false (last_set graph_upsert_of l) in
    (id_taken g (n_id n) /\ known g (n_uid n) /\ upsert = false ->
       r = Err GraphErrDuplicateNode /\ g' = g) /\
    (~ (id_taken g (n_id n) /\ known g (n_uid n) /\ upsert = false) ->
       r = Ok () /\
       (forall x, wg_node g' x = if bool_decide (same_text x (n_uid n)) then Ok n else wg_node g x) /\
       (forall m, listed g' m <-> listed g m \/ (m = n /\ ~ id_taken g (n_id n))) /\
       (forall e, edge_listed g' e <-> edge_listed g e)).
Proof.
  intros dir g n l r g' Hr Hadd. destruct (reach_base _ _ Hr) as (Hd&Hb&Hk).
  assert (Hr' : reach dir g').
  { pose proof (reach_step dir iter_id [] w0 g (GAddNode (MemNode n) (graph_den <$> l)) Hr) as H.
    cbn [gstep] in H. by rewrite Hadd in H. }
  destruct (reach_base _ _ Hr') as (_&Hb'&_).
  assert (Htaken : id_taken g (n_id n) <-> is_Some (b_nodes (g_b g) !! n_id n)).
  { split.
    - intros (m&Hm&<-). apply listed_iff in Hm; [|done]. eauto.
    - intros [m Hm]. exists m. rewrite listed_iff by done. by rewrite (bw_id _ Hb _ _ Hm). }
  assert (Hknown : known g (n_uid n) <-> is_Some (g_nodes g !! n_key n)).
  { split; [intros [m Hm]; apply wg_node_Ok in Hm; eauto|].
    intros [m Hm]. exists m. by apply wg_node_Ok. }
  cbn zeta. rewrite Htaken, Hknown.
  cbn [wg_add_node] in Hadd. rewrite graph_opts_last in Hadd. cbn [go_upsert] in Hadd.
  set (ups := default false (last_set graph_upsert_of l)) in *.
  assert (Hnode : forall b x, wg_node (wg_set_nodes (wg_set_b g b) (<[n_key n:=n]> (g_nodes g))) x =
     if bool_decide (same_text x (n_uid n)) then Ok n else wg_node g x).
  { intros b x. unfold wg_node. cbn [g_nodes wg_set_nodes]. unfold same_text. case_bool_decide as Hx.
    - by rewrite Hx, lookup_insert.
    - rewrite lookup_insert_ne; [done|]. unfold n_key. congruence. }
  unfold addnode_commit in Hadd. destruct (b_nodes (g_b g) !! n_id n) as [m0|] eqn:Em.
  - destruct (g_nodes g !! n_key n) as [m1|] eqn:Ek; [destruct ups eqn:Eu|].
    + rewrite insert_insert in Hadd. injection Hadd as <- <-. split; [by intros (_&_&?)|]. intros _.
      split; [done|]. split; [apply (Hnode (g_b g))|]. split; [|done].
      intros m. rewrite !listed_iff by done. split; [by left|]. intros [?|[_ Hno]]; [done|].
      destruct Hno. apply Htaken. eauto.
    + injection Hadd as <- <-. split; [done|]. intros Hno. destruct Hno. split_and!; eauto.
    + injection Hadd as <- <-. split; [intros (_&[? ?]&_); done|]. intros _.
      split; [done|]. split; [apply (Hnode (g_b g))|]. split; [|done].
      intros m. rewrite !listed_iff by done. split; [by left|]. intros [?|[_ Hno]]; [done|].
      destruct Hno. apply Htaken. eauto.
  - destruct (b_add_node_ok _ _ Em) as (b'&Eb&Hd'&Hn'&Hf'&_). rewrite Eb in Hadd. injection Hadd as <- <-.
    split; [intros ([? ?]&_); done|]. intros _. split; [done|]. split; [apply Hnode|]. split.
    + intros m. rewrite !listed_iff by done. cbn. rewrite Hn', lookup_insert_Some. split.
      * intros [[_ <-]|[_ ?]]; [|by left]. right. split; [done|]. intros H. by apply Htaken in H as [? ?].
      * intros [Hm|[-> _]]; [|by left]. right. split; [|done]. intros E. rewrite E in Em. congruence.
    + intros e. rewrite !edge_listed_iff by done. cbn. by rewrite Hf'.
Qed.
Print Assumptions c05_add_node_exact.

(** C04, the full statement; false for a node with a known UID and a fresh id. *)
Definition c04_full : Prop :=
  forall dir g n l, reach dir g -> known g (n_uid n) -> last_set graph_upsert_of l = None ->
    wg_add_node g (MemNode n) (graph_den <$> l) = (Err GraphErrDuplicateNode, g).
Theorem c04_duplicate_refused_refuted : ~ c04_full.
Proof.
  intros H. specialize (H true _ (mkn ua 6 2) [] (built_reach true [put ua 5 1])).
  assert (Hk : known (built true [put ua 5 1]) ua) by (exists (mkn ua 5 1); vm_compute; reflexivity).
  specialize (H Hk eq_refl). apply (f_equal fst) in H. vm_compute in H. discriminate H.
Qed.
Print Assumptions c04_duplicate_refused_refuted.
(** It holds when the id is taken as well; in a consistent graph that is the case
    for the node NewNode returns for a known UID. *)
Theorem c04_duplicate_refused_partial :
  forall dir g n l, reach dir g -> known g (n_uid n) -> id_taken g (n_id n) ->
    last_set graph_upsert_of l = None ->
    wg_add_node g (MemNode n) (graph_den <$> l) = (Err GraphErrDuplicateNode, g).
Proof.
  intros dir g n l Hr Hk Hi Hl. destruct (wg_add_node g (MemNode n) (graph_den <$> l)) as [r g'] eqn:E.
  destruct (c05_add_node_exact dir g n l r g' Hr E) as [[-> ->] _]; [|done]. by rewrite Hl.
Qed.
Print Assumptions c04_duplicate_refused_partial.
Theorem c04_adding_a_known_entity_again_partial :
  forall dir g o st w e nopts n w1 l, tidy dir g -> known g (ge_uid e) ->
    wg_new_node o st w g e nopts = Ok (n, w1) -> last_set graph_upsert_of l = None ->
    wg_add_node g (MemNode n) (graph_den <$> l) = (Err GraphErrDuplicateNode, g).
Proof.
  intros dir g o st w e nopts n w1 l Ht [m Hm] Hn Hl. pose proof (tidy_reach _ _ Ht) as Hr.
  pose proof (c02_fresh_ids dir g o st w e nopts Hr) as H2. rewrite Hn, Hm in H2. subst n.
  pose proof (c03_lookup_enumeration_partial dir g Ht (ge_uid e) m) as Ha. apply Ha in Hm as [Hl' Htx].
  apply (c04_duplicate_refused_partial dir); [done| | |done].
  - exists m. apply (c03_lookup_enumeration_partial dir g Ht). done.
  - exists m. done.
Qed.
Print Assumptions c04_adding_a_known_entity_again_partial.

(** C05, the full statement; false because Nodes keeps the old node. *)
Definition c05_full : Prop :=
  forall dir g n, reach dir g ->
    let g' := (wg_add_node g (MemNode n) [graph_with_upsert]).2 in
    wg_node g' (n_uid n) = Ok n /\ listed g' n.
Theorem c05_upsert_replaces_refuted : ~ c05_full.
Proof.
  intros H. destruct (H true _ (mkn ua 5 2) (built_reach true [put ua 5 1])) as [_ Hl].
  destruct (Hl iter_id []) as (ns&Hns&Hin). vm_compute in Hns. injection Hns as <-.
  apply elem_of_list_singleton in Hin. discriminate Hin.
Qed.
Print Assumptions c05_upsert_replaces_refuted.
(** It holds for Node, and for Nodes when the id is new. *)
Theorem c05_upsert_replaces_partial :
  forall dir g n, reach dir g ->
    exists g', wg_add_node g (MemNode n) [graph_with_upsert] = (Ok (), g') /\
    wg_node g' (n_uid n) = Ok n /\ (~ id_taken g (n_id n) -> listed g' n) /\
    forall x, ~ same_text x (n_uid n) -> wg_node g' x = wg_node g x.
Proof.
  intros dir g n Hr. destruct (wg_add_node g (MemNode n) [graph_with_upsert]) as [r g'] eqn:E.
  destruct (c05_add_node_exact dir g n [GUpsert] r g' Hr E) as [_ H].
  destruct H as (->&H1&H2&_); [by intros (_&_&?)|]. exists g'. split; [done|]. split.
  - rewrite H1. by rewrite bool_decide_true.
  - split; [intros Hi; apply H2; auto|]. intros x Hx. rewrite H1. by rewrite bool_decide_false.
Qed.
Print Assumptions c05_upsert_replaces_partial.
Example c05_example :
  let g := built true [put ua 5 1] in reach true g /\ ~ id_taken g 6%Z /\ known g ua.
Proof.
  split; [apply built_reach|]. split.
  - intros (m&Hm&Hid). destruct (Hm iter_id []) as (ns&Hns&Hin). vm_compute in Hns. injection Hns as <-.
    apply elem_of_list_singleton in Hin. by subst m.
  - exists (mkn ua 5 1). vm_compute. reflexivity.
Qed.

(** C06.  Link. *)
(** the edge asked for *)
Definition requested_edge (w w' : world) (a b : node) (l : list graph_syn) (e : edge) : Prop :=
  let ru := default None (last_set graph_uid_of l) in
  let rd := default ""%string (last_set graph_dotid_of l) in
  ed_from e = a /\ ed_to e = b /\
  ed_weight e = default f64_zero (last_set graph_weight_of l) /\
  attrs_spec w w' (default None (last_set graph_attrs_of l)) (ed_attrs e) /\
  (rd = ""%string -> uid_spec w w' ru (ed_uid e)) /\ (rd <> ""%string -> uid_string (ed_uid e) = rd).
Theorem c06_link :
  forall dir g w u v l r w' g', reach dir g -> consistent g ->
    wg_link w g u v (graph_den <$> l) = (r, (w', g')) ->
    match wg_node g u, wg_node g v with
    | Ok a, Ok b =>
        match wg_edge g u v with
        | Ok e => r = Ok e /\ w' = w /\ g' = g
        | _ =>
            ~ same_text u v ->
            exists e, r = Ok e /\ requested_edge w w' a b l e /\
              (forall x y, wg_edge g' x y =
                 if bool_decide (same_text x u /\ same_text y v) then Ok e
                 else if bool_decide (same_ends dir x y u v) then Ok (edge_reversed e)
                 else wg_edge g x y) /\
              (forall x, wg_node g' x = wg_node g x) /\
              (forall i x, (exists m, listed g' m /\ n_id m = i /\ same_text (n_uid m) x) <->
                           (exists m, listed g m /\ n_id m = i /\ same_text (n_uid m) x)) /\
              (agree g -> forall m, listed g' m <-> listed g m) /\
              consistent g'
        end
    | _, _ => r = Err GraphErrNodeNotFound /\ w' = w /\ g' = g
    end.
Proof.
  intros dir g w u v l r w' g' Hr Hc Hlink.
  pose proof (gbase_link dir w g u v (graph_den <$> l) (reach_base _ _ Hr)) as Hbase'. rewrite Hlink in Hbase'.
  pose proof (reach_base _ _ Hr) as Hbase. pose proof Hbase as (Hd&Hb&Hk).
  rewrite (wg_link_cases dir) in Hlink by done.
  destruct (wg_node_total g u) as [[a Ha]|Ha]; rewrite Ha in *; [|by injection Hlink as <- <- <-].
  destruct (wg_node_total g v) as [[b Hb']|Hb']; rewrite Hb' in *; [|by injection Hlink as <- <- <-].
  apply gwf_consistent in Hc; [|done..].
  assert (Hgoal : link_commit w g a b (graph_den <$> l) = (r, (w', g')) -> ~ same_text u v ->
            exists e, r = Ok e /\ requested_edge w w' a b l e /\
              (forall x y, wg_edge g' x y =
                 if bool_decide (same_text x u /\ same_text y v) then Ok e
                 else if bool_decide (same_ends dir x y u v) then Ok (edge_reversed e)
                 else wg_edge g x y) /\
              (forall x, wg_node g' x = wg_node g x) /\
              (forall i x, (exists m, listed g' m /\ n_id m = i /\ same_text (n_uid m) x) <->
                           (exists m, listed g m /\ n_id m = i /\ same_text (n_uid m) x)) /\
              (agree g -> forall m, listed g' m <-> listed g m) /\
              consistent g').
  { clear Hlink. intros Hlink Huv.
    assert (Hne : n_id a <> n_id b) by (rewrite (id_text g u v) by done; done).
    destruct (link_commit_ok w g a b (graph_den <$> l) Hne) as (e&w1&b'&He&Hf&Ht&Hl&Hs&Hd'&Hn&Hadj).
    rewrite Hl in Hlink. injection Hlink as <- <- <-. cbn [fst snd] in Hbase'. pose proof Hbase' as (_&Hbb&Hkk). cbn in Hbb.
    pose proof (gwf_link_commit g a b b' u v Hb Hk Hc Ha Hb' Hn) as Hwf'.
    exists e. split; [done|]. split.
    { destruct (c38_edge _ _ _ _ _ _ He) as (?&?&?&?&?&?&?&?). unfold requested_edge. done. }
    split; [intros x y; by eapply link_edge_obs|]. split; [done|]. split.
    { intros i x. assert (Hcase : forall g0, gbase dir g0 -> gwf g0 -> g_nodes g0 = g_nodes g ->
        (exists m, listed g0 m /\ n_id m = i /\ same_text (n_uid m) x) <->
        exists n, g_nodes g !! uid_string x = Some n /\ n_id n = i).
      { intros g0 (_&Hb0&Hk0) [Hw1 Hw2] E0. split.
        - intros (m&Hm&Hi&Ht'). apply listed_iff in Hm; [|done]. destruct (Hw2 _ _ Hm) as (n&Hn1&Hn2).
          exists n. rewrite E0 in Hn1. unfold n_key in Hn1. rewrite Ht' in Hn1. split; [done|]. congruence.
        - intros (n&Hn1&Hn2). rewrite <- E0 in Hn1. destruct (Hw1 _ _ Hn1) as (m&Hm&Hmk).
          exists m. rewrite listed_iff by done. pose proof (bw_id _ Hb0 _ _ Hm) as Hid.
          rewrite Hid. split; [done|]. split; [done|]. done. }
      rewrite (Hcase (wg_set_b g b')), (Hcase g) by done. done. }
    split.
    { intros Hag m. apply gexact_agree in Hag as [Hx1 _]; [|done..]. rewrite !listed_iff by done. cbn.
      apply wg_node_Ok in Ha, Hb'. rewrite Hn, (insert_id (b_nodes (g_b g)) (n_id a) a) by (by eapply Hx1).
      rewrite insert_id by (by eapply Hx1). done. }
    apply gwf_consistent; done. }
  destruct (wg_edge g u v) as [e| |] eqn:Ee.
  - by injection Hlink as <- <- <-.
  - by apply Hgoal.
  - by apply Hgoal.
Qed.
Print Assumptions c06_link.
Lemma tidy_empty dir : tidy dir (gnew dir).
Proof. unfold gnew. constructor. Qed.
(** an example graph: a, b, c added through NewNode, a linked to b *)
Definition put_tidy (g : wg) (e : gent) : wg :=
  match wg_new_node iter_id [] w0 g e [] with
  | Ok (n, _) => (wg_add_node g (MemNode n) []).2
  | _ => g
  end.
Lemma put_tidy_ok dir g e : tidy dir g -> tidy dir (put_tidy g e).
Proof.
  intros H. unfold put_tidy. destruct (wg_new_node iter_id [] w0 g e []) as [[n w1]| |] eqn:E; [|done..].
  by eapply tidy_put.
Qed.
Definition ex3 (dir : bool) : wg :=
  (wg_link w0 (put_tidy (put_tidy (put_tidy (gnew dir) (gent0 ua)) (gent0 ub)) (gent0 uc)) ua ub [graph_with_weight 7%N]).2.2.
Lemma ex3_tidy dir : tidy dir (ex3 dir).
Proof. apply tidy_link. repeat apply put_tidy_ok. apply tidy_empty. Qed.
Example c06_example : forall dir,
  reach dir (ex3 dir) /\ consistent (ex3 dir) /\ agree (ex3 dir) /\
  (exists e, wg_edge (ex3 dir) ua ub = Ok e /\ ed_weight e = 7%N) /\
  wg_edge (ex3 dir) ua uc = Err GraphErrEdgeNotExist.
Proof.
  intros dir. pose proof (ex3_tidy dir) as H. destruct (c03_tidy_consistent _ _ H).
  split_and!; [done|done|by eapply c03_lookup_enumeration_partial| |]; destruct dir; vm_compute; eauto.
Qed.

(** C07.  Unlink. *)
Theorem c07_unlink :
  forall dir g u v r g', reach dir g -> consistent g -> wg_unlink g u v = (r, g') ->
    r = Ok () /\
    (forall x y, wg_edge g' x y =
       if bool_decide (same_ends dir x y u v)
       then match wg_edge g x y with Ok _ => Err GraphErrEdgeNotExist | r => r end
       else wg_edge g x y) /\
    (forall x, wg_node g' x = wg_node g x) /\ (forall m, listed g' m <-> listed g m) /\
    consistent g'.
Proof.
  intros dir g u v r g' Hr Hc Hu. pose proof (reach_base _ _ Hr) as Hbase. pose proof Hbase as (Hd&Hb&Hk).
  pose proof (gbase_unlink dir g u v Hbase) as Hbase'.
  apply gwf_consistent in Hc; [|done..].
  pose proof (gwf_unlink g u v Hb Hc) as Hc'.
  assert (Hr1 : (wg_unlink g u v).1 = Ok () /\ (forall x, wg_node (wg_unlink g u v).2 x = wg_node g x) /\
    b_nodes (g_b (wg_unlink g u v).2) = b_nodes (g_b g)).
  { unfold wg_unlink. destruct (g_nodes g !! uid_string u) as [n|]; [|done].
    destruct (g_nodes g !! uid_string v) as [m|]; [|done]. cbn.
    destruct (b_remove_edge_ok _ (n_id n) (n_id m) Hb) as (_&Hn'&_). done. }
  pose proof (fun x y => unlink_edge_obs dir g u v x y Hbase Hc) as Hobs.
  rewrite Hu in *. cbn in *. destruct Hr1 as (->&Hn&Hbn). destruct Hbase' as (_&Hb'&Hk').
  split; [done|]. split; [exact Hobs|]. split; [done|]. split.
  - intros m. rewrite !listed_iff by done. by rewrite Hbn.
  - by apply gwf_consistent.
Qed.
Print Assumptions c07_unlink.
Example c07_example : forall dir,
  wg_edge (wg_unlink (ex3 dir) ua ub).2 ua ub = Err GraphErrEdgeNotExist.
Proof. intros []; vm_compute; reflexivity. Qed.

(** C08.  RemoveNode. *)
Theorem c08_remove_node :
  forall dir g u r g', reach dir g -> consistent g -> wg_remove_node g u = (r, g') ->
    r = Ok () /\
    (forall x, wg_node g' x = if bool_decide (same_text x u) then Err GraphErrNodeNotFound else wg_node g x) /\
    (forall m, listed g' m <-> listed g m /\ ~ same_text (n_uid m) u) /\
    (forall x y, wg_edge g' x y =
       if bool_decide (same_text x u \/ same_text y u) then Err GraphErrNodeNotFound else wg_edge g x y) /\
    (forall e, edge_listed g' e <->
       edge_listed g e /\ forall n, wg_node g u = Ok n -> n_id (ed_from e) <> n_id n /\ n_id (ed_to e) <> n_id n) /\
    consistent g'.
Proof.
  intros dir g u r g' Hr Hc Hu. pose proof (reach_base _ _ Hr) as Hbase. pose proof Hbase as (Hd&Hb&Hk).
  pose proof (gbase_remove dir g u Hbase) as Hbase'.
  apply gwf_consistent in Hc; [|done..].
  pose proof (gwf_remove g u Hb Hk Hc) as Hc'.
  pose proof (fun x y => remove_edge_obs dir g u x y Hbase Hc) as Hobs.
  rewrite Hu in *. cbn [snd] in *. destruct Hbase' as (_&Hb'&Hk').
  unfold wg_remove_node in Hu. destruct (g_nodes g !! uid_string u) as [n|] eqn:En.
  - injection Hu as <- <-. split; [done|]. unfold removenode_commit in *. cbn in Hb'.
    destruct (b_remove_node_ok _ (n_id n) Hb) as (_&Hn'&_&_&Ha&_).
    split_and!.
    + intros x. unfold wg_node. cbn. unfold same_text. case_bool_decide as Hx.
      * by rewrite Hx, lookup_delete.
      * by rewrite lookup_delete_ne by congruence.
    + intros m. rewrite !listed_iff by done. cbn. rewrite Hn', lookup_delete_Some.
      destruct Hc as [Hw1 Hw2]. split.
      * intros [Hne Hm]. split; [done|]. intros E. apply Hne. destruct (Hw2 _ _ Hm) as (n'&Hn1&Hi).
        unfold same_text in E. unfold n_key in Hn1. rewrite E, En in Hn1. by injection Hn1 as ->.
      * intros [Hm Hne]. split; [|done]. intros E. apply Hne. destruct (Hw1 _ _ En) as (m'&Hm'&Hk1).
        rewrite E in Hm'. rewrite Hm in Hm'. injection Hm' as ->. done.
    + exact Hobs.
    + intros e. rewrite !edge_listed_iff by done. cbn [g_b wg_set_nodes wg_set_b]. rewrite Ha.
      case_bool_decide as Hp.
      * split; [done|]. intros [_ Hno]. destruct (Hno n) as [H1 H2]; [by apply wg_node_Ok|].
        destruct Hp; done.
      * split; [|naive_solver]. intros He. split; [done|]. intros n' Hn1. apply wg_node_Ok in Hn1.
        rewrite En in Hn1. injection Hn1 as <-. unfold ends in Hp. cbn in Hp. split; intros E; apply Hp; auto.
    + by apply gwf_consistent.
  - injection Hu as <- <-. split; [done|]. split_and!.
    + intros x. case_bool_decide as Hx; [|done]. apply wg_node_Err. by rewrite Hx.
    + intros m. split; [|naive_solver]. intros Hm. split; [done|]. intros E.
      apply listed_iff in Hm; [|done]. destruct Hc as [_ Hw2]. destruct (Hw2 _ _ Hm) as (n'&Hn1&_).
      unfold n_key in Hn1. rewrite E in Hn1. congruence.
    + exact Hobs.
    + intros e. split; [|naive_solver]. intros He. split; [done|]. intros n Hn. apply wg_node_Ok in Hn. congruence.
    + by apply gwf_consistent.
Qed.
Print Assumptions c08_remove_node.
Example c08_example : forall dir,
  wg_node (wg_remove_node (ex3 dir) ua).2 ua = Err GraphErrNodeNotFound /\
  wg_edge (wg_remove_node (ex3 dir) uc).2 ua ub = wg_edge (ex3 dir) ua ub.
Proof. intros []; vm_compute; done. Qed.

(** C09.  From. *)
Theorem c09_from_exact :
  forall dir g o st u, reach dir g ->
    exists ns, wg_from o st g u = Ok ns /\
      (wg_node g u = Err GraphErrNodeNotFound -> ns = []) /\
      NoDup (n_id <$> ns) /\
      (forall n, n ∈ ns -> listed g n) /\
      (consistent g -> forall v,
         (exists n, n ∈ ns /\ same_text (n_uid n) v) <-> exists e, wg_edge g u v = Ok e) /\
      (agree g -> forall n, n ∈ ns <-> exists e, wg_edge g u (n_uid n) = Ok e /\ wg_node g (n_uid n) = Ok n).
Proof.
  intros dir g o st u Hr. destruct (reach_base _ _ Hr) as (Hd&Hb&Hk). unfold wg_from.
  destruct (g_nodes g !! uid_string u) as [a|] eqn:Ea.
  - destruct (b_from_nodes_ok o st (g_b g) (n_id a) Hb) as (ns&Hns&Hnd&Hin). exists ns.
    split; [done|]. split. { intros H. apply wg_node_Err in H. congruence. }
    split; [done|]. split. { intros n Hn. apply listed_iff; [done|]. by apply Hin. }
    assert (Hedge : forall v b, wg_node g v = Ok b ->
       (exists e, wg_edge g u v = Ok e) <-> is_Some (adj_get (b_from (g_b g)) (n_id a) (n_id b))).
    { intros v b Hv. rewrite wg_edge_cases, Hv. unfold wg_node. rewrite Ea.
      pose proof (b_weighted_edge_None (g_b g) (n_id a) (n_id b)) as Hnone.
      destruct (b_weighted_edge (g_b g) (n_id a) (n_id b)) as [e|].
      - split; [|eauto]. intros _. apply not_eq_None_Some. intros E. by apply Hnone in E.
      - split; [by intros [? ?]|]. intros [e He]. by rewrite (proj1 Hnone eq_refl) in He. }
    split.
    + intros Hc v. apply gwf_consistent in Hc as [Hw1 Hw2]; [|done..]. split.
      * intros (n&Hn&Ht). apply Hin in Hn as [Hn Hadj]. destruct (Hw2 _ _ Hn) as (b&Hb'&Hi).
        apply (Hedge v b). { apply wg_node_Ok. by rewrite <- Ht. } by rewrite Hi.
      * intros He. destruct (wg_node_total g v) as [[b Hv]|Hv].
        -- apply (Hedge v b Hv) in He. apply wg_node_Ok in Hv. destruct (Hw1 _ _ Hv) as (m&Hm&Hmk).
           exists m. pose proof (bw_id _ Hb _ _ Hm) as Hid. split; [|done]. apply Hin. rewrite Hid. done.
        -- destruct He as [e He]. rewrite wg_edge_cases, Hv in He. by destruct (wg_node g u).
    + intros Ha n. apply gexact_agree in Ha as [Hx1 Hx2]; [|done..]. rewrite Hin. split.
      * intros [Hn Hadj]. assert (Hnode : wg_node g (n_uid n) = Ok n) by (apply wg_node_Ok; by eapply Hx2).
        apply (Hedge (n_uid n) n Hnode) in Hadj as [e He]. eauto.
      * intros (e&He&Hnode). assert (Hadj := proj1 (Hedge _ _ Hnode) (ex_intro _ e He)).
        split; [|done]. apply wg_node_Ok in Hnode. by eapply Hx1.
  - exists []. split; [done|]. split; [done|]. split; [constructor|].
    assert (Hno : forall v e, wg_edge g u v <> Ok e).
    { intros v e. unfold wg_edge. by rewrite Ea. }
    split; [intros n Hn; by apply elem_of_nil in Hn|]. split.
    + intros _ v. split; [intros (n&Hn&_); by apply elem_of_nil in Hn|]. intros [e He]. by apply Hno in He.
    + intros _ n. split; [intros Hn; by apply elem_of_nil in Hn|]. intros (e&He&_). by apply Hno in He.
Qed.
Print Assumptions c09_from_exact.
Example c09_example :
  match wg_from iter_rev [] (ex3 false) ub with Ok [n] => n_uid n = ua | _ => False end /\
  wg_from iter_rev [] (ex3 true) ub = Ok [].
Proof. split; vm_compute; reflexivity. Qed.

(** C10.  Edges. *)
Theorem c10_edges_once :
  forall dir g o st, reach dir g ->
    exists es, wg_edges o st g = Ok es /\
      NoDup (edge_ids <$> es) /\ (dir = false -> unordered_once es) /\
      (forall u v e, wg_edge g u v = Ok e -> e ∈ es \/ dir = false /\ edge_reversed e ∈ es) /\
      (consistent g -> forall e, e ∈ es -> exists u v, wg_edge g u v = Ok e).
Proof.
  intros dir g o st Hr. destruct (reach_base _ _ Hr) as (Hd&Hb&Hk). eexists. split; [done|].
  destruct (b_weighted_edges_nodup o st (g_b g) Hb) as [H1 H2].
  split; [exact H1|]. split. { intros Hdir. apply H2. congruence. }
  split.
  - intros u v e He. destruct (c01_adjacency_sound dir g Hr) as (_&Hs&_).
    destruct (Hs _ _ _ He) as (a&b&_&_&_&Hor).
    destruct Hor as [H|[? H]]; [left|right; split; [done|]];
      destruct (H o st) as (es&[= <-]&Hin); exact Hin.
  - intros Hc e He. apply b_weighted_edges_in in He; [|done]. apply gwf_consistent in Hc as [Hw1 Hw2]; [|done..].
    destruct (bw_edge _ Hb _ _ _ He) as (Hne&[a Ha]&[b Hb']&_).
    destruct (Hw2 _ _ Ha) as (a'&Ha'&Hi). destruct (Hw2 _ _ Hb') as (b'&Hb1&Hj).
    exists (n_uid a), (n_uid b). unfold wg_edge. fold (n_key a) (n_key b). rewrite Ha', Hb1, Hi, Hj.
    unfold b_weighted_edge. rewrite He. destruct (b_dir (g_b g)); [done|].
    by rewrite bool_decide_true.
Qed.
Print Assumptions c10_edges_once.
Example c10_example : forall dir,
  match wg_edges iter_rev [] (ex3 dir) with Ok [e] => ed_weight e = 7%N | _ => False end.
Proof. intros []; vm_compute; reflexivity. Qed.

(** C15, the full statement; linking a node with itself panics. *)
Definition c15_full : Prop :=
  forall dir g w u v opts p, reach dir g -> (wg_link w g u v opts).1 <> Panic p.
Theorem c15_linking_never_panics_refuted : ~ c15_full.
Proof.
  intros H. apply (H true _ w0 ua ua [] PSelfEdge (tidy_reach _ _ (ex3_tidy true))). vm_compute. reflexivity.
Qed.
Print Assumptions c15_linking_never_panics_refuted.
(** Exactly when Link panics: both UIDs are known and their nodes have one id; in
    a consistent graph, when the two texts are equal and known. *)
Theorem c15_linking_never_panics_partial :
  forall dir g w u v opts, reach dir g ->
    ((exists p, (wg_link w g u v opts).1 = Panic p) <->
     exists a b, wg_node g u = Ok a /\ wg_node g v = Ok b /\ n_id a = n_id b) /\
    (consistent g ->
     (exists p, (wg_link w g u v opts).1 = Panic p) <-> same_text u v /\ known g u).
Proof.
  intros dir g w u v opts Hr. pose proof (reach_base _ _ Hr) as Hbase. pose proof Hbase as (Hd&Hb&Hk).
  assert (Hiff : (exists p, (wg_link w g u v opts).1 = Panic p) <->
     exists a b, wg_node g u = Ok a /\ wg_node g v = Ok b /\ n_id a = n_id b).
  { rewrite (wg_link_cases dir) by done.
    destruct (wg_node_total g u) as [[a Ha]|Ha]; rewrite Ha; [|naive_solver].
    destruct (wg_node_total g v) as [[b Hb']|Hb']; rewrite Hb'; [|naive_solver].
    destruct (decide (n_id a = n_id b)) as [E|E].
    - assert (Hnone : forall e, wg_edge g u v <> Ok e).
      { intros e. rewrite wg_edge_cases, Ha, Hb'. rewrite E.
        destruct (b_weighted_edge (g_b g) (n_id b) (n_id b)) as [e'|] eqn:Ee; [|done].
        unfold b_weighted_edge in Ee. destruct (adj_get (b_from (g_b g)) (n_id b) (n_id b)) eqn:Eadj; [|done].
        by destruct (bw_edge _ Hb _ _ _ Eadj) as [? _]. }
      destruct (link_commit_self w g a b opts E) as [w1 Hp].
      split; [intros _; eauto|]. intros _.
      destruct (wg_edge g u v) as [e| |]; [by destruct (Hnone e)|..]; rewrite Hp; eauto.
    - destruct (link_commit_ok w g a b opts E) as (e&w1&b'&_&_&_&Hl&_).
      split.
      + intros [p Hp]. destruct (wg_edge g u v); [done|..]; rewrite Hl in Hp; done.
      + intros (a'&b''&[= <-]&[= <-]&?). done. }
  split; [exact Hiff|]. intros Hc. rewrite Hiff. apply gwf_consistent in Hc; [|done..]. split.
  - intros (a&b&Ha&Hb'&E). rewrite (id_text g u v a b Hc Ha Hb') in E. split; [done|]. exists a. done.
  - intros [Ht [a Ha]]. exists a, a. split; [done|]. split; [|done]. unfold wg_node in *. by rewrite <- Ht.
Qed.
Print Assumptions c15_linking_never_panics_partial.

(** C16, the full statement; an edge linked without a weight has weight 0. *)
Definition created (w : world) (g : wg) (u v : UID) (l : list graph_syn) (e : edge) : Prop :=
  (wg_link w g u v (graph_den <$> l)).1 = Ok e /\ wg_edge g u v = Err GraphErrEdgeNotExist.
Definition c16_full : Prop :=
  forall dir g w u v l e, reach dir g -> created w g u v l e ->
    last_set graph_weight_of l = None -> ed_weight e = default_weight.
Theorem c16_default_weight_refuted : ~ c16_full.
Proof.
  intros H. specialize (H true (ex3 true) w0 ua uc []).
  destruct (wg_link w0 (ex3 true) ua uc (graph_den <$> [])).1 as [e| |] eqn:E;
    [|vm_compute in E; discriminate E..].
  specialize (H e (tidy_reach _ _ (ex3_tidy true))).
  assert (Hc : created w0 (ex3 true) ua uc [] e) by (split; [exact E|vm_compute; reflexivity]).
  specialize (H Hc eq_refl). vm_compute in E. injection E as <-. discriminate H.
Qed.
Print Assumptions c16_default_weight_refuted.
(** The exact rule: the last WithWeight given, else zero. *)
Theorem c16_default_weight_partial :
  forall dir g w u v l e, reach dir g -> created w g u v l e ->
    ed_weight e = default f64_zero (last_set graph_weight_of l).
Proof.
  intros dir g w u v l e Hr [Hl He]. pose proof (reach_base _ _ Hr) as Hbase.
  rewrite (wg_link_cases dir) in Hl by done.
  destruct (wg_node_total g u) as [[a Ha]|Ha]; rewrite Ha in Hl; [|done].
  destruct (wg_node_total g v) as [[b Hb]|Hb]; rewrite Hb in Hl; [|done].
  rewrite He in Hl. unfold link_commit in Hl. destruct (new_edge w a b (graph_den <$> l)) as [e' w1] eqn:E.
  destruct (c38_edge _ _ _ _ _ _ E) as (_&_&Hw&_).
  destruct (b_set_edge (g_b g) e'); [|done..]. by injection Hl as <-.
Qed.
Print Assumptions c16_default_weight_partial.
