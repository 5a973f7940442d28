(** The methods a WG has from the embedded gonum graph: C104. *)
From Verif.Model Require Import Graph.
From Verif.Spec Require Import GraphSpec.
From Verif.Proof Require Import GonumP GraphP.
From Verif.Props Require Import PGraph.

(** e is an edge from x to y, or between them if the graph is undirected *)
Definition joins_ids (dir : bool) (e : edge) (x y : Z) : Prop :=
  edge_ids e = (x, y) \/ dir = false /\ edge_ids e = (y, x).
(** stored edges are the listed ones *)
Lemma adj_listed dir g x y e :
  gbase dir g -> adj_get (b_from (g_b g)) x y = Some e <-> edge_listed g e /\ joins_ids dir e x y.
Proof.
  intros (Hd&Hb&_). rewrite edge_listed_iff by done. unfold joins_ids. change (edge_ids e) with (ends e). split.
  - intros He. destruct (bw_edge _ Hb _ _ _ He) as (_&_&_&[Q|[Q0 Q]]); rewrite Q; cbn.
    + auto.
    + rewrite (bw_sym _ Hb Q0). split; [done|]. right. split; [congruence|done].
  - intros [He [Q|[-> Q]]]; rewrite Q in He; cbn in He; [done|]. by rewrite (bw_sym _ Hb Hd).
Qed.
Definition defaults_kept (g : wg) : Prop := b_self (g_b g) = b_absent (g_b g).
Lemma defaults_step o st w g op dir :
  gbase dir g ->
  b_self (g_b (gstep o st (w, g) op).2.2) = b_self (g_b g) /\
  b_absent (g_b (gstep o st (w, g) op).2.2) = b_absent (g_b g).
Proof.
  intros (Hd&Hb&_). destruct op as [e opts|n opts|u|u v opts|u v]; cbn [gstep].
  - destruct (wg_new_node o st w g e opts) as [[n w1]| |]; done.
  - destruct n as [n|n]; [|done]. unfold wg_add_node, addnode_commit.
    destruct (b_nodes (g_b g) !! n_id n) eqn:E.
    + destruct (g_nodes g !! n_key n); [|done]. destruct (go_upsert _); done.
    + destruct (b_add_node_ok _ _ E) as (b'&->&_&_&_&_&H1&H2&_). done.
  - unfold wg_remove_node. destruct (g_nodes g !! uid_string u) as [n|]; [|done]. cbn.
    destruct (b_remove_node_ok _ (n_id n) Hb) as (_&_&H1&H2&_). done.
  - unfold wg_link. destruct (link_check g u v) as [[e|[f t]]| |]; [done| |done..].
    unfold link_commit. destruct (new_edge w f t opts) as [e w1].
    destruct (b_set_edge (g_b g) e) as [b| |] eqn:E; [|done..]. cbn.
    assert (Hne : n_id (ed_from e) <> n_id (ed_to e)).
    { intros H. unfold b_set_edge in E. by rewrite bool_decide_true in E. }
    destruct (b_set_edge_ok (g_b g) e Hne) as (b'&E'&_&_&_&H1&H2). rewrite E in E'. by injection E' as <-.
  - unfold wg_unlink. destruct (g_nodes g !! uid_string u) as [f|]; [|done].
    destruct (g_nodes g !! uid_string v) as [t|]; [|done]. cbn.
    destruct (b_remove_edge_ok _ (n_id f) (n_id t) Hb) as (_&_&_&H1&H2&_). done.
Qed.

(** C104.  Whatever the history, Weight of two ids is the weight of the edge that
    joins them; without one it is the weight the graph was made with. *)
Theorem c104_weight :
  forall dir g, reach dir g ->
    exists s, forall x y,
      (x = y -> b_weight (g_b g) x y = (s, true)) /\
      (x <> y -> forall e, edge_listed g e -> joins_ids dir e x y -> b_weight (g_b g) x y = (ed_weight e, true)) /\
      (x <> y -> (forall e, edge_listed g e -> ~ joins_ids dir e x y) -> b_weight (g_b g) x y = (s, false)).
Proof.
  intros dir g Hr. exists (b_self (g_b g)). intros x y. pose proof (reach_base _ _ Hr) as Hg.
  assert (Hsa : defaults_kept g).
  { induction Hr as [w opts|o st w g op Hr IH].
    - destruct (new_fields dir w opts) as [[z Hz] _]. unfold defaults_kept. by rewrite Hz.
    - unfold defaults_kept in *. destruct (defaults_step o st w g op dir (reach_base _ _ Hr)) as [-> ->].
      apply IH. by apply reach_base. }
  unfold b_weight. split_and!.
  - intros ->. by rewrite bool_decide_true.
  - intros Hne e He Hj. rewrite bool_decide_false by done.
    assert (Ha : adj_get (b_from (g_b g)) x y = Some e) by (by apply (adj_listed dir)). by rewrite Ha.
  - intros Hne Hno. rewrite bool_decide_false by done.
    destruct (adj_get (b_from (g_b g)) x y) as [e|] eqn:Ha; [|by rewrite Hsa].
    apply (adj_listed dir) in Ha as [He Hj]; [|done]. by destruct (Hno e).
Qed.
Print Assumptions c104_weight.
(** no call changes the weight for equal ids, which is the one given to the
    constructor (C38) *)
Theorem c104_default_kept :
  forall dir o st w g op x, reach dir g ->
    b_weight (g_b (gstep o st (w, g) op).2.2) x x = b_weight (g_b g) x x.
Proof.
  intros dir o st w g op x Hr. unfold b_weight. rewrite !bool_decide_true by done.
  by destruct (defaults_step o st w g op dir (reach_base _ _ Hr)) as [-> _].
Qed.
Print Assumptions c104_default_kept.
(** HasEdgeBetween and WeightedEdge by id *)
Theorem c104_edges_by_id :
  forall dir g, reach dir g -> forall x y,
    (b_has_edge_between (g_b g) x y = true <->
       exists e, edge_listed g e /\ (edge_ids e = (x, y) \/ edge_ids e = (y, x))) /\
    (forall e, b_weighted_edge (g_b g) x y = Some e <->
       edge_ids e = (x, y) /\ (edge_listed g e \/ dir = false /\ edge_listed g (edge_reversed e))).
Proof.
  intros dir g Hr x y. pose proof (reach_base _ _ Hr) as Hg. pose proof Hg as (Hd&Hb&_). split.
  - unfold b_has_edge_between. rewrite orb_true_iff, andb_true_iff, !bool_decide_eq_true, Hd. split.
    + intros [[e He]|[_ [e He]]]; apply (adj_listed dir) in He as [He Hj]; try done; exists e; split; try done;
        destruct Hj as [Q|[? Q]]; auto.
    + intros (e&He&[Q|Q]).
      * left. exists e. apply (adj_listed dir); [done|]. split; [done|by left].
      * destruct dir.
        -- right. split; [done|]. exists e. apply (adj_listed true); [done|]. split; [done|by left].
        -- left. exists e. apply (adj_listed false); [done|]. split; [done|by right].
  - assert (Hxy : forall e, adj_get (b_from (g_b g)) x y = Some e -> x <> y).
    { intros e He. by apply (bw_edge _ Hb) in He as [? _]. }
    intros e. unfold b_weighted_edge. rewrite Hd. split.
    + destruct (adj_get (b_from (g_b g)) x y) as [e0|] eqn:Ha; [|done]. pose proof (Hxy _ eq_refl) as Hne.
      apply (adj_listed dir) in Ha as [He Hj]; [|done]. destruct dir.
      * intros [= <-]. destruct Hj as [Q|[? _]]; [auto|done].
      * case_bool_decide as Hf; intros [= <-].
        -- split; [|by left]. destruct Hj as [Q|[_ Q]]; [done|]. unfold edge_ids in Q. congruence.
        -- destruct Hj as [Q|[_ Q]]; unfold edge_ids in *; [congruence|]. cbn. split; [congruence|]. right.
           split; [done|]. by destruct e0.
    + intros [Q [Hl|[-> Hl]]].
      * assert (Ha : adj_get (b_from (g_b g)) x y = Some e).
        { apply (adj_listed dir); [done|]. split; [done|by left]. }
        rewrite Ha. destruct dir; [done|]. unfold edge_ids in Q. injection Q as Q1 _. by rewrite bool_decide_true.
      * assert (Ha : adj_get (b_from (g_b g)) x y = Some (edge_reversed e)).
        { apply (adj_listed false); [done|]. split; [done|]. right. split; [done|]. unfold edge_ids in *. cbn. congruence. }
        rewrite Ha. pose proof (Hxy _ Ha) as Hne. unfold edge_ids in Q. injection Q as Q1 Q2.
        rewrite bool_decide_false; [by rewrite edge_reversed_inv|]. cbn. congruence.
Qed.
Print Assumptions c104_edges_by_id.

Definition wgt (dir : bool) : wg :=
  (wg_link w0 (put_tidy (put_tidy (put_tidy
     (if dir then (new_wdg w0 [graph_with_weight 3%N]).1 else (new_wug w0 [graph_with_weight 3%N]).1)
     (gent0 ua)) (gent0 ub)) (gent0 uc)) ub ua [graph_with_weight 7%N]).2.2.
Lemma wgt_reach dir : reach dir (wgt dir).
Proof. apply tidy_reach, tidy_link. repeat apply put_tidy_ok. constructor. Qed.
Example c104_example :
  (forall dir, reach dir (wgt dir)) /\
  b_weight (g_b (wgt true)) 1 0 = (7%N, true) /\ b_weight (g_b (wgt true)) 0 1 = (3%N, false) /\
  b_weight (g_b (wgt false)) 0 1 = (7%N, true) /\ b_weight (g_b (wgt true)) 5 5 = (3%N, true) /\
  b_has_edge_between (g_b (wgt true)) 0 1 = true /\ b_has_edge_between (g_b (wgt true)) 0 2 = false /\
  edge_ids <$> b_weighted_edge (g_b (wgt false)) 0 1 = Some (0%Z, 1%Z) /\ b_weighted_edge (g_b (wgt true)) 0 1 = None.
Proof. split; [apply wgt_reach|]. split_and!; vm_compute; reflexivity. Qed.
