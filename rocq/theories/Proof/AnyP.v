(** What SubGraph returns beside any calls. *)
From Verif.Model Require Import Conc.
From Verif.Spec Require Import GraphSpec SubSpec LinSpec ConcSpec SnapSpec.
From Verif.Proof Require Import AttrsP GonumP BfsP GraphP GraphP2 SubP SnapP SnapP2 LinP MutexP ConcP GraphLockP PanicP.

(** nodes in P, edges between nodes in P with a weight in W *)
Definition made (P : node -> Prop) (W : float64 -> Prop) (sg : wg) : Prop :=
  gbase true sg /\
  (forall i n, b_nodes (g_b sg) !! i = Some n -> P n) /\
  (forall k n, g_nodes sg !! k = Some n -> P n) /\
  (forall x y e, adj_get (b_from (g_b sg)) x y = Some e -> P (ed_from e) /\ P (ed_to e) /\ W (ed_weight e)).
Lemma made_mono (P : node -> Prop) (W W' : float64 -> Prop) sg : (forall x, W x -> W' x) -> made P W sg -> made P W' sg.
Proof. intros H (H1&H2&H3&H4). split; [done|]. split; [done|]. split; [done|]. naive_solver. Qed.
Lemma made_new (P : node -> Prop) (W : float64 -> Prop) w opts : made P W (new_wdg w opts).1.
Proof.
  split; [apply (gbase_new true)|]. destruct (new_fields true w opts) as [[x Hb] Hn]. cbn zeta in Hb, Hn.
  rewrite Hb, Hn. cbn. split; [intros i n; by rewrite lookup_empty|]. split; [intros k n; by rewrite lookup_empty|].
  intros a b e. unfold adj_get. by rewrite lookup_empty.
Qed.
Lemma made_add (P : node -> Prop) (W : float64 -> Prop) sg n : P n -> made P W sg -> made P W (wg_add_node sg (MemNode n) []).2.
Proof.
  intros Hn (H1&H2&H3&H4). cbn. pose proof (gbase_add true sg n false H1) as Hb. revert Hb. unfold addnode_commit.
  destruct (b_nodes (g_b sg) !! n_id n) eqn:E.
  - destruct (g_nodes sg !! n_key n); [by intros _|]. intros Hb. split; [done|]. split; [done|]. split; [|done].
    intros k x. cbn. rewrite lookup_insert_Some. intros [[_ <-]|[_ ?]]; eauto.
  - destruct (b_add_node_ok _ _ E) as (b&->&_&Hn'&Hf&_). intros Hb. split; [done|]. cbn. rewrite Hn', Hf.
    split; [|split; [|done]]; intros k x; rewrite lookup_insert_Some; intros [[_ <-]|[_ ?]]; eauto.
Qed.
Lemma new_edge_weight w f t opts : ed_weight (new_edge w f t opts).1 = go_weight (apply_opts graph_opts_zero opts).
Proof.
  unfold new_edge. destruct (uid_or_new _ _) as [u1 w1].
  destruct (if bool_decide _ then _ else _) as [[u2 d] w2]. by destruct (attrs_or_new _ _).
Qed.
Lemma made_link (P : node -> Prop) (W : float64 -> Prop) w sg u v a x :
  W x -> made P W sg -> made P W (wg_link w sg u v [graph_with_attrs a; graph_with_weight x]).2.2.
Proof.
  intros Hx (H1&H2&H3&H4). pose proof (gbase_link true w sg u v [graph_with_attrs a; graph_with_weight x] H1) as Hb. revert Hb.
  unfold wg_link. destruct (link_check sg u v) as [[e|[f t]]|y|p] eqn:Ec; try by intros _.
  assert (Hft : P f /\ P t).
  { unfold link_check in Ec. destruct (wg_edge sg u v); [done| |done]. case_bool_decide; [|done].
    destruct (g_nodes sg !! uid_string u) eqn:Eu; [|done]. destruct (g_nodes sg !! uid_string v) eqn:Ev; [|done].
    injection Ec as <- <-. eauto. }
  unfold link_commit. pose proof (new_edge_weight w f t [graph_with_attrs a; graph_with_weight x]) as Hwt.
  destruct (new_edge w f t _) as [e w1] eqn:Ee. cbn in Hwt.
  destruct (new_edge_ends _ _ _ _ _ _ Ee) as [Hef Het].
  destruct (decide (n_id (ed_from e) = n_id (ed_to e))) as [Eq|Ne].
  { unfold b_set_edge. rewrite bool_decide_true by done. by intros _. }
  destruct (b_set_edge_ok (g_b sg) e Ne) as (b&->&Hd&Hn&Ha&_). cbn. intros Hb. split; [done|]. cbn.
  rewrite Hn. split; [|split; [done|]].
  - intros i n. rewrite !lookup_insert_Some. intros [[_ <-]|[_ [[_ <-]|[_ ?]]]]; [rewrite Het|rewrite Hef|]; naive_solver.
  - intros i j e'. rewrite Ha. case_bool_decide; [|by apply H4]. intros [= <-]. rewrite Hef, Het, Hwt. naive_solver.
Qed.
Lemma made_edges o (P : node -> Prop) (W : float64 -> Prop) from to es : forall st w sg,
  (forall e, e ∈ es -> W (ed_weight e)) -> made P W sg -> made P W (sub_link_edges o st w sg from to es).2.2.
Proof.
  induction es as [|e es IH]; intros st w sg He Hm; cbn [sub_link_edges]; [done|].
  destruct (new_copy_from _ _) as [[a w1]| |]; [|done..].
  assert (Hl : made P W (wg_link w1 sg (n_uid from) (n_uid to) [graph_with_attrs (Some a); graph_with_weight (ed_weight e)]).2.2).
  { apply made_link; [|done]. apply He. by left. }
  destruct (wg_link _ _ _ _ _) as [[| |] [w2 sg']]; cbn in Hl |- *; [|done..]. apply IH; [|done]. intros e' ?. apply He. by right.
Qed.
Lemma made_visit (P : node -> Prop) (W : float64 -> Prop) order : forall sg sgn err, Forall P order -> made P W sg ->
  made P W (fold_left sub_visit order (sg, sgn, err)).1.1.
Proof.
  induction order as [|n order IH]; intros sg sgn err Ho Hm; cbn [fold_left]; [done|].
  apply Forall_cons in Ho as [Hn Ho]. pose proof (made_add P W sg n Hn Hm) as H.
  unfold sub_visit at 2. destruct (wg_add_node sg (MemNode n) []) as [[| |] sg']; cbn in H; by apply IH.
Qed.
(** the walk visits its root and nodes of the graph *)
Lemma scan_nodes (P : node -> Prop) ns : forall s, Forall P ns -> Forall P (f_order s) -> Forall P (f_order (bfs_scan s ns)).
Proof.
  induction ns as [|n ns IH]; intros s Hn Hs; cbn [bfs_scan]; [done|]. apply Forall_cons in Hn as [H1 H2].
  case_bool_decide; apply IH; cbn; auto. apply Forall_app. auto.
Qed.
Lemma loop_nodes o st b (P : node -> Prop) d fuel : bwf b -> (forall i n, b_nodes b !! i = Some n -> P n) ->
  forall s order, Forall P (f_order s) -> bfs_loop o st b d fuel s = Some (Ok order) -> Forall P order.
Proof.
  intros Hb HP. induction fuel as [|fuel IH]; intros s order Hs; cbn [bfs_loop].
  - destruct (f_queue s); [by intros [= <-]|]. case_bool_decide; [by intros [= <-]|done].
  - destruct (f_queue s) as [|t q]; [by intros [= <-]|]. case_bool_decide; [by intros [= <-]|].
    destruct (b_from_nodes_ok o (st ++ [S fuel]) b (n_id t) Hb) as (ns&->&_&Hns). apply IH.
    assert (HL : forall s', f_order (bfs_level s') = f_order s') by (intros s'; unfold bfs_level; by case_bool_decide).
    rewrite HL. apply scan_nodes; [|done]. apply Forall_forall. intros n Hn. apply Hns in Hn as [? _]. eauto.
Qed.
Lemma walk_nodes o st b root d order (P : node -> Prop) : bwf b -> (forall i n, b_nodes b !! i = Some n -> P n) -> P root ->
  bfs_walk o st b root d = Some (Ok order) -> Forall P order.
Proof. intros Hb HP Hr. apply loop_nodes; [done..|]. cbn. auto. Qed.

(** ** when SubGraph panics *)
Lemma loop_no_panic o st b d fuel p : bwf b -> forall s, bfs_loop o st b d fuel s <> Some (Panic p).
Proof.
  intros Hb. induction fuel as [|fuel IH]; intros s; cbn [bfs_loop].
  - destruct (f_queue s); [done|]. by case_bool_decide.
  - destruct (f_queue s) as [|t q]; [done|]. case_bool_decide; [done|].
    destruct (b_from_nodes_ok o (st ++ [S fuel]) b (n_id t) Hb) as (ns&->&_). apply IH.
Qed.
Lemma walk_no_panic o st b root d p : bwf b -> bfs_walk o st b root d <> Some (Panic p).
Proof. intros Hb. by apply loop_no_panic. Qed.
Definition walked (s : bfs) : Prop := NoDup (n_id <$> f_order s) /\ forall n, n ∈ f_order s -> n_id n ∈ f_visited s.
Lemma scan_walked ns : forall s, walked s -> walked (bfs_scan s ns).
Proof.
  induction ns as [|n ns IH]; intros s [H1 H2]; cbn [bfs_scan]; [done|]. case_bool_decide as Hv; apply IH; [done|].
  split; cbn.
  - rewrite fmap_app. apply NoDup_app. split; [done|]. split; [|apply NoDup_singleton].
    intros i Hi. apply elem_of_list_fmap in Hi as (m&->&Hm). cbn. rewrite elem_of_list_singleton. intros E.
    apply Hv. rewrite <- E. auto.
  - intros m. rewrite elem_of_app, elem_of_list_singleton. intros [?| ->]; [apply elem_of_union_r; auto|set_solver].
Qed.
Lemma loop_walked o st b d fuel : forall s order, walked s -> bfs_loop o st b d fuel s = Some (Ok order) -> NoDup (n_id <$> order).
Proof.
  induction fuel as [|fuel IH]; intros s order Hs; cbn [bfs_loop].
  - destruct (f_queue s); [by intros [= <-]; apply Hs|]. case_bool_decide; [by intros [= <-]; apply Hs|done].
  - destruct (f_queue s) as [|t q]; [by intros [= <-]; apply Hs|]. case_bool_decide; [by intros [= <-]; apply Hs|].
    destruct (b_from_nodes _ _ _ _) as [ns| |]; [|done..]. apply IH.
    pose proof (scan_walked ns (Bfs q (f_visited s) (f_order s) (f_depth s) (f_children s) (f_until_next s)) Hs) as HW0.
    unfold bfs_level. by case_bool_decide.
Qed.
Lemma walk_walked o st b root d order : bfs_walk o st b root d = Some (Ok order) -> NoDup (n_id <$> order).
Proof.
  apply loop_walked. split; cbn; [apply NoDup_singleton|]. intros n. rewrite elem_of_list_singleton. intros ->. set_solver.
Qed.
(** two of the visited nodes have one UID *)
Definition twins (order : list node) : Prop :=
  exists a b, a ∈ order /\ b ∈ order /\ n_key a = n_key b /\ n_id a <> n_id b.
Lemma same_id order (a b : node) : NoDup (n_id <$> order) -> a ∈ order -> b ∈ order -> n_id a = n_id b -> a = b.
Proof.
  intros Hn Ha Hb E. apply elem_of_list_lookup in Ha as [i Hi]. apply elem_of_list_lookup in Hb as [j Hj].
  assert (i = j) as ->; [|congruence]. eapply (NoDup_lookup (n_id <$> order)); [done| |].
  - by rewrite list_lookup_fmap, Hi.
  - rewrite list_lookup_fmap, Hj. cbn. by rewrite E.
Qed.
Definition from_order (order : list node) (m : gmap string node) : Prop :=
  forall k n, m !! k = Some n -> n ∈ order /\ n_key n = k.
Lemma link_keeps w g u v opts : g_nodes (wg_link w g u v opts).2.2 = g_nodes g.
Proof.
  unfold wg_link. destruct (link_check g u v) as [[e|[f t]]|y|p]; try done.
  unfold link_commit. destruct (new_edge _ _ _ _). by destruct (b_set_edge _ _).
Qed.
Lemma link_panics w g u v opts p : (wg_link w g u v opts).1 = Panic p ->
  exists a b, g_nodes g !! uid_string u = Some a /\ g_nodes g !! uid_string v = Some b /\ n_id a = n_id b.
Proof.
  unfold wg_link, link_check. pose proof (edge_no_panic g u v) as N.
  destruct (wg_edge g u v) as [e|x|p']; [done| |by destruct (N p')]. case_bool_decide; [|done].
  destruct (g_nodes g !! uid_string u) as [a|] eqn:Ea; [|done]. destruct (g_nodes g !! uid_string v) as [b|] eqn:Eb; [|done].
  intros HP0. exists a, b. split; [done|]. split; [done|].
  unfold link_commit in HP0. destruct (new_edge w a b opts) as [e w2] eqn:Ew.
  destruct (new_edge_ends _ _ _ _ _ _ Ew) as [Hef Het]. rewrite <- Hef, <- Het.
  destruct (decide (n_id (ed_from e) = n_id (ed_to e))) as [?|Ne]; [done|].
  destruct (b_set_edge_ok (g_b g) e Ne) as (b'&Eb'&_). by rewrite Eb' in HP0.
Qed.
Lemma edges_twins o order from to es : NoDup (n_id <$> order) -> from ∈ order -> to ∈ order -> n_id from <> n_id to ->
  forall st w sg, from_order order (g_nodes sg) ->
    from_order order (g_nodes (sub_link_edges o st w sg from to es).2.2) /\
    forall p, (sub_link_edges o st w sg from to es).1 = Panic p -> twins order.
Proof.
  intros Hn Hf Ht Hne. induction es as [|e es IH]; intros st w sg Ho; cbn [sub_link_edges]; [done|].
  rewrite new_copy_mem. destruct (attrs_alloc w _) as [a w1].
  set (opts := [graph_with_attrs (Some a); graph_with_weight (ed_weight e)]).
  pose proof (link_keeps w1 sg (n_uid from) (n_uid to) opts) as Hk.
  pose proof (link_panics w1 sg (n_uid from) (n_uid to) opts) as Hp.
  destruct (wg_link w1 sg (n_uid from) (n_uid to) opts) as [[| |p'] [w2 sg']]; cbn in Hk, Hp |- *.
  - apply IH. by rewrite Hk.
  - rewrite Hk. done.
  - rewrite Hk. split; [done|]. intros _ _. destruct (Hp p' eq_refl) as (x&y&Hx&Hy&E).
    destruct (Ho _ _ Hx) as [Hx1 Hx2]. destruct (Ho _ _ Hy) as [Hy1 Hy2].
    rewrite (same_id order x y Hn Hx1 Hy1 E) in Hx2. exists from, to. split; [done|]. split; [done|]. split; [|done].
    unfold n_key in *. congruence.
Qed.
Definition named (order : list node) (acc : wg * gmap Z node * option goerr) : Prop :=
  from_order order (g_nodes acc.1.1) /\ forall i n, acc.1.2 !! i = Some n -> n ∈ order /\ n_id n = i.
Lemma visit_named order l : forall acc, (forall n, n ∈ l -> n ∈ order) -> named order acc -> named order (fold_left sub_visit l acc).
Proof.
  induction l as [|n l IH]; intros acc Hl Ha; cbn [fold_left]; [done|].
  apply IH; [intros m ?; apply Hl; by right|]. destruct acc as [[sg sgn] err]. destruct Ha as [H1 H2]. cbn in H1, H2.
  assert (Hn : n ∈ order) by (apply Hl; by left).
  assert (Hi : from_order order (<[n_key n := n]> (g_nodes sg))).
  { intros k x. rewrite lookup_insert_Some. intros [[<- <-]|[_ ?]]; auto. }
  assert (Hj : forall i x, <[n_id n := n]> sgn !! i = Some x -> x ∈ order /\ n_id x = i).
  { intros k x. rewrite lookup_insert_Some. intros [[<- <-]|[_ ?]]; auto. }
  unfold sub_visit. cbn [wg_add_node]. unfold addnode_commit. cbn [go_upsert apply_opts].
  destruct (b_nodes (g_b sg) !! n_id n) eqn:E.
  - destruct (g_nodes sg !! n_key n); [|by split]. cbn. by split.
  - destruct (b_add_node_ok _ _ E) as (b&->&_). by split.
Qed.

(** ** SubGraph does not fail *)
Lemma walk_ends o st b root d : bwf b -> exists order, bfs_walk o st b root d = Some (Ok order).
Proof.
  intros Hb. destruct (b_nodes b !! n_id root) as [n|] eqn:E.
  { destruct (bfs_walk_ok o st b root d Hb) as (order&Ho&_); [by rewrite E|]. by exists order. }
  unfold bfs_walk. cbn [bfs_loop f_queue f_depth]. case_bool_decide; [eauto|].
  destruct (b_from_nodes_ok o (st ++ [S (S (size (b_nodes b)))]) b (n_id root) Hb) as (ns&->&_&Hns).
  assert (ns = []) as ->; [|cbn; eauto]. destruct ns as [|m ns]; [done|].
  destruct (proj1 (Hns m)) as [_ [e He]]; [by left|]. destruct (bw_edge _ Hb _ _ _ He) as (_&[? Hx]&_). congruence.
Qed.
Lemma link_errs w g u v opts e : (wg_link w g u v opts).1 = Err e ->
  g_nodes g !! uid_string u = None \/ g_nodes g !! uid_string v = None.
Proof.
  destruct (g_nodes g !! uid_string u) as [a|] eqn:Ea; [|by left]. destruct (g_nodes g !! uid_string v) as [b|] eqn:Eb; [|by right].
  unfold wg_link, link_check. rewrite wg_edge_cases. unfold wg_node. rewrite Ea, Eb.
  destruct (b_weighted_edge _ _ _); [done|]. rewrite bool_decide_true by done.
  unfold link_commit. destruct (new_edge w a b opts) as [e0 w2].
  destruct (decide (n_id (ed_from e0) = n_id (ed_to e0))) as [Eq|Ne].
  - unfold b_set_edge. by rewrite bool_decide_true.
  - destruct (b_set_edge_ok (g_b g) e0 Ne) as (b'&->&_). done.
Qed.
Lemma edges_errs o from to es : forall st w sg,
  is_Some (g_nodes sg !! n_key from) -> is_Some (g_nodes sg !! n_key to) ->
  g_nodes (sub_link_edges o st w sg from to es).2.2 = g_nodes sg /\
  forall e, (sub_link_edges o st w sg from to es).1 <> Err e.
Proof.
  induction es as [|e es IH]; intros st w sg Hf Ht; cbn [sub_link_edges]; [done|].
  rewrite new_copy_mem. destruct (attrs_alloc w _) as [a w1].
  set (opts := [graph_with_attrs (Some a); graph_with_weight (ed_weight e)]).
  pose proof (link_keeps w1 sg (n_uid from) (n_uid to) opts) as Hk.
  pose proof (link_errs w1 sg (n_uid from) (n_uid to) opts) as Hp.
  destruct (wg_link w1 sg (n_uid from) (n_uid to) opts) as [[|e'|] [w2 sg']]; cbn in Hk, Hp |- *.
  - rewrite <- Hk in Hf, Ht |- *. by apply IH.
  - destruct Hf as [? Hf], Ht as [? Ht]. unfold n_key in *. destruct (Hp e' eq_refl); congruence.
  - by rewrite Hk.
Qed.
Definition keyed (seen : list Z) (acc : wg * gmap Z node * option goerr) : Prop :=
  (forall i, is_Some (b_nodes (g_b acc.1.1) !! i) -> i ∈ seen) /\
  (forall i n, acc.1.2 !! i = Some n -> is_Some (g_nodes acc.1.1 !! n_key n)) /\ acc.2 = None.
Lemma visit_keyed l : forall seen acc, NoDup (seen ++ (n_id <$> l)) -> keyed seen acc ->
  keyed (seen ++ (n_id <$> l)) (fold_left sub_visit l acc).
Proof.
  induction l as [|n l IH]; intros seen acc Hn Ha; cbn [fold_left]; [by rewrite app_nil_r|].
  rewrite fmap_cons in Hn |- *.
  replace (seen ++ n_id n :: (n_id <$> l)) with ((seen ++ [n_id n]) ++ (n_id <$> l)) in * by (by rewrite <- app_assoc).
  apply IH; [done|]. destruct acc as [[sg sgn] err]. destruct Ha as (H1&H2&H3). cbn in H1, H2, H3. subst err.
  unfold sub_visit. cbn [wg_add_node]. unfold addnode_commit.
  destruct (b_nodes (g_b sg) !! n_id n) eqn:E.
  { exfalso. apply NoDup_app in Hn as [Hn _]. apply NoDup_app in Hn as (_&Hn&_). apply (Hn (n_id n)); [|by left].
    apply H1. by rewrite E. }
  destruct (b_add_node_ok _ _ E) as (b&->&_&Hb&_). split; [|split; [|done]]; cbn.
  - intros i. rewrite Hb. destruct (decide (n_id n = i)) as [<-|N]; [set_solver|].
    rewrite lookup_insert_ne by done. intros Hi. apply elem_of_app. auto.
  - intros i m Hm. destruct (decide (n_key n = n_key m)) as [->|N]; [rewrite lookup_insert; eauto|].
    rewrite lookup_insert_ne by done. apply lookup_insert_Some in Hm as [[_ <-]|[_ ?]]; [done|eauto].
Qed.

Section any.
  Context (dir : bool).
  Notation inv := (gbase dir).
  Notation lruns := (lruns inv).
  Notation fine := (fine inv).
  Notation later := (later inv).
  Definition heavy (M : list gstate) (x : float64) : Prop := exists e, copies M e /\ ed_weight e = x.
  Lemma heavy_later s M s1 M1 x : later s M s1 M1 -> heavy M x -> heavy M1 x.
  Proof. intros (_&H&_) (e&(s0&?&?)&?). exists e. split; [|done]. exists s0. auto. Qed.
  Definition built (P : node -> Prop) (_ : hold) (r : res wg) (_ : gstate) (M : list gstate) : Prop :=
    match r with Ok sg => made P (heavy M) sg | _ => True end.
  Lemma built_later P h h' r s M s1 M1 : later s M s1 M1 -> built P h r s M -> built P h' r s1 M1.
  Proof. destruct r; cbn; auto. intros L. apply made_mono. intros x. by eapply heavy_later. Qed.
  Lemma sub_peers_lruns o P sgn from peers : forall st sg h s M,
    made P (heavy M) sg -> lruns (built P) h (sub_peers_prog o st sgn sg from peers) s M.
  Proof.
    induction peers as [|peer peers IH]; intros st sg h s M Hm; cbn [sub_peers_prog].
    { cbn. intros s1 M1 [L _]. eapply made_mono; [|exact Hm]. intros x. by eapply heavy_later. }
    destruct (sgn !! n_id peer) as [t|]; [|by apply IH]. apply lruns_load. intros s1 M1 L1.
    set (es := b_weighted_edges o ((st ++ [length peers]) ++ [0]) (g_b s1.2)).
    pose proof (lat_inv _ _ _ _ _ _ L1) as (_&Hb&_). pose proof (lat_fine _ _ _ _ _ _ L1) as [Hs1 _].
    assert (Hm1 : made P (heavy M1) sg) by (eapply made_mono; [intros x; eapply heavy_later, L1|done]).
    assert (Hes : forall e, e ∈ es -> heavy M1 (ed_weight e)).
    { intros e He. exists e. split; [|done]. exists s1. split; [done|]. by eapply b_weighted_edges_in. }
    apply lruns_alloc.
    - intros w. pose proof (wframe_sub_edges o from t es ((st ++ [length peers]) ++ [1]) w sg) as F.
      by destruct (sub_link_edges _ _ _ _ _ _ _) as [r [w1 sg1]].
    - intros w s2 M2 L2. pose proof (made_edges o P (heavy M1) from t es ((st ++ [length peers]) ++ [1]) w sg Hes Hm1) as H.
      destruct (sub_link_edges _ _ _ _ _ _ _) as [r [w1 sg1]]. cbn [fst snd] in H |- *.
      destruct r; [|by cbn..]. apply IH. eapply made_mono; [intros x; eapply heavy_later, L2|done].
  Qed.
  Lemma sub_nodes_lruns o P sgn todo : forall st sg h s M, fine s M ->
    made P (heavy M) sg -> lruns (built P) h (sub_nodes_prog o st sgn sg todo) s M.
  Proof.
    induction todo as [|[id from] todo IH]; intros st sg h s M Hf Hm; cbn [sub_nodes_prog].
    { cbn. intros s1 M1 [L _]. eapply made_mono; [|exact Hm]. intros x. by eapply heavy_later. }
    apply lruns_load. intros s1 M1 L1. pose proof (lat_fine _ _ _ _ _ _ L1) as Hf1.
    destruct (b_from_nodes _ _ _ _) as [peers| |]; [|by cbn..]. apply lruns_bind; [done|].
    eapply lruns_mono; [|apply sub_peers_lruns].
    - intros h1 r s2 M2 L2 Hr. destruct r as [sg1| |]; [|by cbn..]. apply IH; [by eapply later_lat|done].
    - eapply made_mono; [intros x; eapply heavy_later, L1|done].
  Qed.
  (** root found in one state, walk in another *)
  Definition part (u : UID) (M : list gstate) (sg : wg) : Prop :=
    exists s0 s1 r, s0 ∈ M /\ s1 ∈ M /\ g_nodes s0.2 !! uid_string u = Some r /\
      made (fun n => n = r \/ b_nodes (g_b s1.2) !! n_id n = Some n) (heavy M) sg.
  Definition partpost (u : UID) (r : option (res wg)) (M : list gstate) : Prop :=
    match r with Some (Ok sg) => part u M sg | _ => True end.
  Lemma partpost_later u r s M s1 M1 : later s M s1 M1 -> partpost u r M -> partpost u r M1.
  Proof.
    intros L. destruct r as [[sg| |]|]; cbn; auto. intros (s0&s2&r&H0&H2&Hr&Hm). pose proof L as (_&Hi&_).
    exists s0, s2, r. split; [auto|]. split; [auto|]. split; [done|]. eapply made_mono; [|exact Hm]. intros x. by eapply heavy_later.
  Qed.
  Lemma subgraph_lruns o st u d opts s M :
    lruns (fun _ r _ M => partpost u r M) (HR 0) (subgraph_prog o st u d opts) s M.
  Proof.
    unfold subgraph_prog. cbn [PanicP.lruns]. intros s1 M1 _. apply lruns_load. intros s2 M2 L2.
    destruct (g_nodes s2.2 !! uid_string u) as [root|] eqn:Er; [|by cbn].
    pose proof (lat_fine _ _ _ _ _ _ L2) as [Hs2 _].
    cbn [PanicP.lruns]. intros s3 M3 L3. apply lruns_alloc; [intros; apply wframe_new|]. intros w s4 M4 L4.
    cbn [PanicP.lruns]. intros s5 M5 L5. apply lruns_load. intros s6 M6 L6. cbn [PanicP.lruns]. intros s7 M7 L7.
    destruct (bfs_walk o (st ++ [0]) (g_b s6.2) root d) as [[order| |]|] eqn:Ew; [|by cbn..].
    set (P := fun n => n = root \/ b_nodes (g_b s6.2) !! n_id n = Some n).
    pose proof (lat_inv _ _ _ _ _ _ L6) as (_&Hb6&_). pose proof (lat_fine _ _ _ _ _ _ L6) as [Hs6 _].
    assert (Ho : Forall P order).
    { eapply walk_nodes; [exact Hb6| |by left|exact Ew]. intros i n Hn. right. by rewrite (bw_id _ Hb6 _ _ Hn). }
    pose proof (made_visit P (heavy M7) order (new_wdg w opts).1 ∅ None Ho (made_new _ _ _ _)) as Hm.
    destruct (fold_left _ _ _) as [[sg1 sgn] [e|]]; [by cbn|]. cbn [fst] in Hm.
    unfold pmap. apply lruns_bind; [by eapply lat_fine|]. eapply lruns_mono; [|apply sub_nodes_lruns; [by eapply lat_fine|exact Hm]].
    intros h r s8 M8 L8 Hr. cbn [PanicP.lruns]. intros s9 M9 L9. destruct r as [sg| |]; [|by cbn..]. cbn in Hr |- *.
    assert (L69 : forall x, x ∈ M6 -> x ∈ M9).
    { intros x Hx. destruct L9 as [(_&L9&_) _]. destruct L8 as (_&L8&_). destruct L7 as [(_&L7&_) _]. by apply L9, L8, L7. }
    exists s2, s6, root. split; [|split; [|split; [done|]]].
    - destruct L3 as [(_&L3&_) _]. destruct L4 as [(_&L4&_) _]. destruct L5 as [(_&L5&_) _]. destruct L6 as [(_&L6&_) _].
      by apply L69, L6, L5, L4, L3.
    - by apply L69.
    - eapply made_mono; [|exact Hr]. intros x. eapply heavy_later, L9.
  Qed.
  Definition twin (order : list node) (_ : hold) (r : res wg) (_ : gstate) (_ : list gstate) : Prop :=
    match r with Ok sg => from_order order (g_nodes sg) | Err _ => True | Panic _ => twins order end.
  Lemma peers_twins o order sgn from peers : NoDup (n_id <$> order) -> from ∈ order ->
    (forall i n, sgn !! i = Some n -> n ∈ order /\ n_id n = i) ->
    (forall p, p ∈ peers -> n_id p <> n_id from) -> forall st sg h s M,
    from_order order (g_nodes sg) -> lruns (twin order) h (sub_peers_prog o st sgn sg from peers) s M.
  Proof.
    intros Hn Hf Hs. induction peers as [|peer peers IH]; intros Hp st sg h s M Ho; cbn [sub_peers_prog]; [by cbn|].
    assert (Hp' : forall p, p ∈ peers -> n_id p <> n_id from) by (intros p ?; apply Hp; by right).
    destruct (sgn !! n_id peer) as [t|] eqn:Et; [|by apply IH]. apply lruns_load. intros s1 M1 L1.
    set (es := b_weighted_edges o ((st ++ [length peers]) ++ [0]) (g_b s1.2)). destruct (Hs _ _ Et) as [Ht Hti].
    apply lruns_alloc.
    - intros w. pose proof (wframe_sub_edges o from t es ((st ++ [length peers]) ++ [1]) w sg) as F.
      by destruct (sub_link_edges _ _ _ _ _ _ _) as [r [w1 sg1]].
    - intros w s2 M2 L2.
      destruct (edges_twins o order from t es Hn Hf Ht) with (st := (st ++ [length peers]) ++ [1]) (w := w) (sg := sg) as [H1 H2];
        [|done|].
      { rewrite Hti. intros E. apply (Hp peer); [by left|done]. }
      destruct (sub_link_edges _ _ _ _ _ _ _) as [r [w1 sg1]]. cbn [fst snd] in H1, H2 |- *.
      destruct r as [| |p]; [by apply IH|by cbn|]. cbn. intros s3 M3 _. by eapply H2.
  Qed.
  Lemma nodes_twins o order sgn todo : NoDup (n_id <$> order) ->
    (forall i n, sgn !! i = Some n -> n ∈ order /\ n_id n = i) ->
    (forall i n, (i, n) ∈ todo -> n ∈ order /\ n_id n = i) -> forall st sg h s M,
    from_order order (g_nodes sg) -> lruns (twin order) h (sub_nodes_prog o st sgn sg todo) s M.
  Proof.
    intros Hn Hs. induction todo as [|[id from] todo IH]; intros Ht st sg h s M Ho; cbn [sub_nodes_prog]; [by cbn|].
    apply lruns_load. intros s1 M1 L1. pose proof (lat_fine _ _ _ _ _ _ L1) as Hf1.
    pose proof (lat_inv _ _ _ _ _ _ L1) as (_&Hb&_). destruct (Ht id from) as [Hfo Hfi]; [by left|].
    destruct (b_from_nodes_ok o ((st ++ [length todo]) ++ [0]) (g_b s1.2) id Hb) as (peers&->&_&Hpe).
    apply lruns_bind; [done|]. eapply lruns_mono; [|eapply (peers_twins o order sgn from peers)]; [|done..| |done].
    - intros h1 r s2 M2 L2 Hr. destruct r as [sg1| |]; [|by cbn..].
      apply IH; [|done]. intros i n Hin. apply Ht. by right.
    - intros p Hp. apply Hpe in Hp as [_ [e He]]. rewrite Hfi. destruct (bw_edge _ Hb _ _ _ He) as (Hne&_). congruence.
  Qed.
  Definition twinpost (u : UID) (r : option (res wg)) (M : list gstate) : Prop :=
    match r with Some (Panic _) =>
      exists s0 s1 r order, s0 ∈ M /\ s1 ∈ M /\ g_nodes s0.2 !! uid_string u = Some r /\ twins order /\
        forall n, n ∈ order -> n = r \/ b_nodes (g_b s1.2) !! n_id n = Some n
    | _ => True end.
  Lemma twinpost_later u r s M s1 M1 : later s M s1 M1 -> twinpost u r M -> twinpost u r M1.
  Proof.
    intros (_&Hi&_). destruct r as [[| |p]|]; cbn; auto. intros (s0&s2&r&order&H0&H2&H). exists s0, s2, r, order. auto.
  Qed.
  Lemma subgraph_twins o st u d opts s M :
    lruns (fun _ r _ M => twinpost u r M) (HR 0) (subgraph_prog o st u d opts) s M.
  Proof.
    unfold subgraph_prog. cbn [PanicP.lruns]. intros s1 M1 _. apply lruns_load. intros s2 M2 L2.
    destruct (g_nodes s2.2 !! uid_string u) as [root|] eqn:Er; [|by cbn].
    pose proof (lat_fine _ _ _ _ _ _ L2) as [Hs2 _].
    cbn [PanicP.lruns]. intros s3 M3 L3. apply lruns_alloc; [intros; apply wframe_new|]. intros w s4 M4 L4.
    cbn [PanicP.lruns]. intros s5 M5 L5. apply lruns_load. intros s6 M6 L6. cbn [PanicP.lruns]. intros s7 M7 L7.
    pose proof (lat_inv _ _ _ _ _ _ L6) as (_&Hb6&_). pose proof (lat_fine _ _ _ _ _ _ L6) as [Hs6 _].
    destruct (bfs_walk o (st ++ [0]) (g_b s6.2) root d) as [[order| |p]|] eqn:Ew; [|by cbn| |by cbn].
    2:{ by apply walk_no_panic in Ew. }
    assert (Ho : Forall (fun n => n = root \/ b_nodes (g_b s6.2) !! n_id n = Some n) order).
    { eapply walk_nodes; [exact Hb6| |by left|exact Ew]. intros i n Hn. right. by rewrite (bw_id _ Hb6 _ _ Hn). }
    pose proof (walk_walked _ _ _ _ _ _ Ew) as Hn.
    assert (Hm : named order (fold_left sub_visit order ((new_wdg w opts).1, ∅, None))).
    { apply visit_named; [done|]. destruct (new_fields true w opts) as [_ Hg]. cbn zeta in Hg. split; cbn.
      - rewrite Hg. intros k n. by rewrite lookup_empty.
      - intros i n. by rewrite lookup_empty. }
    destruct (fold_left _ _ _) as [[sg1 sgn] [e|]]; [by cbn|]. destruct Hm as [Hm1 Hm2]. cbn [fst snd] in Hm1, Hm2.
    unfold pmap. apply lruns_bind; [by eapply lat_fine|].
    eapply lruns_mono; [|eapply (nodes_twins o order sgn); [done|done| |done]].
    2:{ intros i n Hin. apply elem_of_map_range in Hin. auto. }
    intros h r s8 M8 L8 Hr. cbn [PanicP.lruns]. intros s9 M9 L9. destruct r as [| |p]; [by cbn..|]. cbn in Hr |- *.
    assert (L69 : forall x, x ∈ M6 -> x ∈ M9).
    { intros x Hx. destruct L9 as [(_&L9&_) _]. destruct L8 as (_&L8&_). destruct L7 as [(_&L7&_) _]. by apply L9, L8, L7. }
    exists s2, s6, root, order. split; [|split; [by apply L69|split; [done|split; [done|]]]].
    - destruct L3 as [(_&L3&_) _]. destruct L4 as [(_&L4&_) _]. destruct L5 as [(_&L5&_) _]. destruct L6 as [(_&L6&_) _].
      by apply L69, L6, L5, L4, L3.
    - by apply Forall_forall.
  Qed.
  Definition subpanpost (q : gcall) (r : gqret) (_ : gstate) (M : list gstate) : Prop :=
    match q.2 with QSubGraph u d opts => exists x, r = QRGraph x /\ twinpost u x M | _ => True end.
  Lemma subpanpost_later q r s M s1 M1 : subpanpost q r s M -> later s M s1 M1 -> subpanpost q r s1 M1.
  Proof.
    unfold subpanpost. intros H L. destruct (q.2); try done. destruct H as (x&->&H). exists x. split; [done|]. by eapply twinpost_later.
  Qed.
  Lemma subpan_lruns o q s M : fine s M -> lruns (fun _ => subpanpost q) (HR 0) (graph_prog o q) s M.
  Proof.
    intros Hf. assert (H : (exists u d opts, q.2 = QSubGraph u d opts) \/ ~ exists u d opts, q.2 = QSubGraph u d opts).
    { destruct (q.2); try (right; naive_solver). left. eauto. }
    destruct H as [H|H].
    2:{ eapply lruns_mono; [|by apply (panics_lruns dir)]. intros h r s1 M1 _ Hp. unfold subpanpost.
        destruct (q.2); try done. destruct H. eauto. }
    destruct H as (u&d&opts&E). destruct q as [st q]. cbn in E. subst q. unfold graph_prog. cbn [fst snd].
    unfold pmap. apply lruns_bind; [done|]. eapply lruns_mono; [|apply subgraph_twins].
    intros h r s1 M1 _ Hr. cbn [PanicP.lruns]. intros s2 M2 [L2 _]. exists r. split; [done|]. by eapply twinpost_later.
  Qed.
  Definition noerr (gn : gmap string node) (_ : hold) (r : res wg) (_ : gstate) (_ : list gstate) : Prop :=
    match r with Ok sg => g_nodes sg = gn | Err _ => False | Panic _ => True end.
  Lemma peers_noerr o gn sgn from peers : (forall i n, sgn !! i = Some n -> is_Some (gn !! n_key n)) ->
    is_Some (gn !! n_key from) -> forall st sg h s M,
    g_nodes sg = gn -> lruns (noerr gn) h (sub_peers_prog o st sgn sg from peers) s M.
  Proof.
    intros Hs Hf. induction peers as [|peer peers IH]; intros st sg h s M Ho; cbn [sub_peers_prog]; [by cbn|].
    destruct (sgn !! n_id peer) as [t|] eqn:Et; [|by apply IH]. apply lruns_load. intros s1 M1 L1.
    set (es := b_weighted_edges o ((st ++ [length peers]) ++ [0]) (g_b s1.2)). apply lruns_alloc.
    - intros w. pose proof (wframe_sub_edges o from t es ((st ++ [length peers]) ++ [1]) w sg) as F.
      by destruct (sub_link_edges _ _ _ _ _ _ _) as [r [w1 sg1]].
    - intros w s2 M2 L2. destruct (edges_errs o from t es ((st ++ [length peers]) ++ [1]) w sg) as [H1 H2];
        [by rewrite Ho|rewrite Ho; eauto|].
      destruct (sub_link_edges _ _ _ _ _ _ _) as [r [w1 sg1]]. cbn [fst snd] in H1, H2 |- *.
      destruct r as [|x|p]; [apply IH; congruence|by destruct (H2 x)|by cbn].
  Qed.
  Lemma nodes_noerr o gn sgn todo : (forall i n, sgn !! i = Some n -> is_Some (gn !! n_key n)) ->
    (forall i n, (i, n) ∈ todo -> is_Some (gn !! n_key n)) -> forall st sg h s M,
    g_nodes sg = gn -> lruns (noerr gn) h (sub_nodes_prog o st sgn sg todo) s M.
  Proof.
    intros Hs. induction todo as [|[id from] todo IH]; intros Ht st sg h s M Ho; cbn [sub_nodes_prog]; [by cbn|].
    apply lruns_load. intros s1 M1 L1. pose proof (lat_fine _ _ _ _ _ _ L1) as Hf1.
    pose proof (lat_inv _ _ _ _ _ _ L1) as (_&Hb&_).
    destruct (b_from_nodes_ok o ((st ++ [length todo]) ++ [0]) (g_b s1.2) id Hb) as (peers&->&_).
    apply lruns_bind; [done|]. eapply lruns_mono; [|eapply (peers_noerr o gn sgn from peers)]; [|done| |done].
    - intros h1 r s2 M2 L2 Hr. destruct r as [sg1| |]; [|done|by cbn].
      apply IH; [|done]. intros i n Hin. eapply Ht. right. exact Hin.
    - eapply Ht. by left.
  Qed.
  Definition errpost (u : UID) (r : option (res wg)) (M : list gstate) : Prop :=
    match r with
    | Some (Err e) => e = GraphErrNodeNotFound /\ exists s0, s0 ∈ M /\ g_nodes s0.2 !! uid_string u = None
    | Some _ => True
    | None => False
    end.
  Lemma errpost_later u r s M s1 M1 : later s M s1 M1 -> errpost u r M -> errpost u r M1.
  Proof. intros (_&Hi&_). destruct r as [[| |p]|]; cbn; auto. intros (->&s0&H0&H). split; [done|]. exists s0. auto. Qed.
  Lemma subgraph_noerr o st u d opts s M :
    lruns (fun _ r _ M => errpost u r M) (HR 0) (subgraph_prog o st u d opts) s M.
  Proof.
    unfold subgraph_prog. cbn [PanicP.lruns]. intros s1 M1 _. apply lruns_load. intros s2 M2 L2.
    pose proof (lat_fine _ _ _ _ _ _ L2) as [Hs2 _].
    destruct (g_nodes s2.2 !! uid_string u) as [root|] eqn:Er.
    2:{ cbn. intros s3 M3 L3 s4 M4 L4. split; [done|]. exists s2. split; [|done].
        destruct L3 as [(_&L3&_) _]. destruct L4 as [(_&L4&_) _]. auto. }
    cbn [PanicP.lruns]. intros s3 M3 L3. apply lruns_alloc; [intros; apply wframe_new|]. intros w s4 M4 L4.
    cbn [PanicP.lruns]. intros s5 M5 L5. apply lruns_load. intros s6 M6 L6. cbn [PanicP.lruns]. intros s7 M7 L7.
    pose proof (lat_inv _ _ _ _ _ _ L6) as (_&Hb6&_).
    destruct (walk_ends o (st ++ [0]) (g_b s6.2) root d Hb6) as [order Ew]. rewrite Ew.
    pose proof (walk_walked _ _ _ _ _ _ Ew) as Hn.
    assert (Hm : keyed ([] ++ (n_id <$> order)) (fold_left sub_visit order ((new_wdg w opts).1, ∅, None))).
    { apply visit_keyed; [done|]. destruct (new_fields true w opts) as [[x Hg] _]. cbn zeta in Hg. split; cbn.
      - rewrite Hg. cbn. intros i [y Hy]. by rewrite lookup_empty in Hy.
      - split; [|done]. intros i n. by rewrite lookup_empty. }
    destruct (fold_left _ _ _) as [[sg1 sgn] err]. destruct Hm as (_&Hm&He). cbn [fst snd] in Hm, He. subst err.
    unfold pmap. apply lruns_bind; [by eapply lat_fine|].
    eapply lruns_mono; [|eapply (nodes_noerr o (g_nodes sg1) sgn); [done| |done]].
    2:{ intros i n Hin. apply elem_of_map_range in Hin. eauto. }
    intros h r s8 M8 L8 Hr. cbn [PanicP.lruns]. intros s9 M9 L9. by destruct r as [| |p].
  Qed.
  Definition suberrpost (q : gcall) (r : gqret) (_ : gstate) (M : list gstate) : Prop :=
    match q.2 with QSubGraph u d opts => exists x, r = QRGraph x /\ errpost u x M | _ => True end.
  Lemma suberrpost_later q r s M s1 M1 : suberrpost q r s M -> later s M s1 M1 -> suberrpost q r s1 M1.
  Proof.
    unfold suberrpost. intros H L. destruct (q.2); try done. destruct H as (x&->&H). exists x. split; [done|]. by eapply errpost_later.
  Qed.
  Lemma suberr_lruns o q s M : fine s M -> lruns (fun _ => suberrpost q) (HR 0) (graph_prog o q) s M.
  Proof.
    intros Hf. assert (H : (exists u d opts, q.2 = QSubGraph u d opts) \/ ~ exists u d opts, q.2 = QSubGraph u d opts).
    { destruct (q.2); try (right; naive_solver). left. eauto. }
    destruct H as [H|H].
    2:{ eapply lruns_mono; [|by apply (panics_lruns dir)]. intros h r s1 M1 _ Hp. unfold suberrpost.
        destruct (q.2); try done. destruct H. eauto. }
    destruct H as (u&d&opts&E). destruct q as [st q]. cbn in E. subst q. unfold graph_prog. cbn [fst snd].
    unfold pmap. apply lruns_bind; [done|]. eapply lruns_mono; [|apply subgraph_noerr].
    intros h r s1 M1 _ Hr. cbn [PanicP.lruns]. intros s2 M2 [L2 _]. exists r. split; [done|]. by eapply errpost_later.
  Qed.
  Definition anypost (o : iter_order) (q : gcall) (r : gqret) (s : gstate) (M : list gstate) : Prop :=
    panpost o q r s M /\
    match q.2 with QSubGraph u d opts => exists x, r = QRGraph x /\ partpost u x M | _ => True end.
  Lemma anypost_later o q r s M s1 M1 : anypost o q r s M -> later s M s1 M1 -> anypost o q r s1 M1.
  Proof.
    intros [H1 H2] L. split; [by eapply panpost_later|]. destruct (q.2); try done.
    destruct H2 as (x&->&H2). exists x. split; [done|]. by eapply partpost_later.
  Qed.
  Lemma any_lruns o q s M : fine s M -> lruns (fun _ => anypost o q) (HR 0) (graph_prog o q) s M.
  Proof.
    intros Hf. assert (H : (exists u d opts, q.2 = QSubGraph u d opts) \/ ~ exists u d opts, q.2 = QSubGraph u d opts).
    { destruct (q.2); try (right; naive_solver). left. eauto. }
    destruct H as [H|H].
    2:{ eapply lruns_mono; [|by apply panics_lruns]. intros h r s1 M1 _ Hp. split; [done|].
        destruct (q.2); try done. destruct H. eauto. }
    destruct H as (u&d&opts&E). destruct q as [st q]. cbn in E. subst q. unfold graph_prog. cbn [fst snd].
    unfold pmap. apply lruns_bind; [done|]. eapply lruns_mono; [|apply subgraph_lruns].
    intros h r s1 M1 _ Hr. cbn [PanicP.lruns]. intros s2 M2 [L2 _]. split; [done|]. cbn. exists r. split; [done|].
    by eapply partpost_later.
  Qed.
End any.
