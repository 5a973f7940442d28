(** The Graphviz document of a graph: C100 to C103. *)
From stdpp Require Import sorting.
From Verif.Model Require Import Graph Dot.
From Verif.Spec Require Import GraphSpec DotSpec.
From Verif.Proof Require Import AttrsP GonumP GraphP DotP.
From Verif.Props Require Import PGraph.

(** C100.  For every history of graph calls, DOT succeeds; the document has one
    statement per node and one per edge, by increasing id, with the attributes. *)
Theorem c100_dot_describes_graph :
  forall dir o st w g, reach dir g ->
    exists d ns xs, wg_dot o st w g = Ok d /\ dd_directed d = dir /\
      Forall2 (node_stmt w) ns (dd_nodes d) /\ StronglySorted id_lt ns /\ (forall n, n ∈ ns <-> listed g n) /\
      Forall2 (edge_stmt w) xs (dd_edges d) /\ StronglySorted pair_lt xs /\
      (forall n m e, (n, m, e) ∈ xs <-> listed g n /\ listed g m /\ edge_listed g e /\ written dir e n m).
Proof.
  intros dir o st w g Hr. destruct (dot_ok dir o st w g (reach_base _ _ Hr)) as (d&ns&xs&H1&H2&_&_&H3).
  by exists d, ns, xs.
Qed.
Print Assumptions c100_dot_describes_graph.
(** every listed edge is written, once *)
Theorem c100_every_edge_written :
  forall dir g e, reach dir g -> edge_listed g e ->
    exists n m, listed g n /\ listed g m /\ written dir e n m /\
      forall n' m', listed g n' -> listed g m' -> written dir e n' m' -> n' = n /\ m' = m.
Proof.
  intros dir g e Hr He. destruct (reach_base _ _ Hr) as (Hd&Hb&_). apply edge_listed_iff in He; [|done].
  destruct (bw_edge _ Hb _ _ _ He) as (Hne&[a Ha]&[b Hb']&_).
  pose proof (bw_id _ Hb _ _ Ha) as Ia. pose proof (bw_id _ Hb _ _ Hb') as Ib.
  assert (Hu : forall n m : node, listed g n -> listed g m -> n_id n = n_id m -> n = m).
  { intros n m Hn Hm E. apply listed_iff in Hn, Hm; [|done..]. rewrite E in Hn. congruence. }
  assert (La : listed g a) by (apply listed_iff; [done|congruence]).
  assert (Lb : listed g b) by (apply listed_iff; [done|congruence]).
  unfold written, edge_ids, ends in *. cbn [fst snd] in *. destruct dir.
  - exists a, b. split; [done|]. split; [done|]. split; [congruence|]. intros n m Hn Hm [= E1 E2].
    split; apply Hu; done || congruence.
  - destruct (Z_lt_le_dec (n_id a) (n_id b)) as [Hlt|Hle].
    + exists a, b. split; [done|]. split; [done|]. split; [split; [done|left; congruence]|].
      intros n m Hn Hm [Hl [[= E1 E2]|[= E1 E2]]]; [split; apply Hu; done || congruence|lia].
    + exists b, a. split; [done|]. split; [done|]. split; [split; [lia|right; congruence]|].
      intros n m Hn Hm [Hl [[= E1 E2]|[= E1 E2]]]; [lia|split; apply Hu; done || congruence].
Qed.
Print Assumptions c100_every_edge_written.

(** three nodes added by decreasing id, two edges, one of them given an attribute *)
Definition wd : world := World {[ 5%N := {[ "k" := "v" ]} ]} 6 (fun _ => "u"%string) 0.
Definition gd (dir : bool) : wg :=
  (grun iter_id 0 (wd, gnew dir)
     [put uc 7 0; put ub 4 5; put ua 2 0; GLink ub ua [graph_with_attrs (Some 5%N)]; GLink ub uc []]).2.
Lemma gd_reach dir : reach dir (gd dir).
Proof.
  unfold gd. assert (H : reach dir (wd, gnew dir).2) by (simpl; unfold gnew; constructor).
  revert H. generalize (wd, gnew dir), 0.
  generalize [put uc 7 0; put ub 4 5; put ua 2 0; GLink ub ua [graph_with_attrs (Some 5%N)]; GLink ub uc []].
  intros ops. induction ops as [|op ops IH]; intros [w g] i H; [done|].
  cbn [grun]. apply IH. by apply reach_step.
Qed.
Example c100_example :
  reach true (gd true) /\ reach false (gd false) /\
  wg_dot iter_rev [] wd (gd true) =
    Ok (DotDoc true "" None [("a", []); ("b", [("k", "v")]); ("c", [])]
          [("b", "a", [("k", "v")]); ("b", "c", [])])%string /\
  wg_dot iter_rev [] wd (gd false) =
    Ok (DotDoc false "" None [("a", []); ("b", [("k", "v")]); ("c", [])]
          [("a", "b", [("k", "v")]); ("b", "c", [])])%string.
Proof. split; [apply gd_reach|]. split; [apply gd_reach|]. split; vm_compute; reflexivity. Qed.

(** C101, the full statement is false: the document has the graph's DOT id as its
    name and the configured default attributes. *)
Definition carries (w : world) (g : wg) (d : dot_doc) : Prop :=
  dd_name d = wg_dotid g /\
  match wg_dot_attributers g with
  | (Some x, Some y, Some z) =>
      exists l1 l2 l3, dd_defaults d = Some (l1, l2, l3) /\
        shows_attrs w x l1 /\ shows_attrs w y l2 /\ shows_attrs w z l3
  | _ => True
  end.
(** the document never has a name nor default attributes *)
Theorem c101_never_carried :
  forall dir o st w g d, reach dir g -> wg_dot o st w g = Ok d -> dd_name d = ""%string /\ dd_defaults d = None.
Proof.
  intros dir o st w g d Hr E. destruct (dot_ok dir o st w g (reach_base _ _ Hr)) as (d'&ns&xs&E'&_&H).
  rewrite E in E'. injection E' as <-. tauto.
Qed.
Print Assumptions c101_never_carried.
Definition gopt : wg := (new_wdg wd [graph_with_dotid "G"; graph_with_dot (DotOpts (Some 5%N) (Some 5%N) (Some 5%N))]).1.
Theorem c101_dot_carries_options_refuted :
  ~ (forall dir o st w g d, reach dir g -> wg_dot o st w g = Ok d -> carries w g d).
Proof.
  intros H. destruct (wg_dot iter_id [] wd gopt) as [d| |] eqn:E; [|by vm_compute in E..].
  destruct (H true iter_id [] wd gopt d (reach_new true wd _) E) as [Hn _].
  destruct (c101_never_carried true _ _ _ _ _ (reach_new true wd _) E) as [E1 _].
  rewrite E1 in Hn. by vm_compute in Hn.
Qed.
Print Assumptions c101_dot_carries_options_refuted.
(** the same witness fails on the attributes as well *)
Theorem c101_attributes_refuted :
  exists x y z, wg_dot_attributers gopt = (Some x, Some y, Some z) /\
    forall o st d, wg_dot o st wd gopt = Ok d -> dd_defaults d = None.
Proof.
  exists 5%N, 5%N, 5%N. split; [by vm_compute|]. intros o st d E.
  by destruct (c101_never_carried true _ _ _ _ _ (reach_new true wd _) E).
Qed.
Print Assumptions c101_attributes_refuted.
(** What holds: the methods DOTID and DOTAttributers keep returning what the graph
    was made with, so marshaling the graph itself would carry both. *)
Theorem c101_dot_carries_options_partial :
  forall o st w g op, wg_dotid (gstep o st (w, g) op).2.2 = wg_dotid g /\
    wg_dot_attributers (gstep o st (w, g) op).2.2 = wg_dot_attributers g.
Proof.
  intros o st w g op. destruct op as [e opts|n opts|u|u v opts|u v]; cbn [gstep].
  - destruct (wg_new_node o st w g e opts) as [[n w1]| |]; done.
  - destruct n as [n|n]; [|done]. unfold wg_add_node, addnode_commit.
    destruct (b_nodes (g_b g) !! n_id n); [|destruct (b_add_node (g_b g) n); done].
    destruct (g_nodes g !! n_key n); [|done]. destruct (go_upsert _); done.
  - unfold wg_remove_node. destruct (g_nodes g !! uid_string u); done.
  - unfold wg_link. destruct (link_check g u v) as [[e|[f t]]| |]; [done| |done..].
    unfold link_commit. destruct (new_edge w f t opts) as [e w1]. by destruct (b_set_edge (g_b g) e).
  - unfold wg_unlink. destruct (g_nodes g !! uid_string u); [|done]. destruct (g_nodes g !! uid_string v); done.
Qed.
Print Assumptions c101_dot_carries_options_partial.
Theorem c101_marshal_self_partial :
  forall dir o st w g x y z, reach dir g -> wg_dot_attributers g = (Some x, Some y, Some z) ->
    exists d, dot_marshal o st w (g_b g) (Some (wg_dotid g)) (Some (x, y, z)) "" = Ok d /\ carries w g d.
Proof.
  intros dir o st w g x y z Hr E. destruct (dot_ok dir o st w g (reach_base _ _ Hr)) as (d&ns&xs&Ed&_).
  unfold wg_dot, dot_marshal in *.
  destruct (dot_edge_stmts o (st ++ [3]) w (g_b g) (by_id (b_all_nodes o (st ++ [1]) (g_b g))) ∅) as [l| |]; [|done..].
  cbn [rmap]. eexists. split; [done|]. unfold carries. rewrite E. cbn. split; [done|].
  eexists _, _, _. split; [done|]. split; [|split]; apply dot_list_shows.
Qed.
Print Assumptions c101_marshal_self_partial.
Example c101_example :
  wg_dotid gopt = "G"%string /\ wg_dot_attributers gopt = (Some 5%N, Some 5%N, Some 5%N) /\
  wg_dot iter_id [] wd gopt = Ok (DotDoc true "" None [] []) /\
  dot_marshal iter_id [] wd (g_b gopt) (Some "G"%string) (Some (5%N, 5%N, 5%N)) "" =
    Ok (DotDoc true "G" (Some ([("k", "v")], [("k", "v")], [("k", "v")])) [] [])%string.
Proof. split_and!; vm_compute; reflexivity. Qed.

(** C102, the full statement is false: the attributes of one node come in map
    order, so two calls on one graph can return different documents. *)
Definition wd2 : world := World {[ 5%N := {[ "k" := "v"; "l" := "w" ]} ]} 6 (fun _ => "u"%string) 0.
Theorem c102_dot_deterministic_refuted :
  ~ (forall dir o1 o2 st1 st2 w g, reach dir g -> wg_dot o1 st1 w g = wg_dot o2 st2 w g).
Proof.
  intros H. specialize (H true iter_id iter_rev [] [] wd2 (gd true) (gd_reach true)). by vm_compute in H.
Qed.
Print Assumptions c102_dot_deterministic_refuted.
(** What holds: two documents differ only in the order inside attribute lists. *)
Definition same_node_stmt (s t : string * list (string * string)) : Prop := s.1 = t.1 /\ s.2 ≡ₚ t.2.
Definition same_edge_stmt (s t : string * string * list (string * string)) : Prop := s.1 = t.1 /\ s.2 ≡ₚ t.2.
Theorem c102_dot_deterministic_partial :
  forall dir o1 o2 st1 st2 w g, reach dir g ->
    exists d1 d2, wg_dot o1 st1 w g = Ok d1 /\ wg_dot o2 st2 w g = Ok d2 /\
      dd_directed d1 = dd_directed d2 /\ dd_name d1 = dd_name d2 /\ dd_defaults d1 = dd_defaults d2 /\
      Forall2 same_node_stmt (dd_nodes d1) (dd_nodes d2) /\
      Forall2 same_edge_stmt (dd_edges d1) (dd_edges d2).
Proof.
  intros dir o1 o2 st1 st2 w g Hr. pose proof (reach_base _ _ Hr) as Hg.
  destruct (dot_ok dir o1 st1 w g Hg) as (d1&ns1&xs1&E1&D1&N1&T1&A1&A2&A3&A4&A5&A6).
  destruct (dot_ok dir o2 st2 w g Hg) as (d2&ns2&xs2&E2&D2&N2&T2&B1&B2&B3&B4&B5&B6).
  assert (ns1 = ns2) as <-.
  { apply (sorted_same id_lt); [unfold id_lt; lia|unfold id_lt; lia|done|done|]. intros n. by rewrite A3, B3. }
  assert (xs1 = xs2) as <-.
  { apply (sorted_same pair_lt); [unfold pair_lt; lia|unfold pair_lt; lia|done|done|].
    intros [[n m] e]. by rewrite A6, B6. }
  assert (Hp : forall a l1 l2, shows_attrs w a l1 -> shows_attrs w a l2 -> l1 ≡ₚ l2).
  { intros a l1 l2 [M1 F1] [M2 F2]. apply NoDup_Permutation; [by eapply NoDup_fmap_1|by eapply NoDup_fmap_1|].
    intros [k v]. by rewrite F1, F2. }
  exists d1, d2. split_and!; [done|done|congruence|congruence|congruence| |].
  - clear -A1 B1 Hp. revert B1. generalize (dd_nodes d2). induction A1 as [|n s ns l [S1 S2] _ IH]; intros l2 B.
    + inversion B. constructor.
    + inversion B as [|? t ? l2' [Q1 Q2] HB]; subst. constructor; [|by apply IH]. split; [congruence|by eapply Hp].
  - clear -A4 B4 Hp. revert B4. generalize (dd_edges d2). induction A4 as [|n s ns l [S1 S2] _ IH]; intros l2 B.
    + inversion B. constructor.
    + inversion B as [|? t ? l2' [Q1 Q2] HB]; subst. constructor; [|by apply IH]. split; [congruence|by eapply Hp].
Qed.
Print Assumptions c102_dot_deterministic_partial.
Example c102_example :
  wg_dot iter_rev [] wd2 (gd true) =
    Ok (DotDoc true "" None [("a", []); ("b", [("k", "v"); ("l", "w")]); ("c", [])]
          [("b", "a", [("k", "v"); ("l", "w")]); ("b", "c", [])])%string /\
  wg_dot iter_id [] wd2 (gd true) =
    Ok (DotDoc true "" None [("a", []); ("b", [("l", "w"); ("k", "v")]); ("c", [])]
          [("b", "a", [("l", "w"); ("k", "v")]); ("b", "c", [])])%string.
Proof. split; vm_compute; reflexivity. Qed.

(** C103, the full statement is false: two resources of one group, version and
    kind have the same DOT id by default, so one name stands for two nodes. *)
Definition res_ent (u : UID) : gent :=
  gent_of_resource (new_resource w0 "resource" (uid_string u) "apps" "v1" "Deployment" true [ent_with_uid (Some u)]).1.
Definition gres : wg := (wg_link w0 (put_tidy (put_tidy (gnew true) (res_ent ua)) (res_ent ub)) ua ub []).2.2.
Lemma gres_tidy : tidy true gres.
Proof. apply tidy_link. repeat apply put_tidy_ok. apply tidy_empty. Qed.
Theorem c103_names_tell_nodes_apart_refuted :
  ~ (forall dir o st w g d, tidy dir g -> wg_dot o st w g = Ok d -> NoDup (dd_nodes d).*1).
Proof.
  intros H. destruct (wg_dot iter_id [] w0 gres) as [d| |] eqn:E; [|by vm_compute in E..].
  pose proof (H true iter_id [] w0 gres d gres_tidy E) as Hn.
  assert (Ed : (dd_nodes d).*1 = ["apps/v1/Deployment"; "apps/v1/Deployment"]%string).
  { vm_compute in E. by injection E as <-. }
  rewrite Ed in Hn. apply NoDup_cons in Hn as [Hn _]. apply Hn. left.
Qed.
Print Assumptions c103_names_tell_nodes_apart_refuted.
(** What holds when the DOT id of every node is its UID: names and UIDs match one
    to one, and a statement joins two names exactly when Edge finds an edge. *)
Theorem c103_uid_names_partial :
  forall dir o st w g d, tidy dir g -> (forall n, listed g n -> n_dotid n = uid_string (n_uid n)) ->
    wg_dot o st w g = Ok d ->
    NoDup (dd_nodes d).*1 /\
    (forall u, uid_string u ∈ (dd_nodes d).*1 <-> exists n, wg_node g u = Ok n) /\
    NoDup (dd_edges d).*1 /\
    (forall u v, ((uid_string u, uid_string v) ∈ (dd_edges d).*1 \/
                  dir = false /\ (uid_string v, uid_string u) ∈ (dd_edges d).*1)
                 <-> exists e, wg_edge g u v = Ok e).
Proof.
  intros dir o st w g d Ht Hdot E.
  destruct (tidy_inv _ _ Ht) as (Hg&_&_). pose proof (c03_lookup_enumeration_partial _ _ Ht) as Hag.
  pose proof Hg as (Hd&Hb&_).
  destruct (dot_ok dir o st w g Hg) as (d'&ns&xs&E'&_&_&_&N1&N2&N3&X1&X2&X3). rewrite E in E'. injection E' as <-.
  assert (Hn1 : (dd_nodes d).*1 = n_dotid <$> ns).
  { clear -N1. induction N1 as [|n s ns l [S _] _ IH]; [done|]. rewrite !fmap_cons. congruence. }
  assert (Hx1 : (dd_edges d).*1 = (fun x => (n_dotid x.1.1, n_dotid x.1.2)) <$> xs).
  { clear -X1. induction X1 as [|n s ns l [S _] _ IH]; [done|]. rewrite !fmap_cons. congruence. }
  assert (Hinj : forall n m, listed g n -> listed g m -> n_dotid n = n_dotid m -> n = m).
  { intros n m Ln Lm Hnm. rewrite !Hdot in Hnm by done.
    assert (wg_node g (n_uid n) = Ok n) as En by (apply Hag; done).
    assert (wg_node g (n_uid n) = Ok m) as Em by (apply Hag; done). congruence. }
  split; [|split; [|split]].
  - rewrite Hn1. assert (Hl : forall n, n ∈ ns -> listed g n) by (intros n; apply N3). clear -Hinj N2 Hl.
    induction N2 as [|n ns N2 IH F]; [constructor|]. rewrite fmap_cons. constructor.
    + intros Hin. apply elem_of_list_fmap in Hin as (m&Hm&Hin). rewrite Forall_forall in F. specialize (F _ Hin).
      assert (n = m) as <-. { apply Hinj; [apply Hl; left|apply Hl; by right|done]. }
      unfold id_lt in F. lia.
    + apply IH. intros m Hm. apply Hl. by right.
  - intros u. rewrite Hn1, elem_of_list_fmap. split.
    + intros (n&Hu&Hn). apply N3 in Hn. exists n. apply Hag. split; [done|]. unfold same_text. by rewrite <- Hdot.
    + intros (n&Hn). apply Hag in Hn as [Hn Hu]. exists n. rewrite Hdot by done. split; [done|]. by apply N3.
  - rewrite Hx1. assert (Hl : forall n m e, (n, m, e) ∈ xs -> listed g n /\ listed g m) by (intros n m e H; apply X3 in H; tauto).
    clear -Hinj X2 Hl. induction X2 as [|[[n m] e] xs X2 IH F]; [constructor|]. rewrite fmap_cons. constructor.
    + intros Hin. apply elem_of_list_fmap in Hin as ([[n' m'] e']&[= Q1 Q2]&Hin). rewrite Forall_forall in F. specialize (F _ Hin).
      destruct (Hl n m e) as [L1 L2]; [left|]. destruct (Hl n' m' e') as [L3 L4]; [by right|].
      apply Hinj in Q1, Q2; [|done..]. subst. unfold pair_lt in F. simpl in F. lia.
    + apply IH. intros x y z Hin. apply (Hl x y z). by right.
  - intros u v. rewrite Hx1, wg_edge_cases.
    assert (Hmem : forall x y, (uid_string x, uid_string y) ∈ ((fun x => (n_dotid x.1.1, n_dotid x.1.2)) <$> xs) <->
              exists n m e, wg_node g x = Ok n /\ wg_node g y = Ok m /\ edge_listed g e /\ written dir e n m).
    { intros x y. rewrite elem_of_list_fmap. split.
      - intros ([[n m] e]&[= Q1 Q2]&Hin). apply X3 in Hin as (Ln&Lm&He&Hw). exists n, m, e.
        rewrite Hdot in Q1, Q2 by done. split; [by apply Hag|]. split; [by apply Hag|]. done.
      - intros (n&m&e&Hn&Hm&He&Hw). apply Hag in Hn as [Ln Tn], Hm as [Lm Tm]. exists (n, m, e). simpl.
        rewrite !Hdot by done. split; [by rewrite Tn, Tm|]. by apply X3. }
    rewrite !Hmem. unfold b_weighted_edge. rewrite Hd. split.
    + assert (Hadj : forall n m e, edge_listed g e -> written dir e n m ->
                adj_get (b_from (g_b g)) (n_id n) (n_id m) = Some e /\
                (dir = false -> adj_get (b_from (g_b g)) (n_id m) (n_id n) = Some e)).
      { intros n m e He Hw. apply edge_listed_iff in He; [|done]. unfold written in Hw.
        change (edge_ids e) with (ends e) in Hw. destruct dir; [by rewrite Hw in He|].
        destruct Hw as [_ [Hw|Hw]]; rewrite Hw in He; simpl in He; split; try done; intros; by rewrite (bw_sym _ Hb Hd). }
      intros [(n&m&e&Hn&Hm&He&Hw)|(->&n&m&e&Hn&Hm&He&Hw)]; destruct (Hadj _ _ _ He Hw) as [A1 A2]; rewrite Hn, Hm.
      * rewrite A1. destruct dir; [eauto|]. case_bool_decide; eauto.
      * rewrite A2 by done. case_bool_decide; eauto.
    + intros [e He]. destruct (wg_node g u) as [n| |] eqn:Hn; [|done..]. destruct (wg_node g v) as [m| |] eqn:Hm; [|done..].
      destruct (adj_get (b_from (g_b g)) (n_id n) (n_id m)) as [e0|] eqn:Ha; [|done].
      assert (He0 : edge_listed g e0).
      { apply edge_listed_iff; [done|]. destruct (bw_edge _ Hb _ _ _ Ha) as (_&_&_&[Q|[Q0 Q]]); rewrite Q; [done|].
        cbn. by rewrite (bw_sym _ Hb Q0). }
      destruct (bw_edge _ Hb _ _ _ Ha) as (Hne&_&_&Hq). destruct dir.
      * left. exists n, m, e0. split; [done|]. split; [done|]. split; [done|]. unfold written.
        destruct Hq as [Q|[Q0 _]]; [done|congruence].
      * destruct (Z_lt_le_dec (n_id n) (n_id m)) as [Hlt|Hle]; [left|right; split; [done|]].
        -- exists n, m, e0. unfold written. split_and!; [done..|]. destruct Hq as [Q|[_ Q]]; [by left|by right].
        -- exists m, n, e0. unfold written. split_and!; [done|done|done|lia|]. destruct Hq as [Q|[_ Q]]; [by right|by left].
Qed.
Print Assumptions c103_uid_names_partial.
Example c103_example :
  tidy false (ex3 false) /\ (forall n, listed (ex3 false) n -> n_dotid n = uid_string (n_uid n)) /\
  wg_dot iter_id [] w0 (ex3 false) = Ok (DotDoc false "" None [("a", []); ("b", []); ("c", [])] [("a", "b", [])])%string /\
  wg_dot iter_id [] w0 gres =
    Ok (DotDoc true "" None [("apps/v1/Deployment", []); ("apps/v1/Deployment", [])]
          [("apps/v1/Deployment", "apps/v1/Deployment", [])])%string.
Proof.
  split; [apply ex3_tidy|]. split; [|split; vm_compute; reflexivity].
  intros n Hn. destruct (Hn iter_id []) as (ns&E&Hin). vm_compute in E. injection E as <-.
  repeat (apply elem_of_cons in Hin as [->|Hin]; [vm_compute; reflexivity|]). by apply elem_of_nil in Hin.
Qed.
