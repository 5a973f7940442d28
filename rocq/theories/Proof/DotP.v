(** The statements of the Graphviz document. *)
From stdpp Require Import sorting.
From Verif.Model Require Import Graph Dot.
From Verif.Spec Require Import GraphSpec DotSpec.
From Verif.Proof Require Import AttrsP GonumP GraphP.

Lemma attributes_shown o st w a :
  exists l, attrs_attributes o st w a = Some l /\ shows_attrs w a l.
Proof.
  unfold shows_attrs.
  unfold attrs_attributes, dot_attrs, mem_iface, attrs_keys; simpl.
  pose proof (dot_loop_spec (attrs_get w a) (map_range o st (attrs_map w a)).*1) as H.
  destruct (dot_loop _ _) as [l|].
  - destruct H as [H1 H2]. exists l. split; [done|]. rewrite H1.
    split; [apply map_range_keys_nodup|]. intros k v. split.
    + intros Hin. pose proof (H2 k v Hin) as Hg. injection Hg as <-.
      assert (Hk : k ∈ (map_range o st (attrs_map w a)).*1).
      { rewrite <- H1. apply elem_of_list_fmap. by exists (k, default ""%string (attrs_map w a !! k)). }
      apply attrs_keys_in in Hk. by destruct (attrs_map w a !! k).
    + intros Hv. assert (Hk : k ∈ l.*1).
      { rewrite H1. apply attrs_keys_in. by rewrite Hv. }
      apply elem_of_list_fmap in Hk as ([k' v']&->&Hin). simpl in *.
      pose proof (H2 _ _ Hin) as Hg. injection Hg as <-. by rewrite Hv in Hin.
  - destruct H as (k&_&Hn). by destruct (Hn _ eq_refl).
Qed.
Lemma dot_list_shows o st w a : shows_attrs w a (dot_list o st w a).
Proof. unfold dot_list. by destruct (attributes_shown o st w a) as (l&->&H). Qed.

(** ** sorting *)
Global Instance id_le_trans : Transitive id_le.
Proof. intros x y z. unfold id_le. lia. Qed.
Global Instance id_le_total : Total id_le.
Proof. intros x y. unfold id_le. lia. Qed.
Lemma strict_sorted (ns : list node) :
  StronglySorted id_le ns -> NoDup (n_id <$> ns) -> StronglySorted id_lt ns.
Proof.
  induction 1 as [|n ns H IH HF]; intros Hn; [constructor|].
  rewrite fmap_cons in Hn. apply NoDup_cons in Hn as [H1 H2]. constructor; [by apply IH|].
  rewrite Forall_forall in HF |- *. intros m Hm. specialize (HF _ Hm).
  assert (n_id n <> n_id m). { intros E. apply H1. rewrite E. by apply elem_of_list_fmap_1. }
  unfold id_le in HF. unfold id_lt. lia.
Qed.
Lemma by_id_in n ns : n ∈ by_id ns <-> n ∈ ns.
Proof. unfold by_id. by rewrite merge_sort_Permutation. Qed.
Lemma by_id_sorted ns : NoDup (n_id <$> ns) -> StronglySorted id_lt (by_id ns).
Proof.
  intros H. apply strict_sorted; [apply StronglySorted_merge_sort; apply _|].
  unfold by_id. by rewrite merge_sort_Permutation.
Qed.
(** two strictly sorted lists with the same members are equal *)
Lemma sorted_same {A} (R : A -> A -> Prop) l1 l2 :
  (forall x, ~ R x x) -> (forall x y z, R x y -> R y z -> R x z) ->
  StronglySorted R l1 -> StronglySorted R l2 -> (forall x, x ∈ l1 <-> x ∈ l2) -> l1 = l2.
Proof.
  intros Hi Ht H1. revert l2. induction H1 as [|a l1 H1 IH F1]; intros l2 H2 Hin.
  { destruct l2 as [|b l2]; [done|]. exfalso. apply (not_elem_of_nil b), Hin. left. }
  destruct H2 as [|b l2 H2 F2].
  { exfalso. apply (not_elem_of_nil a), Hin. left. }
  rewrite Forall_forall in F1, F2.
  assert (a = b) as <-.
  { assert (Ha : a ∈ b :: l2) by (apply Hin; left). assert (Hb : b ∈ a :: l1) by (apply Hin; left).
    apply elem_of_cons in Ha as [Ha|Ha]; [done|]. apply elem_of_cons in Hb as [Hb|Hb]; [done|].
    destruct (Hi a). apply (Ht _ b); [by apply F1|by apply F2]. }
  f_equal. apply IH; [done|]. intros x. specialize (Hin x). rewrite !elem_of_cons in Hin. split; intros Hx.
  - destruct Hin as [[->|?] _]; [by right| |done]. destruct (Hi a). by apply F1.
  - destruct Hin as [_ [->|?]]; [by right| |done]. destruct (Hi a). by apply F2.
Qed.
Lemma sorted_app {A} (R : A -> A -> Prop) l1 l2 :
  StronglySorted R l1 -> StronglySorted R l2 -> (forall x y, x ∈ l1 -> y ∈ l2 -> R x y) ->
  StronglySorted R (l1 ++ l2).
Proof.
  intros H1 H2 H. induction H1 as [|a l1 H1 IH F]; [done|]. simpl. constructor.
  - apply IH. intros x y Hx. apply H. by right.
  - apply Forall_app. split; [done|]. apply Forall_forall. intros y Hy. apply H; [left|done].
Qed.

(** ** node statements *)
Lemma dot_node_stmts_ok o st w ns : Forall2 (node_stmt w) ns (dot_node_stmts o st w ns).
Proof.
  induction ns as [|n ns IH]; simpl; constructor; [|done]. split; [done|]. apply dot_list_shows.
Qed.

(** ** edge statements *)
Definition stored (b : builder) (n m : node) (e : edge) : Prop := adj_get (b_from b) (n_id n) (n_id m) = Some e.
(** the successor t of n is passed over *)
Definition skipped (b : builder) (seen : gset (Z * Z)) (n t : node) : Prop :=
  (n_id n, n_id t) ∈ seen \/ b_dir b = false /\ (n_id t, n_id n) ∈ seen.

Lemma dot_row_ok o st w b n ts seen :
  StronglySorted id_lt ts -> (forall t, t ∈ ts -> n_id t <> n_id n /\ exists e, stored b n t e) ->
  exists xs, Forall2 (edge_stmt w) xs (dot_row o st w b n ts seen).1 /\ StronglySorted pair_lt xs /\
    (forall x t e, (x, t, e) ∈ xs <-> x = n /\ t ∈ ts /\ ~ skipped b seen n t /\ stored b n t e) /\
    (forall p, p ∈ (dot_row o st w b n ts seen).2 <->
       p ∈ seen \/ exists t, t ∈ ts /\ ~ skipped b seen n t /\
                     (p = (n_id n, n_id t) \/ b_dir b = false /\ p = (n_id t, n_id n))).
Proof.
  intros Hs. revert seen. induction Hs as [|t ts Hs IH F]; intros seen Hts; simpl.
  - exists []. split; [constructor|]. split; [constructor|]. split.
    + intros x t e. split; [by intros ?%not_elem_of_nil|]. by intros (_&?%not_elem_of_nil&_).
    + intros p. split; [by left|]. intros [H|(t&?%not_elem_of_nil&_)]; done.
  - assert (Hts' : forall t', t' ∈ ts -> n_id t' <> n_id n /\ exists e, stored b n t' e)
      by (intros t' Ht'; apply Hts; by right).
    destruct (Hts t) as [Hne [e He]]; [by left|]. rewrite Forall_forall in F.
    destruct (decide (skipped b seen n t)) as [Hk|Hk].
    + replace (bool_decide _ || _) with true; cycle 1.
      { symmetry. apply orb_true_iff. unfold skipped in Hk. rewrite andb_true_iff, !bool_decide_eq_true, negb_true_iff. tauto. }
      destruct (IH seen Hts') as (xs&H1&H2&H3&H4). exists xs. split; [done|]. split; [done|]. split.
      * intros x t' e'. rewrite H3, elem_of_cons. naive_solver.
      * intros p. rewrite H4. setoid_rewrite elem_of_cons. naive_solver.
    + replace (bool_decide _ || _) with false; cycle 1.
      { symmetry. apply orb_false_iff. unfold skipped in Hk. rewrite andb_false_iff, !bool_decide_eq_false, negb_false_iff.
        destruct (b_dir b); split; try tauto; intros ?; apply Hk; auto. }
      set (seen1 := if b_dir b then {[(n_id n, n_id t)]} ∪ seen else {[(n_id n, n_id t)]} ∪ ({[(n_id t, n_id n)]} ∪ seen)).
      assert (Hseen1 : forall p, p ∈ seen1 <-> p ∈ seen \/ p = (n_id n, n_id t) \/ b_dir b = false /\ p = (n_id t, n_id n)).
      { intros p. unfold seen1. destruct (b_dir b); rewrite !elem_of_union, !elem_of_singleton; naive_solver. }
      assert (Hskip : forall t', t' ∈ ts -> skipped b seen1 n t' <-> skipped b seen n t').
      { intros t' Ht'. pose proof (F _ Ht') as Hlt. unfold id_lt in Hlt. destruct (Hts' _ Ht') as [Hne' _].
        unfold skipped. rewrite !Hseen1. split.
        - intros [[H|[[=]|[_ [=]]]]|[Hd [H|[[=]|[_ [=]]]]]]; try lia; auto.
        - intros [H|[Hd H]]; auto. }
      destruct (IH seen1 Hts') as (xs&H1&H2&H3&H4).
      destruct (dot_row o st w b n ts seen1) as [l s] eqn:El. simpl in *.
      exists ((n, t, e) :: xs). split; [|split; [|split]].
      * constructor; [|done]. unfold edge_stmt. simpl. split; [done|].
        unfold b_weighted_edge. unfold stored in He. rewrite He.
        destruct (b_dir b); [apply dot_list_shows|]. case_bool_decide; apply dot_list_shows.
      * constructor; [done|]. apply Forall_forall. intros [[x t'] e'] Hin. apply H3 in Hin as (->&Ht'&_&_).
        right. simpl. split; [done|]. by apply F.
      * intros x t' e'. rewrite elem_of_cons, H3. split.
        -- intros [[= -> -> ->]|(->&Ht'&Hsk&Hst)].
           { split; [done|]. split; [by left|]. done. }
           split; [done|]. split; [by right|]. split; [|done]. by rewrite <- Hskip.
        -- intros (->&[->|Ht']%elem_of_cons&Hsk&Hst).
           { left. unfold stored in *. congruence. }
           right. split; [done|]. split; [done|]. split; [|done]. by rewrite Hskip.
      * intros p. rewrite H4, Hseen1. split.
        -- intros [[H|H]|(t'&Ht'&Hsk&H)]; [by left|right; exists t; split; [by left|done]|].
           right. exists t'. split; [by right|]. split; [|done]. by rewrite <- Hskip.
        -- intros [H|(t'&[->|Ht']%elem_of_cons&Hsk&H)]; [by left; left|by left; right|].
           right. exists t'. split; [done|]. split; [|done]. by rewrite Hskip.
Qed.

(** [p.visited] when the nodes with an id of [dn] are done *)
Definition seen_ok (b : builder) (dn : Z -> Prop) (seen : gset (Z * Z)) : Prop :=
  (forall x y, (x, y) ∈ seen -> dn x \/ b_dir b = false /\ dn y) /\
  (b_dir b = false -> forall x y, dn x -> is_Some (adj_get (b_from b) x y) ->
     (x, y) ∈ seen \/ (y, x) ∈ seen).

Lemma dot_edge_stmts_ok o st w b (Hb : bwf b) ns dn seen :
  StronglySorted id_lt ns -> (forall n, n ∈ ns -> b_nodes b !! n_id n = Some n) ->
  (forall i, is_Some (b_nodes b !! i) -> dn i \/ exists n, n ∈ ns /\ n_id n = i) ->
  (forall i n, dn i -> n ∈ ns -> (i < n_id n)%Z) ->
  seen_ok b dn seen ->
  exists l xs, dot_edge_stmts o st w b ns seen = Ok l /\ Forall2 (edge_stmt w) xs l /\ StronglySorted pair_lt xs /\
    (forall n t e, (n, t, e) ∈ xs <->
       n ∈ ns /\ b_nodes b !! n_id t = Some t /\ stored b n t e /\ (b_dir b = true \/ (n_id n < n_id t)%Z)).
Proof.
  intros Hs. revert dn seen. induction Hs as [|n ns Hs IH F]; intros dn seen Hns Hall Hdn Hseen; simpl.
  - exists [], []. split; [done|]. split; [constructor|]. split; [constructor|]. intros n t e.
    split; [by intros ?%not_elem_of_nil|]. by intros (?%not_elem_of_nil&_).
  - rewrite Forall_forall in F.
    destruct (b_from_nodes_ok o (st ++ [length ns; 0]) b (n_id n) Hb) as (to&Hto&Hnd&Hin). rewrite Hto. cbn [rbind].
    assert (Hts : forall t, t ∈ by_id to -> n_id t <> n_id n /\ exists e, stored b n t e).
    { intros t Ht. apply by_id_in, Hin in Ht as [_ [e He]]. split; [|by exists e].
      apply (bw_edge _ Hb) in He as [? _]. done. }
    destruct (dot_row_ok o (st ++ [length ns; 1]) w b n (by_id to) seen (by_id_sorted _ Hnd) Hts) as (xs&H1&H2&H3&H4).
    destruct (dot_row o (st ++ [length ns; 1]) w b n (by_id to) seen) as [l s]. simpl in *.
    assert (Hskip : forall t e, stored b n t e -> b_nodes b !! n_id t = Some t ->
                      ~ skipped b seen n t <-> b_dir b = true \/ (n_id n < n_id t)%Z).
    { intros t e He Ht. destruct Hseen as [S1 S2].
      assert (Hn0 : ~ dn (n_id n)). { intros Hd. apply (Hdn _ n) in Hd; [lia|by left]. }
      pose proof (bw_edge _ Hb _ _ _ He) as (Hne&_). unfold skipped. destruct (b_dir b) eqn:Ed.
      - split; [by left|]. intros _ [H|[? _]]; [|done]. apply S1 in H as [?|[? _]]; done.
      - split.
        + intros Hsk. right. destruct (Hall (n_id t)) as [Hd|(m&[->|Hm]%elem_of_cons&E)]; [by exists t| | |].
          * destruct Hsk. destruct (S2 eq_refl (n_id t) (n_id n)); auto. exists e. by rewrite (bw_sym _ Hb Ed).
          * by rewrite E in Hne.
          * rewrite <- E. by apply F.
        + intros [?|Hlt] Hsk; [done|].
          assert (Hdt : ~ dn (n_id t)). { intros Hd. apply (Hdn _ n) in Hd; [lia|by left]. }
          destruct Hsk as [H|[_ H]]; apply S1 in H as [?|[_ ?]]; done. }
    set (dn' := fun i => dn i \/ i = n_id n).
    assert (Hseen' : seen_ok b dn' s).
    { destruct Hseen as [S1 S2]. split.
      - intros x y H. apply H4 in H as [H|(t&_&_&[[= -> ->]|[Hd [= -> ->]]])]; unfold dn'.
        + apply S1 in H. tauto.
        + auto.
        + auto.
      - intros Hd x y [Hx| ->] [e He].
        + rewrite !H4. destruct (S2 Hd x y Hx); eauto.
        + rewrite !H4. pose proof (bw_edge _ Hb _ _ _ He) as (_&_&[t Ht]&_). pose proof (bw_id _ Hb _ _ Ht) as Hi. subst y.
          destruct (decide (skipped b seen n t)) as [Hk|Hk].
          * destruct Hk as [Hk|[_ Hk]]; auto.
          * left. right. exists t. split; [|auto]. apply by_id_in, Hin. split; [done|by exists e]. }
    destruct (IH dn' s) as (l'&xs'&E'&G1&G2&G3); [| | |done|].
    { intros m Hm. apply Hns. by right. }
    { intros i Hi. destruct (Hall i Hi) as [?|(m&[->|Hm]%elem_of_cons&<-)]; unfold dn'; eauto. }
    { intros i m [Hi| ->] Hm; [|by apply F]. apply (Hdn i m); [done|by right]. }
    rewrite E'. cbn [rmap]. exists (l ++ l'), (xs ++ xs'). split; [done|]. split; [by apply Forall2_app|]. split.
    + apply sorted_app; [done|done|]. intros [[x1 t1] e1] [[x2 t2] e2] [-> _]%H3 [Hx2 _]%G3. left. simpl. by apply F.
    + intros x t e. rewrite elem_of_app, H3, G3, elem_of_cons. split.
      * intros [(->&Ht&Hk&He)|(Hx&Ht&He&Hd)]; [|by auto].
        apply by_id_in, Hin in Ht as [Ht _]. split; [by left|]. split; [done|]. split; [done|]. by apply (Hskip t e).
      * intros ([->|Hx]&Ht&He&Hd); [left|by right]. split; [done|]. split.
        { apply by_id_in, Hin. split; [done|]. by exists e. }
        split; [|done]. by apply (Hskip t e).
Qed.

Lemma dot_ok dir o st w g :
  gbase dir g ->
  exists d ns xs, wg_dot o st w g = Ok d /\ dd_directed d = dir /\ dd_name d = ""%string /\ dd_defaults d = None /\
    Forall2 (node_stmt w) ns (dd_nodes d) /\ StronglySorted id_lt ns /\ (forall n, n ∈ ns <-> listed g n) /\
    Forall2 (edge_stmt w) xs (dd_edges d) /\ StronglySorted pair_lt xs /\
    (forall n m e, (n, m, e) ∈ xs <-> listed g n /\ listed g m /\ edge_listed g e /\ written dir e n m).
Proof.
  intros (Hd&Hb&_). unfold wg_dot, dot_marshal.
  set (ns := by_id (b_all_nodes o (st ++ [1]) (g_b g))).
  assert (Hin : forall n, n ∈ ns <-> b_nodes (g_b g) !! n_id n = Some n).
  { intros n. unfold ns. rewrite by_id_in. by apply b_all_nodes_in. }
  assert (Hs : StronglySorted id_lt ns) by (apply by_id_sorted; by apply b_all_nodes_nodup).
  destruct (dot_edge_stmts_ok o (st ++ [3]) w (g_b g) Hb ns (fun _ => False) ∅) as (l&xs&E&H1&H2&H3); [done| | |done| |].
  { intros n. by apply Hin. }
  { intros i [n Hn]. right. exists n. pose proof (bw_id _ Hb _ _ Hn) as <-. split; [by apply Hin|done]. }
  { split; [|done]. intros x y H. by apply elem_of_empty in H. }
  rewrite E. cbn [rmap]. exists (DotDoc (b_dir (g_b g)) ""%string None (dot_node_stmts o (st ++ [2]) w ns) l), ns, xs.
  split; [done|]. split; [done|]. split; [done|]. split; [done|]. split; [apply dot_node_stmts_ok|]. split; [done|].
  split. { intros n. rewrite listed_iff by done. apply Hin. }
  split; [done|]. split; [done|].
  intros n m e. rewrite H3, Hin, !listed_iff, edge_listed_iff by done. unfold stored, written.
  change (edge_ids e) with (ends e). rewrite Hd. split.
  - intros (Hn&Hm&He&Ho). destruct (bw_edge _ Hb _ _ _ He) as (_&_&_&[Q|[Hu Q]]).
    + rewrite Q. split; [done|]. split; [done|]. split; [done|]. destruct dir; [done|]. destruct Ho; [done|]. auto.
    + rewrite Q. cbn. rewrite (bw_sym _ Hb Hu). split; [done|]. split; [done|]. split; [done|]. rewrite Hu in Hd.
      subst dir. destruct Ho; [done|]. auto.
  - intros (Hn&Hm&He&Ho). split; [done|]. split; [done|]. destruct dir.
    + rewrite Ho in He. auto.
    + destruct Ho as [Hlt [Q|Q]]; rewrite Q in He; [by auto|]. cbn in He. rewrite (bw_sym _ Hb Hd) in He. auto.
Qed.
