(** Options and constructors: C38, C39, C40, C41. *)
From Verif.Model Require Import Store Cache.
From Verif.Spec Require Import OptionsSpec EntitySpec.
From Verif.Proof Require Import OptionsP EntityP.

(** C41.  For every option list of every family the effective struct holds, for
    each field, the value of the last option that sets it, else the zero value. *)
Theorem c41_last_option_wins :
  (forall l, apply_opts ent_opts_zero (ent_den <$> l) =
     EntOpts (default None (last_set ent_uid_of l)) (default None (last_set ent_attrs_of l))
             (default ""%string (last_set ent_dot_of l))) /\
  (forall l, apply_opts link_opts_zero (link_den <$> l) =
     LinkOpts (default None (last_set link_uid_of l)) (default None (last_set link_attrs_of l))
              (default false (last_set link_merge_of l))) /\
  (forall l, apply_opts graph_opts_zero (graph_den <$> l) =
     GraphOpts (default None (last_set graph_uid_of l)) (default ""%string (last_set graph_dotid_of l))
               (default None (last_set graph_attrs_of l)) (default f64_zero (last_set graph_weight_of l))
               (default ""%string (last_set graph_name_of l)) (default false (last_set graph_nocache_of l))
               (default false (last_set graph_upsert_of l)) (default dot_opts_zero (last_set graph_dot_of l))) /\
  (forall l, apply_opts store_opts_zero (store_den <$> l) =
     StoreOpts (default false (last_set store_upsert_of l)) (default None (last_set store_attrs_of l))) /\
  (forall l, apply_opts mstore_opts_zero (mstore_den <$> l) =
     MStoreOpts (default None (last_set mstore_uid_of l)) (default None (last_set mstore_graph_of l))) /\
  (forall l, apply_opts cache_opts_zero (cache_den <$> l) =
     CacheOpts (default false (last_set cache_upsert_of l))).
Proof.
  split; [apply ent_opts_last|]. split; [apply link_opts_last|]. split; [apply graph_opts_last|].
  split; [apply store_opts_last|]. split; [apply mstore_opts_last|apply cache_opts_last].
Qed.
Print Assumptions c41_last_option_wins.
Example c41_example :
  last_set graph_weight_of [GWeight 1%N; GUpsert; GWeight 7%N; GDotID "d"] = Some 7%N /\
  go_weight (apply_opts graph_opts_zero (graph_den <$> [GWeight 1%N; GUpsert; GWeight 7%N; GDotID "d"])) = 7%N.
Proof. split; reflexivity. Qed.

(** C38.  Entities. *)
Theorem c38_entity :
  forall w typ l e w', new_entity w typ (ent_den <$> l) = (e, w') ->
    let ru := default None (last_set ent_uid_of l) in
    let ra := default None (last_set ent_attrs_of l) in
    let rd := default ""%string (last_set ent_dot_of l) in
    e_typ e = typ /\ uid_spec w w' ru (e_uid e) /\ attrs_spec w w' ra (e_attrs e) /\
    (rd <> ""%string -> e_dotid e = rd) /\ (rd = ""%string -> e_dotid e = uid_string (e_uid e)) /\
    world_kept w w' (used_uid ru).
Proof.
  intros w typ l e w'. unfold new_entity. rewrite ent_opts_last. simpl.
  destruct (uid_or_new _ w) as [u w1] eqn:Hu. destruct (attrs_or_new _ w1) as [a w2] eqn:Ha.
  intros [= <- <-]. simpl. destruct (ids_spec _ _ _ _ _ _ _ Hu Ha) as (H1&H2&H3).
  split; [done|]. split; [done|]. split; [done|].
  split; [intros; by rewrite bool_decide_false|]. split; [intros; by rewrite bool_decide_true|done].
Qed.
Print Assumptions c38_entity.

(** C38.  Resources: the default DOT id is group/version/kind. *)
Theorem c38_resource :
  forall w typ name group version kind ns l r w',
    new_resource w typ name group version kind ns (ent_den <$> l) = (r, w') ->
    let ru := default None (last_set ent_uid_of l) in
    let ra := default None (last_set ent_attrs_of l) in
    let rd := default ""%string (last_set ent_dot_of l) in
    r_typ r = typ /\ r_name r = name /\ r_group r = group /\ r_version r = version /\
    r_kind r = kind /\ r_namespaced r = ns /\
    uid_spec w w' ru (r_uid r) /\ attrs_spec w w' ra (r_attrs r) /\
    (rd <> ""%string -> r_dotid r = rd) /\
    (rd = ""%string -> r_dotid r = (group +:+ "/" +:+ version +:+ "/" +:+ kind)%string) /\
    world_kept w w' (used_uid ru).
Proof.
  intros w typ name group version kind ns l r w'. unfold new_resource. rewrite ent_opts_last. simpl.
  destruct (uid_or_new _ w) as [u w1] eqn:Hu. destruct (attrs_or_new _ w1) as [a w2] eqn:Ha.
  intros [= <- <-]. simpl. destruct (ids_spec _ _ _ _ _ _ _ Hu Ha) as (H1&H2&H3).
  repeat (split; [done|]).
  split; [intros; by rewrite bool_decide_false|]. split; [intros; by rewrite bool_decide_true|done].
Qed.
Print Assumptions c38_resource.

(** C38.  Objects: the default DOT id is group/version/kind/namespace/name of the
    resource, or the UID text without one. *)
Theorem c38_object :
  forall w typ name ns rs l x w',
    new_object w typ name ns rs (ent_den <$> l) = (x, w') ->
    let ru := default None (last_set ent_uid_of l) in
    let ra := default None (last_set ent_attrs_of l) in
    let rd := default ""%string (last_set ent_dot_of l) in
    o_typ x = typ /\ o_name x = name /\ o_ns x = ns /\ o_res x = rs /\
    uid_spec w w' ru (o_uid x) /\ attrs_spec w w' ra (o_attrs x) /\
    (rd <> ""%string -> o_dotid x = rd) /\
    (rd = ""%string -> o_dotid x =
       match rs with
       | None => uid_string (o_uid x)
       | Some r => (r_group r +:+ "/" +:+ r_version r +:+ "/" +:+ r_kind r +:+ "/" +:+ ns +:+ "/" +:+ name)%string
       end) /\
    world_kept w w' (used_uid ru).
Proof.
  intros w typ name ns rs l x w'. unfold new_object. rewrite ent_opts_last. simpl.
  destruct (uid_or_new _ w) as [u w1] eqn:Hu. destruct (attrs_or_new _ w1) as [a w2] eqn:Ha.
  intros [= <- <-]. simpl. destruct (ids_spec _ _ _ _ _ _ _ Hu Ha) as (H1&H2&H3).
  repeat (split; [done|]).
  split; [intros; by rewrite bool_decide_false|].
  split; [intros; rewrite bool_decide_true by done; by destruct rs|done].
Qed.
Print Assumptions c38_object.

(** C38.  Links. *)
Theorem c38_link :
  forall w f t l x w', new_link w f t (link_den <$> l) = (x, w') ->
    let ru := default None (last_set link_uid_of l) in
    l_from x = f /\ l_to x = t /\ uid_spec w w' ru (l_uid x) /\
    attrs_spec w w' (default None (last_set link_attrs_of l)) (l_attrs x) /\
    world_kept w w' (used_uid ru).
Proof.
  intros w f t l x w'. unfold new_link. rewrite link_opts_last. simpl.
  destruct (uid_or_new _ w) as [u w1] eqn:Hu. destruct (attrs_or_new _ w1) as [a w2] eqn:Ha.
  intros [= <- <-]. simpl. destruct (ids_spec _ _ _ _ _ _ _ Hu Ha) as (H1&H2&H3).
  repeat (split; [done|]). done.
Qed.
Print Assumptions c38_link.

(** C38.  Graph nodes: identity and type are the entity's, the default DOT id is
    the entity's DOT id, or its UID text when it has none; attributes are the
    option's or new (never the entity's). *)
Theorem c38_node :
  forall w id e l n w', mem_new_node w id e (graph_den <$> l) = (n, w') ->
    let rd := default ""%string (last_set graph_dotid_of l) in
    n_id n = id /\ n_uid n = ge_uid e /\ n_type n = ge_type e /\
    attrs_spec w w' (default None (last_set graph_attrs_of l)) (n_attrs n) /\
    (rd <> ""%string -> n_dotid n = rd) /\
    (rd = ""%string -> n_dotid n = if ge_dot e then ge_dotid e else uid_string (ge_uid e)) /\
    world_kept w w' false.
Proof.
  intros w id e l n w'. unfold mem_new_node. rewrite graph_opts_last. simpl.
  destruct (attrs_or_new _ w) as [a w1] eqn:Ha. intros [= <- <-]. simpl.
  apply attrs_or_new_spec in Ha as [Ha Hk].
  repeat (split; [done|]).
  split; [intros; by rewrite bool_decide_false|].
  split; [intros; rewrite bool_decide_true by done; by destruct (ge_dot e)|done].
Qed.
Print Assumptions c38_node.

(** C38.  Graph edges: a DOT id also becomes the UID (as documented). *)
Theorem c38_edge :
  forall w f t l e w', new_edge w f t (graph_den <$> l) = (e, w') ->
    let ru := default None (last_set graph_uid_of l) in
    let rd := default ""%string (last_set graph_dotid_of l) in
    ed_from e = f /\ ed_to e = t /\ ed_weight e = default f64_zero (last_set graph_weight_of l) /\
    ed_dotid e = uid_string (ed_uid e) /\
    attrs_spec w w' (default None (last_set graph_attrs_of l)) (ed_attrs e) /\
    (rd = ""%string -> uid_spec w w' ru (ed_uid e)) /\
    (rd <> ""%string -> uid_string (ed_uid e) = rd) /\
    world_kept w w' (used_uid ru).
Proof.
  intros w f t l e w'. unfold new_edge. rewrite graph_opts_last. simpl.
  destruct (uid_or_new _ w) as [u w1] eqn:Hu. case_bool_decide as Hd.
  - destruct (attrs_or_new _ w1) as [a w2] eqn:Ha. intros [= <- <-]. simpl.
    destruct (ids_spec _ _ _ _ _ _ _ Hu Ha) as (H1&H2&H3). by repeat (split; [done|]).
  - simpl. destruct (attrs_or_new _ _) as [a w2] eqn:Ha. intros [= <- <-]. simpl.
    apply uid_or_new_spec in Hu as [_ Hk].
    assert (Hk' : world_kept w1 (uid_from_string w1 (default ""%string (last_set graph_dotid_of l))).2 false).
    { split; [done|]. simpl. split; [lia|done]. }
    apply attrs_or_new_spec in Ha as [Ha Hk''].
    pose proof (world_kept_trans _ _ _ _ _ Hk Hk' (andb_false_r _)) as K1.
    pose proof (world_kept_trans _ _ _ _ _ K1 Hk'' (andb_false_r _)) as K2.
    rewrite !orb_false_r in K2. rewrite ?orb_false_r in K2.
    repeat (split; [done|]). split; [by eapply attrs_spec_shift|]. split; [done|]. split; [done|]. exact K2.
Qed.
Print Assumptions c38_edge.

(** C38.  Graphs of both kinds start without nodes and edges. *)
Theorem c38_graph :
  forall (dir : bool) w l g w',
    (if dir then new_wdg w (graph_den <$> l) else new_wug w (graph_den <$> l)) = (g, w') ->
    let ru := default None (last_set graph_uid_of l) in
    let rd := default ""%string (last_set graph_dotid_of l) in
    let x := default f64_zero (last_set graph_weight_of l) in
    uid_spec w w' ru (g_uid g) /\
    (rd <> ""%string -> wg_dotid g = rd) /\ (rd = ""%string -> wg_dotid g = uid_string (g_uid g)) /\
    wg_dot_attributers g = (do_graph (g_dot g), do_node (g_dot g), do_edge (g_dot g)) /\
    g_dot g = default dot_opts_zero (last_set graph_dot_of l) /\
    b_dir (g_b g) = dir /\ g_nodes g = ∅ /\
    (forall o st, wg_nodes o st g = Ok [] /\ wg_edges o st g = Ok []) /\
    (forall a b, b_weight (g_b g) a b = (x, bool_decide (a = b))) /\
    world_kept w w' (used_uid ru).
Proof.
  intros dir w l g w'.
  assert (Hs : forall A (o : iter_order) st, shuffle o st (@nil A) = []).
  { intros A o st. apply Permutation_nil. symmetry. apply shuffle_perm. }
  unfold new_wdg, new_wug, new_wg. rewrite graph_opts_last. simpl.
  destruct (uid_or_new _ w) as [u w1] eqn:Hu. apply uid_or_new_spec in Hu as [Hu Hk].
  intros Heq. assert (Hg : w' = w1 /\ exists d, g = WG (builder_new dir
     (default f64_zero (last_set graph_weight_of l)) (default f64_zero (last_set graph_weight_of l))) u d ∅
     (default dot_opts_zero (last_set graph_dot_of l)) /\
     d = if bool_decide (default ""%string (last_set graph_dotid_of l) = ""%string) then uid_string u
         else default ""%string (last_set graph_dotid_of l)).
  { destruct dir; injection Heq as <- <-; eauto. }
  clear Heq. destruct Hg as (->&d&->&->). simpl.
  split; [done|]. split; [intros; unfold wg_dotid; simpl; by rewrite bool_decide_false|].
  split; [intros; unfold wg_dotid; simpl; by rewrite bool_decide_true|].
  repeat (split; [done|]). split.
  - intros o st. unfold wg_nodes, wg_edges, b_weighted_edges, b_all_nodes, map_range; simpl.
    rewrite !map_to_list_empty, !Hs. split; [done|]. by destruct dir.
  - split; [|done]. intros a b. unfold b_weight, adj_get; simpl. rewrite lookup_empty.
    by case_bool_decide.
Qed.
Print Assumptions c38_graph.

Example c38_example :
  let w := World ∅ 5 (fun n => if bool_decide (n = 0) then "uuid-0" else "uuid-n")%string 0 in
  let '(r, w1) := new_resource w "t" "n" "g" "v" "k" true (ent_den <$> [EDot "x"; EUID None; EDot ""]) in
  r_dotid r = "g/v/k"%string /\ r_uid r = UPtr 5 "uuid-0" /\ r_attrs r = 6%N /\ w_cnt w1 = 1.
Proof. vm_compute. done. Qed.

(** C39, the full statement is false: a slash inside a component makes two
    different resources, or objects, share a default DOT id. *)
Definition c39_resources : Prop :=
  forall w1 w2 t1 t2 n1 n2 b1 b2 g v k g' v' k' r1 r2 w1' w2',
    new_resource w1 t1 n1 g v k b1 [] = (r1, w1') -> new_resource w2 t2 n2 g' v' k' b2 [] = (r2, w2') ->
    (g, v, k) <> (g', v', k') -> r_dotid r1 <> r_dotid r2.
Theorem c39_resource_dot_ids_refuted : ~ c39_resources.
Proof.
  intros H.
  pose (w := World ∅ 0 (fun _ => ""%string) 0).
  refine (H w w "t" "t" "n" "n" true true "apps/x" "v1" "Pod" "apps" "x/v1" "Pod" _ _ _ _ eq_refl eq_refl _ _)%string;
  [done|vm_compute; reflexivity].
Qed.
Print Assumptions c39_resource_dot_ids_refuted.

(** C39 for resources whose group and version contain no slash. *)
Theorem c39_resource_dot_ids_partial :
  forall w1 w2 t1 t2 n1 n2 b1 b2 g v k g' v' k' r1 r2 w1' w2',
    new_resource w1 t1 n1 g v k b1 [] = (r1, w1') -> new_resource w2 t2 n2 g' v' k' b2 [] = (r2, w2') ->
    slash_free g -> slash_free v -> slash_free g' -> slash_free v' ->
    (g, v, k) <> (g', v', k') -> r_dotid r1 <> r_dotid r2.
Proof.
  intros w1 w2 t1 t2 n1 n2 b1 b2 g v k g' v' k' r1 r2 w1' w2' H1 H2 Hg Hv Hg' Hv' Hne Heq.
  cbv [new_resource apply_opts fold_left ent_opts_zero eo_uid eo_attrs eo_dotid uid_or_new attrs_or_new
       uid_new attrs_new] in H1, H2.
  rewrite bool_decide_true in H1, H2 by done.
  injection H1 as <- _. injection H2 as <- _. simpl r_dotid in Heq.
  destruct (concat3_inj g v k g' v' k' Hg Hv Hg' Hv' Heq) as (->&->&->). done.
Qed.
Print Assumptions c39_resource_dot_ids_partial.

(** C39 for objects with a resource: group, version, kind and namespace without
    slashes. *)
Theorem c39_object_dot_ids_partial :
  forall w1 w2 t1 t2 n n' ns ns' r r' x1 x2 w1' w2',
    new_object w1 t1 n ns (Some r) [] = (x1, w1') -> new_object w2 t2 n' ns' (Some r') [] = (x2, w2') ->
    slash_free (r_group r) -> slash_free (r_version r) -> slash_free (r_kind r) -> slash_free ns ->
    slash_free (r_group r') -> slash_free (r_version r') -> slash_free (r_kind r') -> slash_free ns' ->
    (r_group r, r_version r, r_kind r, ns, n) <> (r_group r', r_version r', r_kind r', ns', n') ->
    o_dotid x1 <> o_dotid x2.
Proof.
  intros w1 w2 t1 t2 n n' ns ns' r r' x1 x2 w1' w2' H1 H2 ???????? Hne Heq.
  cbv [new_object apply_opts fold_left ent_opts_zero eo_uid eo_attrs eo_dotid uid_or_new attrs_or_new
       uid_new attrs_new] in H1, H2.
  rewrite bool_decide_true in H1, H2 by done.
  injection H1 as <- _. injection H2 as <- _. simpl o_dotid in Heq.
  destruct (concat5_inj (r_group r) (r_version r) (r_kind r) ns n
              (r_group r') (r_version r') (r_kind r') ns' n') as (E1&E2&E3&->&->); try done.
  apply Hne. by rewrite E1, E2, E3.
Qed.
Print Assumptions c39_object_dot_ids_partial.
Example c39_example : slash_free "apps" /\ slash_free "v1" /\ ~ slash_free "a/b".
Proof.
  unfold slash_free; simpl. repeat split; try (intros H; repeat (apply elem_of_cons in H as [H|H]; [discriminate H|]);
    by apply elem_of_nil in H). intros H. apply H. right. left.
Qed.

(** C40.  Over every sequence of constructions with arbitrary options, in every
    world whose UUID source never repeats, all UIDs that nobody asked for have
    pairwise different texts. *)
Theorem c40_generated_uids_unique :
  forall w cs us w1,
    (forall i j, w_uuid w i = w_uuid w j -> i = j) ->
    ctors_run w cs = (us, w1) -> NoDup (uid_string <$> us).
Proof.
  intros w cs us w1 Hinj Hr. destruct (ctors_drawn _ _ _ _ Hr) as (_&_&ns&->&Hnd&_).
  apply NoDup_fmap_2; [|done]. intros i j. apply Hinj.
Qed.
Print Assumptions c40_generated_uids_unique.
Example c40_example :
  let src := fun n : nat => String.concat "" (replicate n "x"%string) in
  let '(us, w1) := ctors_run (World ∅ 0 src 0)
     [KEntity "a" []; KEntity "b" [EUID (Some (UVal "me"))]; KStore []; KGraph true []] in
  uid_string <$> us = [""; "x"; "xx"; "xxx"]%string.
Proof. vm_compute. reflexivity. Qed.
