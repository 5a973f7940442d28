(** DOT ids can be set, entities as graph nodes, and the graph of a store:
    C89 to C91. *)
From Verif.Model Require Import Store.
From Verif.Spec Require Import OptionsSpec EntitySpec GraphSpec SubSpec StoreSpec.
From Verif.Proof Require Import OptionsP AttrsP GonumP GraphP GraphP2 StoreP.
From Verif.Props Require Import PEntity PGraph PStore.

(** C89.  SetDOTID changes what DOTID returns and nothing else; the second of two
    calls wins. *)
Theorem c89_entity :
  forall e d, let e' := entity_set_dotid e d in
    e_dotid e' = d /\ e_uid e' = e_uid e /\ e_typ e' = e_typ e /\ e_attrs e' = e_attrs e /\
    (forall d', entity_set_dotid e' d' = entity_set_dotid e d') /\ entity_set_dotid e (e_dotid e) = e.
Proof. intros e d. by destruct e. Qed.
Print Assumptions c89_entity.

Theorem c89_resource :
  forall r d, let r' := resource_set_dotid r d in
    r_dotid r' = d /\ r_uid r' = r_uid r /\ r_typ r' = r_typ r /\ r_name r' = r_name r /\
    r_group r' = r_group r /\ r_version r' = r_version r /\ r_kind r' = r_kind r /\
    r_namespaced r' = r_namespaced r /\ r_attrs r' = r_attrs r /\
    (forall d', resource_set_dotid r' d' = resource_set_dotid r d') /\
    resource_set_dotid r (r_dotid r) = r.
Proof. intros r d. by destruct r. Qed.
Print Assumptions c89_resource.

Theorem c89_object :
  forall x d, let x' := object_set_dotid x d in
    o_dotid x' = d /\ o_uid x' = o_uid x /\ o_typ x' = o_typ x /\ o_name x' = o_name x /\
    o_ns x' = o_ns x /\ o_res x' = o_res x /\ o_attrs x' = o_attrs x /\
    (forall d', object_set_dotid x' d' = object_set_dotid x d') /\ object_set_dotid x (o_dotid x) = x.
Proof. intros x d. by destruct x. Qed.
Print Assumptions c89_object.

(** the entity inside a node keeps its own DOT id *)
Theorem c89_node :
  forall n d, let n' := node_set_dotid n d in
    n_dotid n' = d /\ n_id n' = n_id n /\ n_uid n' = n_uid n /\ n_type n' = n_type n /\
    n_key n' = n_key n /\ n_attrs n' = n_attrs n /\ n_ent n' = n_ent n /\
    (forall d', node_set_dotid n' d' = node_set_dotid n d') /\ node_set_dotid n (n_dotid n) = n.
Proof. intros n d. by destruct n. Qed.
Print Assumptions c89_node.

(** an edge made with a DOT id option has it as its UID, SetDOTID does not change
    the UID *)
Theorem c89_edge :
  forall e d, let e' := edge_set_dotid e d in
    ed_dotid e' = d /\ ed_uid e' = ed_uid e /\ ed_attrs e' = ed_attrs e /\ ed_from e' = ed_from e /\
    ed_to e' = ed_to e /\ ed_weight e' = ed_weight e /\
    (forall d', edge_set_dotid e' d' = edge_set_dotid e d') /\ edge_set_dotid e (ed_dotid e) = e /\
    edge_reversed e' = edge_set_dotid (edge_reversed e) d.
Proof. intros e d. by destruct e. Qed.
Print Assumptions c89_edge.

(** ReversedEdge swaps the ends, keeps the rest, and undoes itself. *)
Theorem c89_reversed :
  forall e, let e' := edge_reversed e in
    ed_from e' = ed_to e /\ ed_to e' = ed_from e /\ ed_uid e' = ed_uid e /\ ed_attrs e' = ed_attrs e /\
    ed_dotid e' = ed_dotid e /\ ed_weight e' = ed_weight e /\ edge_reversed e' = e.
Proof. intros e. by destruct e. Qed.
Print Assumptions c89_reversed.

Example c89_example :
  let w := World ∅ 5 (fun n => if bool_decide (n = 0) then "uuid-0" else "uuid-n")%string 0 in
  let '(r, _) := new_resource w "t" "n" "g" "v" "k" true [] in
  r_dotid r = "g/v/k"%string /\ r_dotid (resource_set_dotid r "x") = "x"%string /\
  r_uid (resource_set_dotid r "x") = UPtr 5 "uuid-0".
Proof. vm_compute. done. Qed.

(** The DOT id a node gets when the node options ask for [rn], the options of its
    entity asked for [re], and [d] is the default of that kind of entity. *)
Definition first_set (rn re d : string) : string :=
  if bool_decide (rn = ""%string) then if bool_decide (re = ""%string) then d else re else rn.

(** C90.  A node of a new entity: UID and type are the entity's; the DOT id is the
    node option's, else the entity option's, else the UID text; the attributes are
    the node option's or new, those of the entity stay with the entity. *)
Theorem c90_entity :
  forall w typ l e w1 id ln n w2,
    new_entity w typ (ent_den <$> l) = (e, w1) ->
    mem_new_node w1 id (gent_of_entity e) (graph_den <$> ln) = (n, w2) ->
    let ru := default None (last_set ent_uid_of l) in
    uid_spec w w1 ru (n_uid n) /\ n_type n = typ /\ n_id n = id /\
    n_dotid n = first_set (default ""%string (last_set graph_dotid_of ln))
                          (default ""%string (last_set ent_dot_of l)) (uid_string (n_uid n)) /\
    attrs_spec w w1 (default None (last_set ent_attrs_of l)) (ge_attrs (n_ent n)) /\
    attrs_spec w1 w2 (default None (last_set graph_attrs_of ln)) (n_attrs n).
Proof.
  intros w typ l e w1 id ln n w2 He Hn. pose proof (c38_entity _ _ _ _ _ He) as (H1&H2&H3&H4&H5&H6).
  pose proof (c38_node _ _ _ _ _ _ Hn) as (K1&K2&K3&K4&K5&K6&K7).
  assert (Hne : n_ent n = gent_of_entity e).
  { unfold mem_new_node in Hn. destruct (attrs_or_new _ w1). by injection Hn as <- <-. }
  cbn in K2, K3, K6. cbn zeta in *. rewrite K2, K3, Hne. cbn [ge_attrs gent_of_entity].
  do 3 (split; [done|]). split; [|done].
  unfold first_set. case_bool_decide as D1; [|by apply K5]. rewrite K6 by done.
  case_bool_decide as D2; [by apply H5|by apply H4].
Qed.
Print Assumptions c90_entity.

(** C90.  A node of a new resource: the default DOT id is group/version/kind. *)
Theorem c90_resource :
  forall w typ name group version kind ns l r w1 id ln n w2,
    new_resource w typ name group version kind ns (ent_den <$> l) = (r, w1) ->
    mem_new_node w1 id (gent_of_resource r) (graph_den <$> ln) = (n, w2) ->
    let ru := default None (last_set ent_uid_of l) in
    uid_spec w w1 ru (n_uid n) /\ n_type n = typ /\ n_id n = id /\
    n_dotid n = first_set (default ""%string (last_set graph_dotid_of ln))
                          (default ""%string (last_set ent_dot_of l))
                          (group +:+ "/" +:+ version +:+ "/" +:+ kind)%string /\
    attrs_spec w w1 (default None (last_set ent_attrs_of l)) (ge_attrs (n_ent n)) /\
    attrs_spec w1 w2 (default None (last_set graph_attrs_of ln)) (n_attrs n).
Proof.
  intros w typ name group version kind ns l r w1 id ln n w2 He Hn.
  pose proof (c38_resource _ _ _ _ _ _ _ _ _ _ He) as (H1&_&_&_&_&_&H2&H3&H4&H5&_).
  pose proof (c38_node _ _ _ _ _ _ Hn) as (K1&K2&K3&K4&K5&K6&K7).
  assert (Hne : n_ent n = gent_of_resource r).
  { unfold mem_new_node in Hn. destruct (attrs_or_new _ w1). by injection Hn as <- <-. }
  cbn in K2, K3, K6. cbn zeta in *. rewrite K2, K3, Hne. cbn [ge_attrs gent_of_resource].
  do 3 (split; [done|]). split; [|done].
  unfold first_set. case_bool_decide as D1; [|by apply K5]. rewrite K6 by done.
  case_bool_decide as D2; [by apply H5|by apply H4].
Qed.
Print Assumptions c90_resource.

(** C90.  A node of a new object. *)
Theorem c90_object :
  forall w typ name ns rs l x w1 id ln n w2,
    new_object w typ name ns rs (ent_den <$> l) = (x, w1) ->
    mem_new_node w1 id (gent_of_object x) (graph_den <$> ln) = (n, w2) ->
    let ru := default None (last_set ent_uid_of l) in
    uid_spec w w1 ru (n_uid n) /\ n_type n = typ /\ n_id n = id /\
    n_dotid n = first_set (default ""%string (last_set graph_dotid_of ln))
                          (default ""%string (last_set ent_dot_of l))
                          (match rs with
                           | None => uid_string (n_uid n)
                           | Some r => r_group r +:+ "/" +:+ r_version r +:+ "/" +:+ r_kind r +:+ "/" +:+ ns +:+ "/" +:+ name
                           end)%string /\
    attrs_spec w w1 (default None (last_set ent_attrs_of l)) (ge_attrs (n_ent n)) /\
    attrs_spec w1 w2 (default None (last_set graph_attrs_of ln)) (n_attrs n).
Proof.
  intros w typ name ns rs l x w1 id ln n w2 He Hn.
  pose proof (c38_object _ _ _ _ _ _ _ _ He) as (H1&_&_&_&H2&H3&H4&H5&_).
  pose proof (c38_node _ _ _ _ _ _ Hn) as (K1&K2&K3&K4&K5&K6&K7).
  assert (Hne : n_ent n = gent_of_object x).
  { unfold mem_new_node in Hn. destruct (attrs_or_new _ w1). by injection Hn as <- <-. }
  cbn in K2, K3, K6. cbn zeta in *. rewrite K2, K3, Hne. cbn [ge_attrs gent_of_object].
  do 3 (split; [done|]). split; [|done].
  unfold first_set. case_bool_decide as D1; [|by apply K5]. rewrite K6 by done.
  case_bool_decide as D2; [by apply H5|by apply H4].
Qed.
Print Assumptions c90_object.

(** C90.  A node put into another graph: identity and type are handed on, the
    default DOT id is the one the node has at that moment, and the attributes seen
    through the inner entity are those of the inner node. *)
Theorem c90_node :
  forall w id m ln n w2,
    mem_new_node w id (gent_of_node m) (graph_den <$> ln) = (n, w2) ->
    n_uid n = n_uid m /\ n_type n = n_type m /\ n_key n = n_key m /\ n_id n = id /\
    n_dotid n = first_set (default ""%string (last_set graph_dotid_of ln)) (n_dotid m) "" /\
    ge_attrs (n_ent n) = n_attrs m /\
    attrs_spec w w2 (default None (last_set graph_attrs_of ln)) (n_attrs n).
Proof.
  intros w id m ln n w2 Hn.
  pose proof (c38_node _ _ _ _ _ _ Hn) as (K1&K2&K3&K4&K5&K6&K7).
  assert (Hne : n_ent n = gent_of_node m).
  { unfold mem_new_node in Hn. destruct (attrs_or_new _ w). by injection Hn as <- <-. }
  cbn in K2, K3, K6. cbn zeta in *. unfold n_key. rewrite K2, K3, Hne.
  do 4 (split; [done|]). split; [|done].
  unfold first_set. case_bool_decide as D1; [|by apply K5]. rewrite K6 by done.
  by case_bool_decide as D2.
Qed.
Print Assumptions c90_node.

Example c90_example :
  let w := World ∅ 5 (fun n => if bool_decide (n = 0) then "uuid-0" else "uuid-n")%string 0 in
  let '(r, w1) := new_resource w "t" "n" "g" "v" "k" true [] in
  let '(n, w2) := mem_new_node w1 3 (gent_of_resource r) [] in
  let '(m, _) := mem_new_node w2 4 (gent_of_node (node_set_dotid n "y")) [] in
  n_dotid n = "g/v/k"%string /\ n_uid n = UPtr 5 "uuid-0" /\ n_dotid m = "y"%string /\
  n_uid m = UPtr 5 "uuid-0" /\ n_attrs m <> n_attrs n.
Proof. vm_compute. done. Qed.

(** C91.  The graph of a new store is the configured one; without one it is an
    empty undirected graph whose UID is the second generated one, or the first if
    the store was given a UID. *)
Theorem c91_new :
  forall w l s w', new_store w (mstore_den <$> l) = (s, w') ->
    let ru := default None (last_set mstore_uid_of l) in
    (forall g, default None (last_set mstore_graph_of l) = Some g -> store_graph s = g) /\
    (default None (last_set mstore_graph_of l) = None ->
       b_dir (g_b (store_graph s)) = false /\ g_nodes (store_graph s) = ∅ /\
       (forall o st, wg_nodes o st (store_graph s) = Ok [] /\ wg_edges o st (store_graph s) = Ok []) /\
       uid_string (g_uid (store_graph s)) =
         w_uuid w (match ru with None => S (w_cnt w) | Some _ => w_cnt w end)).
Proof.
  intros w l s w'. unfold new_store. rewrite mstore_opts_last. cbn [mo_uid mo_graph].
  destruct (uid_or_new _ w) as [u w1] eqn:Hu.
  destruct (default None (last_set mstore_graph_of l)) as [g|] eqn:Hg.
  - intros [= <- <-]. split; [by intros g' [= ->]|done].
  - destruct (new_wug w1 []) as [g w2] eqn:Hw. intros [= <- <-]. split; [done|]. intros _.
    pose proof (c38_graph false w1 [] g w2 Hw) as (H1&_&_&_&_&H2&H3&H4&_&_).
    cbn [store_graph s_g]. split; [done|]. split; [done|]. split; [done|].
    cbn in H1. destruct H1 as (p&->&_). cbn.
    destruct (default None (last_set mstore_uid_of l)); cbn in Hu; by injection Hu as <- <-.
Qed.
Print Assumptions c91_new.

(** C91.  After any history of store calls the graph shows exactly what the store
    holds: nodes for the entities, edges for the links. *)
Theorem c91_history :
  forall dir l w s w1 o i cs rs x rs' a,
    fresh_graph dir l -> new_store w (mstore_den <$> l) = (s, w1) ->
    (Z.of_nat (length cs) <= max_int64)%Z ->
    sresults o i (w1, s) (scall_op <$> cs) = (rs, x) ->
    aresults dir (AState ∅ ∅) cs = (rs', a) ->
    shows (store_graph x.2) a /\
    (forall u n, store_get x.2 u = Ok n <-> wg_node (store_graph x.2) u = Ok n).
Proof.
  intros dir l w s w1 o i cs rs x rs' a H1 H2 H3 H4 H5.
  split; [by apply (c17_refinement dir l w s w1 o i cs rs x rs' a)|].
  intros u n. unfold store_get, store_graph, map_err. destruct (wg_node _ u) as [m|e|p]; [done| |done].
  by case_bool_decide.
Qed.
Print Assumptions c91_history.
Example c91_example :
  (exists n, wg_node (store_graph store2) ub = Ok n /\ n_uid n = ub) /\
  b_dir (g_b (store_graph store0)) = false /\
  wg_node (store_graph (store_delete store2 ub).2) ub = Err GraphErrNodeNotFound.
Proof. split; [eexists; split; vm_compute; reflexivity|]. split; vm_compute; reflexivity. Qed.
