(** Invariants of WG and what its methods observe. *)
From Verif.Model Require Import Graph.
From Verif.Spec Require Import GraphSpec.
From Verif.Proof Require Import AttrsP GonumP.

(** ** invariants *)
(** of every reachable graph *)
Definition gkey (g : wg) : Prop := forall k n, g_nodes g !! k = Some n -> n_key n = k.
Definition gbase (dir : bool) (g : wg) : Prop := b_dir (g_b g) = dir /\ bwf (g_b g) /\ gkey g.

(** of consistent graphs *)
Definition gwf (g : wg) : Prop :=
  (forall k n, g_nodes g !! k = Some n -> exists m, b_nodes (g_b g) !! n_id n = Some m /\ n_key m = k) /\
  (forall i m, b_nodes (g_b g) !! i = Some m -> exists n, g_nodes g !! n_key m = Some n /\ n_id n = i).

(** of tidy graphs *)
Definition gexact (g : wg) : Prop :=
  (forall k n, g_nodes g !! k = Some n -> b_nodes (g_b g) !! n_id n = Some n) /\
  (forall i m, b_nodes (g_b g) !! i = Some m -> g_nodes g !! n_key m = Some m).
Definition gobj (g : wg) : Prop :=
  forall x y e, adj_get (b_from (g_b g)) x y = Some e ->
    b_nodes (g_b g) !! n_id (ed_from e) = Some (ed_from e) /\
    b_nodes (g_b g) !! n_id (ed_to e) = Some (ed_to e).

(** ** gbase is preserved *)
Lemma new_wg_fields w b opts :
  g_b (new_wg w b opts).1 = b /\ g_nodes (new_wg w b opts).1 = ∅.
Proof. unfold new_wg. destruct (uid_or_new _ _) as [u w1]. done. Qed.

Lemma new_fields (dir : bool) w opts :
  let g := if dir then (new_wdg w opts).1 else (new_wug w opts).1 in
  (exists x, g_b g = builder_new dir x x) /\ g_nodes g = ∅.
Proof.
  destruct dir; cbn zeta; unfold new_wdg, new_wug.
  - destruct (new_wg_fields w (builder_new true (go_weight (apply_opts graph_opts_zero opts)) (go_weight (apply_opts graph_opts_zero opts))) opts) as [H1 H2].
    split; [eexists; exact H1|exact H2].
  - destruct (new_wg_fields w (builder_new false (go_weight (apply_opts graph_opts_zero opts)) (go_weight (apply_opts graph_opts_zero opts))) opts) as [H1 H2].
    split; [eexists; exact H1|exact H2].
Qed.

Lemma gbase_new dir w opts : gbase dir (if dir then (new_wdg w opts).1 else (new_wug w opts).1).
Proof.
  destruct (new_fields dir w opts) as [[x Hb] Hn]. unfold gbase, gkey. rewrite Hb, Hn.
  split; [done|]. split; [apply bwf_new|]. intros k n H. by rewrite lookup_empty in H.
Qed.

Lemma gbase_add dir g n ups : gbase dir g -> gbase dir (addnode_commit g n ups).2.
Proof.
  intros (Hd&Hb&Hk).
  assert (Hk' : gkey (wg_set_nodes g (<[n_key n:=n]> (g_nodes g)))).
  { intros k m. cbn. rewrite lookup_insert_Some. intros [[<- <-]|[_ H]]; [done|by apply Hk]. }
  unfold addnode_commit. destruct (b_nodes (g_b g) !! n_id n) eqn:E.
  - destruct (g_nodes g !! n_key n).
    + destruct ups; [|done]. rewrite insert_insert. done.
    + done.
  - destruct (b_add_node_ok _ _ E) as (b'&Hb'&Hd'&_). rewrite Hb'. cbn.
    split; [by rewrite <- Hd|]. split; [|done]. by eapply bwf_add.
Qed.

Lemma gbase_remove dir g u : gbase dir g -> gbase dir (wg_remove_node g u).2.
Proof.
  intros (Hd&Hb&Hk). unfold wg_remove_node. destruct (g_nodes g !! uid_string u) as [n|]; [|done].
  unfold removenode_commit. split; cbn.
  - by destruct (b_remove_node_ok _ (n_id n) Hb) as [-> _].
  - split; [by apply bwf_remove_node|]. intros k m. cbn. rewrite lookup_delete_Some. intros [_ H]. by apply Hk.
Qed.

Lemma gbase_unlink_commit dir g f t : gbase dir g -> gbase dir (unlink_commit g f t).
Proof.
  intros (Hd&Hb&Hk). unfold unlink_commit. split; cbn.
  - by destruct (b_remove_edge_ok _ (n_id f) (n_id t) Hb) as [-> _].
  - split; [by apply bwf_remove_edge|done].
Qed.

Lemma gbase_link_commit dir w g f t opts : gbase dir g -> gbase dir (link_commit w g f t opts).2.2.
Proof.
  intros (Hd&Hb&Hk). unfold link_commit. destruct (new_edge w f t opts) as [e w1].
  destruct (b_set_edge (g_b g) e) as [b| |] eqn:E; cbn; [|done|done].
  split; cbn; [|split; [by eapply bwf_set_edge|done]].
  assert (Hne : n_id (ed_from e) <> n_id (ed_to e)).
  { intros H. unfold b_set_edge in E. by rewrite bool_decide_true in E. }
  destruct (b_set_edge_ok (g_b g) e Hne) as (b'&E'&Hd'&_). rewrite E in E'. injection E' as <-. congruence.
Qed.

Lemma gbase_link dir w g u v opts : gbase dir g -> gbase dir (wg_link w g u v opts).2.2.
Proof.
  intros H. unfold wg_link. destruct (link_check g u v) as [[e|[f t]]| |]; [done| |done|done].
  by apply gbase_link_commit.
Qed.

Lemma gbase_unlink dir g u v : gbase dir g -> gbase dir (wg_unlink g u v).2.
Proof.
  intros H. unfold wg_unlink. destruct (g_nodes g !! uid_string u); [|done].
  destruct (g_nodes g !! uid_string v); [|done]. by apply gbase_unlink_commit.
Qed.

Lemma gbase_step dir o st w g op : gbase dir g -> gbase dir (gstep o st (w, g) op).2.2.
Proof.
  intros H. destruct op as [e opts|n opts|u|u v opts|u v]; simpl.
  - destruct (wg_new_node o st w g e opts) as [[n w1]| |]; done.
  - destruct n as [n|u]; simpl; [|done].
    pose proof (gbase_add dir g n (go_upsert (apply_opts graph_opts_zero opts)) H) as H1.
    by destruct (addnode_commit g n (go_upsert (apply_opts graph_opts_zero opts))).
  - pose proof (gbase_remove dir g u H) as H1. by destruct (wg_remove_node g u).
  - pose proof (gbase_link dir w g u v opts H) as H1. by destruct (wg_link w g u v opts).
  - pose proof (gbase_unlink dir g u v H) as H1. by destruct (wg_unlink g u v).
Qed.

Lemma reach_base dir g : reach dir g -> gbase dir g.
Proof. induction 1; [apply gbase_new|by apply gbase_step]. Qed.

(** ** observers in terms of the fields *)
Lemma wg_node_Ok g u n : wg_node g u = Ok n <-> g_nodes g !! uid_string u = Some n.
Proof. unfold wg_node. destruct (g_nodes g !! uid_string u); naive_solver. Qed.
Lemma wg_node_Err g u : wg_node g u = Err GraphErrNodeNotFound <-> g_nodes g !! uid_string u = None.
Proof. unfold wg_node. destruct (g_nodes g !! uid_string u); naive_solver. Qed.

Lemma listed_iff g n : bwf (g_b g) -> listed g n <-> b_nodes (g_b g) !! n_id n = Some n.
Proof.
  intros Hb. unfold listed, wg_nodes. split.
  - intros H. destruct (H iter_id []) as (ns&[= <-]&Hin). by apply b_all_nodes_in in Hin.
  - intros H o st. eexists. split; [done|]. by apply b_all_nodes_in.
Qed.

Lemma edge_listed_iff g e :
  bwf (g_b g) -> edge_listed g e <-> adj_get (b_from (g_b g)) (ends e).1 (ends e).2 = Some e.
Proof.
  intros Hb. unfold edge_listed, wg_edges. split.
  - intros H. destruct (H iter_id []) as (es&[= <-]&Hin). by apply b_weighted_edges_in in Hin.
  - intros H o st. eexists. split; [done|]. by eapply b_weighted_edges_complete.
Qed.


Lemma gwf_consistent g : bwf (g_b g) -> gkey g -> consistent g <-> gwf g.
Proof.
  intros Hb Hk. unfold consistent, gwf. split; intros [H1 H2]; split.
  - intros k n Hn. pose proof (Hk _ _ Hn) as Hkn.
    destruct (H1 (n_uid n) n) as [_ (m&Hm&Hid&Ht)].
    { apply wg_node_Ok. fold (n_key n). by rewrite Hkn. }
    apply listed_iff in Hm; [|done]. rewrite Hid in Hm. exists m. split; [done|].
    by rewrite <- Hkn.
  - intros i m Hm. pose proof (bw_id _ Hb _ _ Hm) as Hid.
    destruct (H2 m) as (n&Hn&Hi).
    { apply listed_iff; [done|]. by rewrite Hid. }
    apply wg_node_Ok in Hn. exists n. split; [done|]. congruence.
  - intros u n Hn. apply wg_node_Ok in Hn. split; [exact (Hk _ _ Hn)|].
    destruct (H1 _ _ Hn) as (m&Hm&Hmk). exists m.
    pose proof (bw_id _ Hb _ _ Hm) as Hid. split_and!; [|done|done].
    apply listed_iff; [done|]. by rewrite Hid.
  - intros m Hm. apply listed_iff in Hm; [|done]. destruct (H2 _ _ Hm) as (n&Hn&Hi).
    exists n. split; [|done]. by apply wg_node_Ok.
Qed.

Lemma gexact_agree g : bwf (g_b g) -> gkey g -> agree g <-> gexact g.
Proof.
  intros Hb Hk. unfold agree, gexact. split.
  - intros H. split.
    + intros k n Hn. pose proof (Hk _ _ Hn) as Hkn.
      destruct (H (n_uid n) n) as [H1 _]. destruct H1 as [H1 _].
      { apply wg_node_Ok. fold (n_key n). by rewrite Hkn. }
      by apply listed_iff in H1.
    + intros i m Hm. pose proof (bw_id _ Hb _ _ Hm) as Hid.
      destruct (H (n_uid m) m) as [_ H2]. apply wg_node_Ok, H2. split; [|done].
      apply listed_iff; [done|]. by rewrite Hid.
  - intros [H1 H2] u n. rewrite wg_node_Ok, listed_iff by done. split.
    + intros Hn. split; [by eapply H1|]. by apply Hk in Hn.
    + intros [Hn Ht]. apply H2 in Hn. unfold n_key in Hn. by rewrite Ht in Hn.
Qed.

Lemma gexact_gwf g : bwf (g_b g) -> gkey g -> gexact g -> gwf g.
Proof.
  intros Hb Hk [H1 H2]. split.
  - intros k n Hn. exists n. split; [by eapply H1|]. by apply Hk.
  - intros i m Hm. exists m. split; [by eapply H2|]. by apply (bw_id _ Hb).
Qed.

(** ids and texts correspond *)
Lemma gwf_id_inj g k1 k2 n1 n2 :
  gwf g -> g_nodes g !! k1 = Some n1 -> g_nodes g !! k2 = Some n2 -> n_id n1 = n_id n2 -> k1 = k2.
Proof.
  intros [H _] Hn1 Hn2 Hid. destruct (H _ _ Hn1) as (m1&Hm1&<-). destruct (H _ _ Hn2) as (m2&Hm2&<-).
  rewrite Hid in Hm1. congruence.
Qed.

(** ** Edge *)
Lemma wg_edge_cases g u v :
  wg_edge g u v =
  match wg_node g u, wg_node g v with
  | Ok a, Ok b => match b_weighted_edge (g_b g) (n_id a) (n_id b) with
                  | Some e => Ok e | None => Err GraphErrEdgeNotExist end
  | _, _ => Err GraphErrNodeNotFound
  end.
Proof.
  unfold wg_edge, wg_node. destruct (g_nodes g !! uid_string u); [|done].
  by destruct (g_nodes g !! uid_string v).
Qed.

Lemma edge_reversed_inv e : edge_reversed (edge_reversed e) = e.
Proof. by destruct e. Qed.

Lemma b_weighted_edge_ends b x y e : bwf b -> b_weighted_edge b x y = Some e -> ends e = (x, y).
Proof.
  intros Hb. unfold b_weighted_edge. destruct (adj_get (b_from b) x y) as [e0|] eqn:E; [|done].
  destruct (bw_edge _ Hb _ _ _ E) as (_&_&_&Hor). destruct (b_dir b) eqn:Hd.
  - intros [= <-]. destruct Hor as [?|[? _]]; [done|congruence].
  - unfold ends in *. case_bool_decide as Hx; intros [= <-].
    + destruct Hor as [?|[_ [=]]]; [done|]. congruence.
    + destruct Hor as [[=]|[_ [=]]]; [congruence|]. cbn. congruence.
Qed.

Lemma b_weighted_edge_sym b x y :
  bwf b -> b_dir b = false -> b_weighted_edge b y x = edge_reversed <$> b_weighted_edge b x y.
Proof.
  intros Hb Hd. unfold b_weighted_edge. rewrite (bw_sym _ Hb Hd y x), Hd.
  destruct (adj_get (b_from b) x y) as [e|] eqn:E; [|done].
  destruct (bw_edge _ Hb _ _ _ E) as (Hne&_&_&Hor). unfold ends in Hor.
  destruct Hor as [[=]|[_ [=]]].
  - rewrite bool_decide_false by congruence. by rewrite bool_decide_true.
  - rewrite bool_decide_true by congruence. rewrite bool_decide_false by congruence. simpl.
    by rewrite edge_reversed_inv.
Qed.

Lemma b_weighted_edge_None b x y : b_weighted_edge b x y = None <-> adj_get (b_from b) x y = None.
Proof.
  unfold b_weighted_edge. destruct (adj_get (b_from b) x y); [|done].
  destruct (b_dir b); [done|]. case_bool_decide; done.
Qed.

Lemma b_weighted_edge_adj b b' x y :
  b_dir b' = b_dir b -> adj_get (b_from b') x y = adj_get (b_from b) x y ->
  b_weighted_edge b' x y = b_weighted_edge b x y.
Proof. intros Hd Ha. unfold b_weighted_edge. by rewrite Hd, Ha. Qed.

(** ** tidy graphs *)
Lemma wg_new_node_ok o st w g e opts n w1 :
  wg_new_node o st w g e opts = Ok (n, w1) ->
  exists id n0, b_new_node_id o st (g_b g) = Ok id /\ mem_new_node w id e opts = (n0, w1) /\
    n_ent n0 = e /\ n_id n0 = id /\ n = default n0 (g_nodes g !! uid_string (ge_uid e)).
Proof.
  unfold wg_new_node, newnode_id. destruct (b_new_node_id o st (g_b g)) as [id| |]; [|done|done]. cbn [rbind].
  destruct (mem_new_node w id e opts) as [n0 w0] eqn:E. intros [= <- <-].
  exists id, n0. split; [done|]. split; [done|].
  assert (n_ent n0 = e /\ n_id n0 = id) as [H1 H2].
  { unfold mem_new_node in E. destruct (attrs_or_new _ _) as [a w2]. by injection E as <- <-. }
  split; [done|]. split; [done|]. unfold newnode_lookup, n_key, n_uid. by rewrite H1.
Qed.

Definition gtidy (dir : bool) (g : wg) : Prop := gbase dir g /\ gexact g /\ gobj g.

Lemma insert_same (m : gmap string node) k n : m !! k = Some n -> <[k := n]> m = m.
Proof. apply insert_id. Qed.

Lemma gtidy_put dir o st w g e nopts aopts n w1 :
  gtidy dir g -> wg_new_node o st w g e nopts = Ok (n, w1) ->
  gtidy dir (wg_add_node g (MemNode n) aopts).2.
Proof.
  intros (Hbase&[Hx1 Hx2]&Ho) Hn. split.
  { by apply gbase_add. }
  destruct Hbase as (Hd&Hb&Hk).
  apply wg_new_node_ok in Hn as (id&n0&Hid&_&He0&Hi0&->).
  destruct (g_nodes g !! uid_string (ge_uid e)) as [m|] eqn:Em.
  - (* the stored node itself *)
    simpl. pose proof (Hx1 _ _ Em) as Hm. pose proof (Hk _ _ Em) as Hmk.
    unfold addnode_commit. rewrite Hm, Hmk, Em.
    rewrite !insert_same by (rewrite ?insert_same by done; done).
    destruct (go_upsert _); simpl; done.
  - simpl. pose proof (b_new_node_id_fresh _ _ _ _ Hb Hid) as Hfresh. rewrite <- Hi0 in Hfresh.
    unfold addnode_commit. rewrite Hfresh.
    destruct (b_add_node_ok _ _ Hfresh) as (b'&Hb'&Hd'&Hn'&Hf'&_). rewrite Hb'. cbn.
    assert (Hkey : n_key n0 = uid_string (ge_uid e)) by (unfold n_key, n_uid; by rewrite He0).
    split.
    + split; cbn; rewrite Hn'.
      * intros k m. rewrite Hkey, lookup_insert_Some. intros [[<- <-]|[Hne Hm]]; [by rewrite lookup_insert|].
        pose proof (Hx1 _ _ Hm) as H1. rewrite lookup_insert_ne; [done|]. intros E. rewrite <- E in H1. congruence.
      * intros i m. rewrite lookup_insert_Some. intros [[<- <-]|[Hne Hm]]; [by rewrite lookup_insert|].
        pose proof (Hx2 _ _ Hm) as H1. rewrite lookup_insert_ne; [done|]. rewrite Hkey. intros E.
        rewrite <- E in H1. congruence.
    + intros x y e1. cbn. rewrite Hf', Hn'. intros H1. destruct (Ho _ _ _ H1) as [Ha Hc].
      rewrite !lookup_insert_ne; [done| |]; intros E; rewrite <- E in *; congruence.
Qed.

Lemma gtidy_remove dir g u : gtidy dir g -> gtidy dir (wg_remove_node g u).2.
Proof.
  intros (Hbase&[Hx1 Hx2]&Ho). split; [by apply gbase_remove|].
  destruct Hbase as (Hd&Hb&Hk). unfold wg_remove_node.
  destruct (g_nodes g !! uid_string u) as [n|] eqn:En; [|done]. cbn.
  destruct (b_remove_node_ok _ (n_id n) Hb) as (_&Hn'&_&_&Ha&_). split.
  - split; cbn; rewrite Hn'.
    + intros k m. rewrite lookup_delete_Some. intros [Hne Hm]. rewrite lookup_delete_ne; [by eapply Hx1|].
      intros E. apply Hne. pose proof (Hx1 _ _ Hm) as H1. pose proof (Hx1 _ _ En) as H2.
      rewrite E in H2. rewrite <- (Hk _ _ Hm), <- (Hk _ _ En). congruence.
    + intros i m. rewrite lookup_delete_Some. intros [Hne Hm]. pose proof (Hx2 _ _ Hm) as H1.
      rewrite lookup_delete_ne; [done|]. intros E. apply Hne. rewrite <- E, En in H1.
      injection H1 as ->. by apply (bw_id _ Hb).
  - intros x y e. cbn. rewrite Ha, Hn'. case_bool_decide as Hp; [done|]. intros He.
    destruct (Ho _ _ _ He) as [H1 H2]. destruct (bw_edge _ Hb _ _ _ He) as (_&_&_&Hor). unfold ends in Hor.
    rewrite !lookup_delete_ne; [done| |]; destruct Hor as [[=]|[_ [=]]]; intros E; apply Hp; lia.
Qed.

Lemma gtidy_unlink dir g u v : gtidy dir g -> gtidy dir (wg_unlink g u v).2.
Proof.
  intros (Hbase&[Hx1 Hx2]&Ho). split; [by apply gbase_unlink|].
  destruct Hbase as (Hd&Hb&Hk). unfold wg_unlink.
  destruct (g_nodes g !! uid_string u) as [n|] eqn:En; [|done].
  destruct (g_nodes g !! uid_string v) as [m|] eqn:Em; [|done]. cbn.
  destruct (b_remove_edge_ok _ (n_id n) (n_id m) Hb) as (_&Hn'&_&_&_&Ha). split.
  - split; cbn; rewrite Hn'; done.
  - intros x y e. cbn. rewrite Ha, Hn'. case_bool_decide; [done|]. apply Ho.
Qed.

(** what Link does *)
Lemma new_edge_ends w a b opts : forall e w1, new_edge w a b opts = (e, w1) -> ed_from e = a /\ ed_to e = b.
Proof.
  intros e w1. unfold new_edge. destruct (uid_or_new _ _) as [u0 w0].
  destruct (bool_decide _).
  - destruct (attrs_or_new _ _) as [x w2]. by intros [= <- <-].
  - destruct (uid_from_string _ _) as [u1 w2]. destruct (attrs_or_new _ _) as [x w3]. by intros [= <- <-].
Qed.

Lemma wg_link_cases dir w g u v opts :
  gbase dir g ->
  wg_link w g u v opts =
  match wg_node g u, wg_node g v with
  | Ok a, Ok b =>
      match wg_edge g u v with
      | Ok e => (Ok e, (w, g))
      | _ => link_commit w g a b opts
      end
  | _, _ => (Err GraphErrNodeNotFound, (w, g))
  end.
Proof.
  intros (Hd&Hb&Hk). unfold wg_link, link_check. rewrite wg_edge_cases. unfold wg_node.
  destruct (g_nodes g !! uid_string u) as [a|]; [|done].
  destruct (g_nodes g !! uid_string v) as [b|]; [|done].
  destruct (b_weighted_edge (g_b g) (n_id a) (n_id b)); done.
Qed.

Lemma link_commit_ok w g a b opts :
  n_id a <> n_id b ->
  exists e w1 b',
    new_edge w a b opts = (e, w1) /\ ed_from e = a /\ ed_to e = b /\
    link_commit w g a b opts = (Ok e, (w1, wg_set_b g b')) /\
    b_set_edge (g_b g) e = Ok b' /\ b_dir b' = b_dir (g_b g) /\
    b_nodes b' = <[n_id b := b]> (<[n_id a := a]> (b_nodes (g_b g))) /\
    (forall x y, adj_get (b_from b') x y =
       if bool_decide (same_pair (b_dir (g_b g)) x y (n_id a) (n_id b)) then Some e
       else adj_get (b_from (g_b g)) x y).
Proof.
  intros Hne. destruct (new_edge w a b opts) as [e w1] eqn:E.
  destruct (new_edge_ends _ _ _ _ _ _ E) as [<- <-].
  destruct (b_set_edge_ok (g_b g) e Hne) as (b'&Hb'&Hd&Hn&Ha&_).
  exists e, w1, b'. do 3 (split; [done|]). split; [|done].
  unfold link_commit. by rewrite E, Hb'.
Qed.

Lemma link_commit_self w g a b opts :
  n_id a = n_id b -> exists w1, link_commit w g a b opts = (Panic PSelfEdge, (w1, g)).
Proof.
  intros Heq. unfold link_commit. destruct (new_edge w a b opts) as [e w1] eqn:E.
  destruct (new_edge_ends _ _ _ _ _ _ E) as [<- <-].
  unfold b_set_edge. rewrite bool_decide_true by done. eauto.
Qed.

Lemma gtidy_link dir w g u v opts : gtidy dir g -> gtidy dir (wg_link w g u v opts).2.2.
Proof.
  intros (Hbase&[Hx1 Hx2]&Ho). split; [by apply gbase_link|].
  rewrite (wg_link_cases dir) by done. destruct Hbase as (Hd&Hb&Hk).
  destruct (wg_node g u) as [a| |] eqn:Ha; [|done..].
  destruct (wg_node g v) as [b| |] eqn:Hbn; [|done..].
  assert (Hsame : gexact g /\ gobj g) by done.
  destruct (wg_edge g u v); [done|..].
  all: destruct (decide (n_id a = n_id b)) as [Heq|Hne];
    [destruct (link_commit_self w g a b opts Heq) as [w1 ->]; done|].
  all: destruct (link_commit_ok w g a b opts Hne) as (e1&w1&b'&_&Hf&Ht&->&_&_&Hn&Hadj); cbn.
  all: apply wg_node_Ok in Ha, Hbn; pose proof (Hx1 _ _ Ha) as Ha'; pose proof (Hx1 _ _ Hbn) as Hb'.
  all: assert (Hn' : b_nodes b' = b_nodes (g_b g)) by
    (rewrite Hn, (insert_id (b_nodes (g_b g)) (n_id a) a) by done; by rewrite insert_id).
  all: split; [split; cbn; rewrite Hn'; done|].
  all: intros x y e0; cbn; rewrite Hadj, Hn'; case_bool_decide;
    [intros [= <-]; by rewrite Hf, Ht|apply Ho].
Qed.

Lemma gtidy_new dir w opts : gtidy dir (if dir then (new_wdg w opts).1 else (new_wug w opts).1).
Proof.
  split; [apply gbase_new|]. destruct (new_fields dir w opts) as [[x Hb] Hn].
  unfold gexact, gobj. rewrite Hb, Hn. split; [split|].
  - intros k n H. by rewrite lookup_empty in H.
  - intros k n H. cbn in H. by rewrite lookup_empty in H.
  - intros a b e H. done.
Qed.

Lemma tidy_inv dir g : tidy dir g -> gtidy dir g.
Proof.
  induction 1.
  - apply gtidy_new.
  - by eapply gtidy_put.
  - by apply gtidy_remove.
  - by apply gtidy_link.
  - by apply gtidy_unlink.
Qed.

Lemma tidy_reach dir g : tidy dir g -> reach dir g.
Proof.
  induction 1 as [w opts|o st w g e nopts aopts n w1 _ IH Hn|g u _ IH|w g u v opts _ IH|g u v _ IH].
  - constructor.
  - pose proof (reach_step dir o st w g (GAddNode (MemNode n) aopts) IH) as H. simpl in H |- *.
    by destruct (addnode_commit g n (go_upsert (apply_opts graph_opts_zero aopts))).
  - pose proof (reach_step dir iter_id [] (World ∅ 0 (fun _ => ""%string) 0) g (GRemoveNode u) IH) as H.
    simpl in H. by destruct (wg_remove_node g u).
  - pose proof (reach_step dir iter_id [] w g (GLink u v opts) IH) as H. simpl in H.
    by destruct (wg_link w g u v opts).
  - pose proof (reach_step dir iter_id [] (World ∅ 0 (fun _ => ""%string) 0) g (GUnlink u v) IH) as H.
    simpl in H. by destruct (wg_unlink g u v).
Qed.
