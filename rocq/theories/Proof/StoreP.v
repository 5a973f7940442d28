(** Simulation of the store by the abstract map and relation. *)
From Verif.Model Require Import Store.
From Verif.Spec Require Import OptionsSpec EntitySpec GraphSpec SubSpec StoreSpec.
From Verif.Proof Require Import OptionsP AttrsP GonumP GraphP GraphP2.
From Verif.Props Require Import PEntity PGraph.

(** what NewNode gives the store for an unknown entity *)
Lemma new_node_shows o st w g e oa n w1 :
  wg_new_node o st w g e [graph_with_attrs oa] = Ok (n, w1) ->
  wg_node g (ge_uid e) = Err GraphErrNodeNotFound -> node_shows n (e, oa).
Proof.
  intros H Hn. apply wg_new_node_ok in H as (id&n0&_&Hm&He&_&->).
  apply wg_node_Err in Hn. rewrite Hn. simpl.
  pose proof (c38_node w id e [GAttrs oa] n0 w1 Hm) as (_&_&_&Ha&_&Hd&_).
  cbn in Ha, Hd. unfold node_shows. cbn [fst snd]. split; [done|]. split; [|by apply Hd].
  intros a ->. exact Ha.
Qed.

Lemma store_add_tidy dir o st w s e opts :
  tidy dir (s_g s) -> tidy dir (s_g (store_add o st w s e opts).2.2).
Proof.
  intros Ht. unfold store_add. destruct (wg_new_node o st w (s_g s) e _) as [[n w1]| |] eqn:En; [|done|done].
  destruct (so_upsert _).
  - pose proof (tidy_put dir _ _ _ _ _ _ [graph_with_upsert] _ _ Ht En) as H.
    by destruct (wg_add_node _ _ _) as [r g1].
  - pose proof (tidy_put dir _ _ _ _ _ _ [] _ _ Ht En) as H.
    by destruct (wg_add_node _ _ _) as [r g1].
Qed.
Lemma store_delete_tidy dir s u : tidy dir (s_g s) -> tidy dir (s_g (store_delete s u).2).
Proof.
  intros Ht. unfold store_delete. pose proof (tidy_remove dir _ u Ht) as H. by destruct (wg_remove_node _ _).
Qed.
Lemma store_link_tidy dir w s u v opts : tidy dir (s_g s) -> tidy dir (s_g (store_link w s u v opts).2.2).
Proof.
  intros Ht. unfold store_link.
  pose proof (tidy_link dir w _ u v [graph_with_attrs (so_attrs (apply_opts store_opts_zero opts))] Ht) as H.
  by destruct (wg_link _ _ _ _ _) as [r [w1 g1]].
Qed.
Lemma store_unlink_tidy dir s u v : tidy dir (s_g s) -> tidy dir (s_g (store_unlink s u v).2).
Proof.
  intros Ht. unfold store_unlink. pose proof (tidy_unlink dir _ u v Ht) as H. by destruct (wg_unlink _ _ _).
Qed.
Lemma store_bulk_add_tidy dir o st opts es : forall w s,
  tidy dir (s_g s) -> tidy dir (s_g (store_bulk_add o st w s es opts).2.2).
Proof.
  induction es as [|e es IH]; intros w s Ht; [done|]. simpl.
  pose proof (store_add_tidy dir o (st ++ [length es]) w s e opts Ht) as H.
  destruct (store_add _ _ _ _ _ _) as [[| |] [w1 s1]]; [|done|done]. by apply IH.
Qed.
Lemma store_bulk_delete_tidy dir us : forall s, tidy dir (s_g s) -> tidy dir (s_g (store_bulk_delete s us).2).
Proof.
  induction us as [|e es IH]; intros s Ht; [done|]. simpl.
  pose proof (store_delete_tidy dir s e Ht) as H.
  destruct (store_delete _ _) as [[| |] s1]; [|done|done]. by apply IH.
Qed.
Lemma store_bulk_link_tidy dir u opts vs : forall w s,
  tidy dir (s_g s) -> tidy dir (s_g (store_bulk_link w s u vs opts).2.2).
Proof.
  induction vs as [|e es IH]; intros w s Ht; [done|]. simpl.
  pose proof (store_link_tidy dir w s u e opts Ht) as H.
  destruct (store_link _ _ _ _ _) as [[| |] [w1 s1]]; [|done|done]. by apply IH.
Qed.
Lemma store_bulk_unlink_tidy dir u vs : forall s, tidy dir (s_g s) -> tidy dir (s_g (store_bulk_unlink s u vs).2).
Proof.
  induction vs as [|e es IH]; intros s Ht; [done|]. simpl.
  pose proof (store_unlink_tidy dir s u e Ht) as H.
  destruct (store_unlink _ _ _) as [[| |] s1]; [|done|done]. by apply IH.
Qed.
Lemma sstep_tidy dir o st x op : tidy dir (s_g x.2) -> tidy dir (s_g (sstep o st x op).2.2).
Proof.
  destruct x as [w s]. intros Ht. cbn [snd] in Ht. destruct op; cbn [sstep].
  - pose proof (store_add_tidy dir o st w s e opts Ht). by destruct (store_add _ _ _ _ _ _).
  - done.
  - pose proof (store_delete_tidy dir s u Ht). by destruct (store_delete _ _).
  - pose proof (store_link_tidy dir w s u v opts Ht). by destruct (store_link _ _ _ _ _).
  - pose proof (store_unlink_tidy dir s u v Ht). by destruct (store_unlink _ _ _).
  - pose proof (store_bulk_add_tidy dir o st opts es w s Ht). by destruct (store_bulk_add _ _ _ _ _ _).
  - done.
  - pose proof (store_bulk_delete_tidy dir us s Ht). by destruct (store_bulk_delete _ _).
  - pose proof (store_bulk_link_tidy dir u opts vs w s Ht). by destruct (store_bulk_link _ _ _ _ _).
  - pose proof (store_bulk_unlink_tidy dir u vs s Ht). by destruct (store_bulk_unlink _ _ _).
Qed.

(** Exact effect of store_add on a tidy store. *)
Lemma store_add_known dir o st w s e l n r x :
  tidy dir (s_g s) -> wg_node (s_g s) (ge_uid e) = Ok n ->
  store_add o st w s e (store_den <$> l) = (r, x) ->
  r = Panic PNoSlot /\ x = (w, s) \/
  r = (if default false (last_set store_upsert_of l) then Ok () else Err StoreErrAlreadyExists) /\ x.2 = s.
Proof.
  intros Ht Hn H. unfold store_add in H. rewrite store_opts_last in H. cbn [so_upsert so_attrs] in H.
  pose proof (tidy_reach _ _ Ht) as Hr.
  pose proof (c02_fresh_ids dir _ o st w e [graph_with_attrs (default None (last_set store_attrs_of l))] Hr) as Hf.
  destruct (wg_new_node _ _ _ _ _ _) as [[m w1]|y|p]; [|done|].
  2:{ left. subst p. by injection H as <- <-. }
  rewrite Hn in Hf. subst m.
  destruct (tidy_inv _ _ Ht) as ((Hd&Hb&Hk)&[Hx1 Hx2]&_).
  apply wg_node_Ok in Hn. pose proof (Hx1 _ _ Hn) as Hid. pose proof (Hk _ _ Hn) as Hkey.
  destruct s as [su g]. cbn [s_g s_uid] in *. right.
  destruct (default false (last_set store_upsert_of l)).
  - cbn [wg_add_node] in H. unfold addnode_commit in H. rewrite Hid, Hkey, Hn in H. cbn in H.
    rewrite !insert_same in H by (rewrite ?insert_same by done; done). injection H as <- <-.
    split; [done|]. cbn. by destruct g.
  - cbn [wg_add_node] in H. unfold addnode_commit in H. rewrite Hid, Hkey, Hn in H. cbn in H.
    injection H as <- <-. done.
Qed.

Lemma store_add_new dir o st w s e l r x :
  tidy dir (s_g s) -> wg_node (s_g s) (ge_uid e) = Err GraphErrNodeNotFound ->
  store_add o st w s e (store_den <$> l) = (r, x) ->
  r = Panic PNoSlot /\ x = (w, s) \/
  r = Ok () /\ s_uid x.2 = s_uid s /\ exists n,
    node_shows n (e, default None (last_set store_attrs_of l)) /\
    (forall y, wg_node (s_g x.2) y = if bool_decide (same_text y (ge_uid e)) then Ok n else wg_node (s_g s) y) /\
    (forall m, listed (s_g x.2) m <-> listed (s_g s) m \/ m = n) /\
    (forall y z e1, wg_edge (s_g x.2) y z = Ok e1 <-> wg_edge (s_g s) y z = Ok e1).
Proof.
  intros Ht Hn H. pose proof (store_add_tidy dir o st w s e (store_den <$> l) Ht) as Ht'. rewrite H in Ht'.
  cbn [snd] in Ht'.
  unfold store_add in H. rewrite store_opts_last in H. cbn [so_upsert so_attrs] in H.
  pose proof (tidy_reach _ _ Ht) as Hr.
  set (oa := default None (last_set store_attrs_of l)) in *.
  pose proof (c02_fresh_ids dir _ o st w e [graph_with_attrs oa] Hr) as Hf.
  destruct (wg_new_node _ _ _ _ _ _) as [[m w1]|y|p] eqn:En; [|done|].
  2:{ left. subst p. by injection H as <- <-. }
  rewrite Hn in Hf. destruct Hf as [Hme Hfresh].
  pose proof (new_node_shows _ _ _ _ _ _ _ _ En Hn) as Hsh.
  assert (Hnt : ~ id_taken (s_g s) (n_id m)) by (intros (k&Hk&Hk'); by apply (Hfresh k)).
  assert (Hmu : n_uid m = ge_uid e) by (unfold n_uid; by rewrite Hme).
  right.
  assert (Hgo : forall l', exists r1 g1, wg_add_node (s_g s) (MemNode m) (graph_den <$> l') = (r1, g1) /\ r1 = Ok () /\
     (forall y, wg_node g1 y = if bool_decide (same_text y (ge_uid e)) then Ok m else wg_node (s_g s) y) /\
     (forall k, listed g1 k <-> listed (s_g s) k \/ k = m) /\
     (forall k, edge_listed g1 k <-> edge_listed (s_g s) k)).
  { intros l'. destruct (wg_add_node (s_g s) (MemNode m) (graph_den <$> l')) as [r1 g1] eqn:Ea.
    exists r1, g1. split; [done|].
    destruct (c05_add_node_exact dir _ _ _ _ _ Hr Ea) as [_ Hx].
    destruct Hx as (->&H1&H2&H3); [naive_solver|]. rewrite Hmu in H1. split; [done|]. split; [done|].
    split; [|done]. intros k. rewrite H2. naive_solver. }
  assert (Hfin : forall g1, tidy dir g1 ->
     (forall y, wg_node g1 y = if bool_decide (same_text y (ge_uid e)) then Ok m else wg_node (s_g s) y) ->
     (forall k, edge_listed g1 k <-> edge_listed (s_g s) k) ->
     (forall y z e1, wg_edge g1 y z = Ok e1 <-> wg_edge (s_g s) y z = Ok e1)).
  { intros g1 Ht1 Hg1 Hel.
    intros y z e1. destruct (tidy_inv _ _ Ht) as ((Hd&Hb&Hk)&[Hx1 Hx2]&_).
    destruct (tidy_inv _ _ Ht1) as ((Hd1&Hb1&Hk1)&[Hx3 Hx4]&_).
    assert (Hadj : forall i j, adj_get (b_from (g_b g1)) i j = adj_get (b_from (g_b (s_g s))) i j).
    { assert (Hone : forall ga gb, bwf (g_b ga) -> bwf (g_b gb) -> b_dir (g_b ga) = dir -> b_dir (g_b gb) = dir ->
         (forall k, edge_listed ga k <-> edge_listed gb k) ->
         forall i j k, adj_get (b_from (g_b ga)) i j = Some k -> adj_get (b_from (g_b gb)) i j = Some k).
      { intros ga gb Ba Bb Da Db Hl i j k Hijk. destruct (bw_edge _ Ba _ _ _ Hijk) as (_&_&_&He).
        destruct He as [He|[Hdir He]].
        - assert (edge_listed ga k) as Hk' by (apply edge_listed_iff; [done|]; by rewrite He).
          apply Hl, edge_listed_iff in Hk'; [|done]. by rewrite He in Hk'.
        - assert (edge_listed ga k) as Hk'.
          { apply edge_listed_iff; [done|]. rewrite He. cbn. by rewrite (bw_sym _ Ba Hdir). }
          apply Hl, edge_listed_iff in Hk'; [|done]. rewrite He in Hk'. cbn in Hk'.
          rewrite (bw_sym _ Bb) in Hk'; [done|congruence]. }
      intros i j. destruct (adj_get (b_from (g_b g1)) i j) as [k|] eqn:E1.
      - symmetry. by eapply (Hone g1 (s_g s)).
      - destruct (adj_get (b_from (g_b (s_g s))) i j) as [k|] eqn:E2; [|done].
        apply (Hone (s_g s) g1) in E2; [congruence|done..|]. intros k'. symmetry. apply Hel. }
    rewrite !wg_edge_cases. rewrite !Hg1.
    assert (Hwe : forall i j, b_weighted_edge (g_b g1) i j = b_weighted_edge (g_b (s_g s)) i j).
    { intros i j. apply b_weighted_edge_adj; [congruence|apply Hadj]. }
    assert (Hnone : forall i, b_weighted_edge (g_b (s_g s)) (n_id m) i = None /\
                              b_weighted_edge (g_b (s_g s)) i (n_id m) = None).
    { assert (Hno : b_nodes (g_b (s_g s)) !! n_id m = None).
      { destruct (b_nodes (g_b (s_g s)) !! n_id m) as [k|] eqn:E; [|done]. destruct Hnt. exists k.
        rewrite listed_iff by done. rewrite (bw_id _ Hb _ _ E). done. }
      intros i. rewrite !b_weighted_edge_None. split.
      - destruct (adj_get _ (n_id m) i) eqn:E; [|done]. destruct (bw_edge _ Hb _ _ _ E) as (_&[? ?]&_). congruence.
      - destruct (adj_get _ i (n_id m)) eqn:E; [|done]. destruct (bw_edge _ Hb _ _ _ E) as (_&_&[? ?]&_). congruence. }
    unfold same_text.
    destruct (decide (uid_string y = uid_string (ge_uid e))) as [Ey|Ey].
    - rewrite (bool_decide_true _ Ey). unfold wg_node in *. rewrite Ey.
      destruct (g_nodes (s_g s) !! uid_string (ge_uid e)); [done|].
      case_bool_decide; rewrite ?Hwe.
      + by destruct (Hnone (n_id m)) as [-> _].
      + destruct (g_nodes (s_g s) !! uid_string z) as [k|]; [|done]. rewrite ?Hwe.
        by destruct (Hnone (n_id k)) as [-> _].
    - rewrite (bool_decide_false _ Ey). destruct (wg_node_total (s_g s) y) as [[a Ha]|Ha]; rewrite Ha; [|done].
      destruct (decide (uid_string z = uid_string (ge_uid e))) as [Ez|Ez].
      + rewrite (bool_decide_true _ Ez). unfold wg_node in *. rewrite Ez.
        destruct (g_nodes (s_g s) !! uid_string (ge_uid e)); [done|].
        rewrite Hwe. by destruct (Hnone (n_id a)) as [_ ->].
      + rewrite (bool_decide_false _ Ez).
        destruct (wg_node_total (s_g s) z) as [[b Hb']|Hb']; rewrite Hb'; [|done]. by rewrite Hwe. }
  destruct (default false (last_set store_upsert_of l)).
  - destruct (Hgo [GUpsert]) as (r1&g1&Ea&->&H1&H2&H3). change (graph_den <$> [GUpsert]) with [graph_with_upsert] in Ea.
    rewrite Ea in H. injection H as <- <-. cbn [snd s_g s_uid] in *. split; [done|]. split; [done|].
    exists m. split; [done|]. split; [done|]. split; [done|]. by apply Hfin.
  - destruct (Hgo []) as (r1&g1&Ea&->&H1&H2&H3). change (graph_den <$> []) with (@nil graph_option) in Ea.
    rewrite Ea in H. injection H as <- <-. cbn [snd s_g s_uid] in *. split; [done|]. split; [done|].
    exists m. split; [done|]. split; [done|]. split; [done|]. by apply Hfin.
Qed.

(** ** one step of the simulation *)

Lemma foldr_insert_lookup {X} (ps : list (string * string)) (x : X) (m : gmap (string * string) X) p :
  foldr (fun p m => <[p := x]> m) m ps !! p = if bool_decide (p ∈ ps) then Some x else m !! p.
Proof.
  induction ps as [|q ps IH]; simpl; [done|]. destruct (decide (q = p)) as [->|Hne].
  - rewrite lookup_insert, bool_decide_true; [done|left].
  - rewrite lookup_insert_ne, IH by done. destruct (decide (p ∈ ps)) as [Hin|Hin].
    + rewrite !bool_decide_true; [done|by right|done].
    + rewrite !bool_decide_false; [done| |done]. rewrite elem_of_cons. naive_solver.
Qed.
Lemma foldr_delete_lookup {X} (ps : list (string * string)) (m : gmap (string * string) X) p :
  foldr (fun p m => delete p m) m ps !! p = if bool_decide (p ∈ ps) then None else m !! p.
Proof.
  induction ps as [|q ps IH]; simpl; [done|]. destruct (decide (q = p)) as [->|Hne].
  - rewrite lookup_delete, bool_decide_true; [done|left].
  - rewrite lookup_delete_ne, IH by done. destruct (decide (p ∈ ps)) as [Hin|Hin].
    + rewrite !bool_decide_true; [done|by right|done].
    + rewrite !bool_decide_false; [done| |done]. rewrite elem_of_cons. naive_solver.
Qed.
Lemma link_pairs_iff dir x y u v :
  (uid_string x, uid_string y) ∈ link_pairs dir (uid_string u) (uid_string v) <-> same_ends dir x y u v.
Proof.
  unfold link_pairs, same_ends, same_text. destruct dir; rewrite ?elem_of_cons, ?elem_of_nil.
  - split; [intros [[= -> ->]|[]]; auto|]. intros [[-> ->]|[? _]]; [by left|done].
  - split; [intros [[= -> ->]|[[= -> ->]|[]]]; auto|].
    intros [[-> ->]|(_&->&->)]; auto.
Qed.

Lemma no_self_edge dir g u v e : reach dir g -> same_text u v -> wg_edge g u v <> Ok e.
Proof.
  intros Hr Huv He. destruct (reach_base _ _ Hr) as (Hd&Hb&Hk).
  rewrite wg_edge_cases in He. unfold wg_node in He. rewrite Huv in He.
  destruct (g_nodes g !! uid_string v) as [n|]; [|done].
  unfold b_weighted_edge in He. destruct (adj_get _ (n_id n) (n_id n)) as [e'|] eqn:E; [|done].
  by destruct (bw_edge _ Hb _ _ _ E) as (?&_).
Qed.

Lemma sim_step dir o st w s a c r x r' a' :
  tidy dir (s_g s) -> shows (s_g s) a ->
  sstep o st (w, s) (scall_op c) = (r, x) -> astep dir a c = (r', a') ->
  (ret_shows r r' /\ shows (s_g x.2) a' /\ tidy dir (s_g x.2) /\ s_uid x.2 = s_uid s) \/
  ((exists e l, c = CAdd e l) /\ r = SRUnit (Panic PNoSlot) /\ x = (w, s)).
Proof.
  intros Ht Hsh Hs Ha. pose proof (tidy_reach _ _ Ht) as Hr.
  destruct (c03_tidy_consistent _ _ Ht) as [_ Hc].
  pose proof (sstep_tidy dir o st (w, s) (scall_op c) Ht) as Ht'. rewrite Hs in Ht'. cbn [snd] in Ht'.
  pose proof Hsh as [Hsn Hse].
  destruct c as [e l|u|u|u v l|u v]; cbn [scall_op sstep astep] in *.
  - destruct (store_add _ _ _ _ _ _) as [r0 x0] eqn:E. injection Hs as <- <-.
    specialize (Hsn (ge_uid e)) as Hk. destruct (a_ents a !! uid_string (ge_uid e)) as [y|] eqn:Ey.
    + destruct Hk as (n&Hn&_). injection Ha as <- <-.
      destruct (store_add_known _ _ _ _ _ _ _ _ _ _ Ht Hn E) as [[-> ->]|[-> Hx]].
      * right. eauto.
      * left. rewrite Hx. done.
    + injection Ha as <- <-. destruct (store_add_new _ _ _ _ _ _ _ _ _ Ht Hk E) as [[-> ->]|(->&Hu&n&Hns&Hnode&_&Hedge)].
      * right. eauto.
      * left. split; [done|]. split; [|done]. split.
        -- intros u. cbn [a_ents]. rewrite Hnode. unfold same_text. case_bool_decide as Hu'.
           ++ rewrite Hu', lookup_insert. eauto.
           ++ rewrite lookup_insert_ne by congruence. apply Hsn.
        -- intros u v. cbn [a_links]. specialize (Hse u v).
           destruct (a_links a !! _) as [oa|].
           ++ destruct Hse as (e1&He1&?). exists e1. rewrite Hedge. done.
           ++ intros e1. rewrite Hedge. apply Hse.
  - left. injection Hs as <- <-. injection Ha as <- <-. cbn [snd]. split; [|done].
    specialize (Hsn u). unfold store_get. destruct (a_ents a !! uid_string u) as [y|].
    + destruct Hsn as (n&Hn&Hsh'). by rewrite Hn.
    + by rewrite Hsn.
  - left. destruct (store_delete s u) as [r0 s0] eqn:E. injection Hs as <- <-. injection Ha as <- <-.
    unfold store_delete in E. destruct (wg_remove_node (s_g s) u) as [r1 g1] eqn:E1.
    injection E as <- <-. cbn [snd s_g s_uid] in *.
    destruct (c08_remove_node _ _ _ _ _ Hr Hc E1) as (->&Hn&_&He&_).
    split; [done|]. split; [|done]. split.
    + intros x. cbn [a_ents]. rewrite Hn. unfold same_text. case_bool_decide as Hx.
      * by rewrite Hx, lookup_delete.
      * rewrite lookup_delete_ne by congruence. apply Hsn.
    + intros x y. cbn [a_links]. rewrite He. unfold same_text. specialize (Hse x y).
      destruct (decide (uid_string x = uid_string u \/ uid_string y = uid_string u)) as [Hd|Hd].
      * rewrite bool_decide_true by done.
        destruct (filter _ (a_links a) !! _) as [oa|] eqn:Ef; [|done].
        apply map_filter_lookup_Some in Ef as [_ Hf]. destruct Hf. naive_solver.
      * rewrite bool_decide_false by done.
        destruct (a_links a !! (uid_string x, uid_string y)) as [oa|] eqn:El.
        -- assert (filter (fun '(x0, y0, _) => x0 <> uid_string u /\ y0 <> uid_string u) (a_links a) !!
             (uid_string x, uid_string y) = Some oa) as ->; [|done].
           apply map_filter_lookup_Some. split; [done|]. naive_solver.
        -- assert (filter (fun '(x0, y0, _) => x0 <> uid_string u /\ y0 <> uid_string u) (a_links a) !!
             (uid_string x, uid_string y) = None) as ->; [|done].
           apply map_filter_lookup_None. by left.
  - left. destruct (store_link _ _ _ _ _) as [r0 x0] eqn:E. injection Hs as <- <-.
    unfold store_link in E. rewrite store_opts_last in E. cbn [so_attrs] in E.
    set (oa := default None (last_set store_attrs_of l)) in *.
    destruct (wg_link w (s_g s) u v [graph_with_attrs oa]) as [r1 [w1 g1]] eqn:E1.
    injection E as <- <-. cbn [snd s_g s_uid] in *.
    pose proof (c06_link dir (s_g s) w u v [GAttrs oa] r1 w1 g1 Hr Hc E1) as H6.
    pose proof (Hsn u) as Hu. pose proof (Hsn v) as Hv.
    destruct (a_ents a !! uid_string u) as [xu|].
    2:{ rewrite Hu in H6. destruct H6 as (->&->&->). injection Ha as <- <-. done. }
    destruct Hu as (nu&Hnu&_). rewrite Hnu in H6.
    destruct (a_ents a !! uid_string v) as [xv|].
    2:{ rewrite Hv in H6. destruct H6 as (->&->&->). injection Ha as <- <-. done. }
    destruct Hv as (nv&Hnv&_). rewrite Hnv in H6.
    specialize (Hse u v) as Huv. destruct (decide (uid_string u = uid_string v)) as [Heq|Hneq].
    { rewrite bool_decide_true in Ha by done. injection Ha as <- <-.
      rewrite (wg_link_cases dir) in E1 by (by apply reach_base). rewrite Hnu, Hnv in E1.
      assert (nu = nv) as <- by (unfold wg_node in *; rewrite Heq in Hnu; congruence).
      destruct (link_commit_self w (s_g s) nu nu [graph_with_attrs oa] eq_refl) as [w2 Hw2]. rewrite Hw2 in E1.
      destruct (wg_edge (s_g s) u v) as [e| |] eqn:Ee.
      - by apply (no_self_edge dir) in Ee.
      - injection E1 as <- <- <-. done.
      - injection E1 as <- <- <-. done. }
    rewrite bool_decide_false in Ha by done.
    destruct (a_links a !! (uid_string u, uid_string v)) as [ob|] eqn:Eob.
    { destruct Huv as (e1&He1&_). rewrite He1 in H6. destruct H6 as (->&->&->). injection Ha as <- <-. done. }
    injection Ha as <- <-.
    assert (H6' : exists e, r1 = Ok e /\ requested_edge w w1 nu nv [GAttrs oa] e /\
              (forall x y, wg_edge g1 x y =
                 if bool_decide (same_text x u /\ same_text y v) then Ok e
                 else if bool_decide (same_ends dir x y u v) then Ok (edge_reversed e)
                 else wg_edge (s_g s) x y) /\ (forall x, wg_node g1 x = wg_node (s_g s) x)).
    { destruct (wg_edge (s_g s) u v) as [e| |]; [by destruct (Huv e)| |];
        destruct (H6 Hneq) as (e1&?&?&?&?&_); by exists e1. }
    destruct H6' as (e&->&(Hf&Hto&Hw&Hat&_)&Hed&Hno). cbn in Hw, Hat.
    split; [done|]. split; [|done]. split; [intros x; cbn [a_ents]; rewrite Hno; apply Hsn|].
    intros x y. cbn [a_links]. rewrite foldr_insert_lookup, Hed.
    assert (Hatt : forall b, oa = Some b -> ed_attrs e = b) by (intros b Hb; by rewrite Hb in Hat).
    destruct (decide (same_ends dir x y u v)) as [Hends|Hends].
    + rewrite bool_decide_true by (by apply link_pairs_iff).
      destruct (decide (same_text x u /\ same_text y v)) as [Hxy|Hxy].
      * rewrite bool_decide_true by done. exists e. done.
      * rewrite bool_decide_false by done. rewrite bool_decide_true by done. exists (edge_reversed e). done.
    + rewrite bool_decide_false by (by rewrite link_pairs_iff).
      rewrite bool_decide_false by (intros ?; apply Hends; by left).
      rewrite bool_decide_false by done. apply Hse.
  - left. destruct (store_unlink s u v) as [r0 s0] eqn:E. injection Hs as <- <-. injection Ha as <- <-.
    unfold store_unlink in E. destruct (wg_unlink (s_g s) u v) as [r1 g1] eqn:E1.
    injection E as <- <-. cbn [snd s_g s_uid] in *.
    destruct (c07_unlink _ _ _ _ _ _ Hr Hc E1) as (->&He&Hn&_).
    split; [done|]. split; [|done]. split.
    + intros x. cbn [a_ents]. rewrite Hn. apply Hsn.
    + intros x y. cbn [a_links]. rewrite foldr_delete_lookup, He. specialize (Hse x y).
      destruct (decide (same_ends dir x y u v)) as [Hends|Hends].
      * rewrite !bool_decide_true; [|done|by apply link_pairs_iff].
        by destruct (wg_edge (s_g s) x y).
      * rewrite !bool_decide_false; [done|done|by rewrite link_pairs_iff].
Qed.

(** ** id capacity: after k Adds at most k ids are in use and all are below k *)
Definition cap (k : Z) (g : wg) : Prop :=
  (Z.of_nat (size (b_nodes (g_b g))) <= k)%Z /\ (is_max (b_ids (g_b g)) < k)%Z /\ (0 <= k)%Z /\
  forall i : Z, i ∈ is_free (b_ids (g_b g)) -> (i <= is_max (b_ids (g_b g)))%Z.
Lemma cap_mono k k' g : (k <= k')%Z -> cap k g -> cap k' g.
Proof. intros ? (?&?&?&?). split_and!; [lia|lia|lia|done]. Qed.

Lemma cap_new (dir : bool) w opts : cap 0 (if dir then (new_wdg w opts).1 else (new_wug w opts).1).
Proof.
  assert (Hb : exists d x y, g_b (if dir then (new_wdg w opts).1 else (new_wug w opts).1) = builder_new d x y).
  { unfold new_wdg, new_wug, new_wg. destruct dir; destruct (uid_or_new _ _); do 3 eexists; reflexivity. }
  destruct Hb as (d&x&y&Hb). unfold cap. rewrite Hb. cbn. split_and!; try done.
Qed.

Lemma new_id_le o st b k i :
  (is_max (b_ids b) < k)%Z -> (0 <= k)%Z -> (forall i : Z, i ∈ is_free (b_ids b) -> (i <= is_max (b_ids b))%Z) ->
  b_new_node_id o st b = Ok i -> (i <= k)%Z.
Proof.
  intros Hm Hk Hf. unfold b_new_node_id. case_bool_decide; [intros [= <-]; lia|]. case_bool_decide; [done|].
  unfold idset_new_id. destruct (shuffle o st (elements (is_free (b_ids b)))) as [|j js] eqn:E.
  - case_bool_decide; [done|]. intros [= <-]. lia.
  - intros [= <-]. assert (j ∈ is_free (b_ids b)) as Hj.
    { apply elem_of_elements. rewrite <- (shuffle_perm o _ st (elements _)), E. left. }
    apply Hf in Hj. lia.
Qed.

Lemma cap_add dir k o st w s e opts r x :
  tidy dir (s_g s) -> cap k (s_g s) -> (k < max_int64)%Z -> store_add o st w s e opts = (r, x) ->
  r <> Panic PNoSlot /\ cap (k + 1) (s_g x.2).
Proof.
  intros Ht (Hs&Hm&Hk&Hf) Hlt H. destruct (tidy_inv _ _ Ht) as (_&[Hx1 _]&_). unfold store_add in H.
  set (go := [graph_with_attrs (so_attrs (apply_opts store_opts_zero opts))]) in *.
  pose proof (b_new_node_id_panic o st (g_b (s_g s))) as Hp.
  destruct (b_new_node_id o st (g_b (s_g s))) as [i| |] eqn:Ei; [|done|lia].
  pose proof (new_id_le _ _ _ _ _ Hm Hk Hf Ei) as Hi.
  assert (Hadd : forall n up r1 g1, (n_id n <= k)%Z \/ n_id n ∈ dom (b_nodes (g_b (s_g s))) ->
     addnode_commit (s_g s) n up = (r1, g1) -> r1 <> Panic PNoSlot /\ cap (k + 1) g1).
  { assert (Hc : cap k (s_g s)) by done. intros n up r1 g1 Hn. unfold addnode_commit.
    destruct (b_nodes (g_b (s_g s)) !! n_id n) as [m|] eqn:Em.
    - destruct (g_nodes (s_g s) !! n_key n); [destruct up|]; intros [= <- <-]; (split; [done|]);
        apply (cap_mono k); try lia; exact Hc.
    - destruct (b_add_node_ok _ _ Em) as (b'&Eb&_&Hn'&_&_&_&_&Hids). rewrite Eb. intros [= <- <-]. split; [done|].
      destruct Hn as [Hn|Hn]; [|apply elem_of_dom in Hn as [? ?]; congruence].
      unfold cap. cbn [g_b wg_set_nodes wg_set_b]. rewrite Hn', Hids. rewrite map_size_insert_None by done.
      cbn. split; [lia|]. split; [case_bool_decide; lia|]. split; [lia|].
      intros j Hj. apply elem_of_difference in Hj as [Hj _]. apply Hf in Hj. case_bool_decide; lia. }
  unfold wg_new_node, newnode_id in H. rewrite Ei in H. cbn [rbind] in H.
  destruct (mem_new_node w i e go) as [n0 w1] eqn:En.
  assert (Hn0 : n_id n0 = i).
  { unfold mem_new_node in En. destruct (attrs_or_new _ _) as [a w2]. by injection En as <- <-. }
  set (n := newnode_lookup (s_g s) n0) in *.
  assert (Hok : (n_id n <= k)%Z \/ n_id n ∈ dom (b_nodes (g_b (s_g s)))).
  { unfold n, newnode_lookup. destruct (g_nodes (s_g s) !! n_key n0) as [m|] eqn:Em; simpl; [|left; lia].
    right. apply elem_of_dom. exists m. by eapply Hx1. }
  destruct (so_upsert _).
    + destruct (wg_add_node _ _ _) as [r1 g1] eqn:Ea. cbn [wg_add_node] in Ea. injection H as <- <-.
      apply Hadd in Ea; done.
    + destruct (wg_add_node _ _ _) as [r1 g1] eqn:Ea. cbn [wg_add_node] in Ea. injection H as <- <-.
      apply Hadd in Ea as [? ?]; [|done]. split; [|done]. destruct r1; simpl; try done. by case_bool_decide.
Qed.

Lemma cap_remove dir k g u : tidy dir g -> cap k g -> cap k (wg_remove_node g u).2.
Proof.
  intros Ht (Hs&Hm&Hk&Hf). destruct (tidy_inv _ _ Ht) as ((Hd&Hb&_)&[Hx1 _]&_).
  unfold wg_remove_node. destruct (g_nodes g !! uid_string u) as [n|] eqn:En; [|done]. simpl.
  pose proof (Hx1 _ _ En) as Hn.
  destruct (b_remove_node_ok _ (n_id n) Hb) as (_&Hn'&_&_&_&_&Hi). rewrite Hn in Hi.
  unfold cap, removenode_commit. cbn [g_b wg_set_nodes wg_set_b]. rewrite Hn', Hi. cbn.
  split; [rewrite map_size_delete, Hn; lia|]. split; [done|]. split; [done|].
  intros i. rewrite elem_of_union, elem_of_singleton. intros [->|H]; [|by apply Hf].
  apply (bw_max _ Hb). rewrite (bw_used _ Hb). by apply elem_of_dom_2 in Hn.
Qed.
Lemma cap_unlink dir k g u v : tidy dir g -> cap k g -> cap k (wg_unlink g u v).2.
Proof.
  intros Ht Hc. destruct (tidy_inv _ _ Ht) as ((Hd&Hb&_)&_).
  unfold wg_unlink. destruct (g_nodes g !! uid_string u) as [n|]; [|done].
  destruct (g_nodes g !! uid_string v) as [m|]; [|done]. simpl.
  destruct (b_remove_edge_ok _ (n_id n) (n_id m) Hb) as (_&Hn'&Hi&_).
  unfold cap, unlink_commit. cbn [g_b wg_set_b]. by rewrite Hn', Hi.
Qed.
Lemma cap_link dir k w g u v opts : tidy dir g -> cap k g -> cap k (wg_link w g u v opts).2.2.
Proof.
  intros Ht Hc. destruct (tidy_inv _ _ Ht) as (Hbase&[Hx1 _]&_).
  rewrite (wg_link_cases dir) by done.
  destruct (wg_node_total g u) as [[a Ha]|Ha]; rewrite Ha; [|done].
  destruct (wg_node_total g v) as [[b Hb']|Hb']; rewrite Hb'; [|done].
  apply wg_node_Ok, Hx1 in Ha. apply wg_node_Ok, Hx1 in Hb'.
  assert (Hcap : cap k (link_commit w g a b opts).2.2).
  { unfold link_commit. destruct (new_edge w a b opts) as [e w1] eqn:E.
    destruct (new_edge_ends _ _ _ _ _ _ E) as [Hf Ht'].
    unfold b_set_edge. case_bool_decide as Hne; [done|].
    rewrite !b_put_node_eq. cbn [b_nodes b_ids b_dir]. rewrite Hf, Ht', Ha in *.
    rewrite (insert_id (b_nodes (g_b g)) (n_id a)) by done. rewrite Hb'. rewrite insert_id by done.
    destruct (b_dir (g_b g)); exact Hc. }
  destruct (wg_edge g u v); done.
Qed.
Lemma cap_step dir k o st w s c r x :
  tidy dir (s_g s) -> cap k (s_g s) -> (k < max_int64)%Z ->
  sstep o st (w, s) (scall_op c) = (r, x) -> r <> SRUnit (Panic PNoSlot) /\ cap (k + 1) (s_g x.2).
Proof.
  intros Ht Hc Hk H.
  destruct c as [e l|u|u|u v l|u v]; cbn [scall_op sstep] in H.
  - destruct (store_add _ _ _ _ _ _) as [r0 x0] eqn:E. injection H as <- <-.
    destruct (cap_add dir k _ _ _ _ _ _ _ _ Ht Hc Hk E). split; [congruence|done].
  - injection H as <- <-. split; [done|]. by apply (cap_mono k); [lia|].
  - pose proof (cap_remove dir k _ u Ht Hc) as Hc'. unfold store_delete in H.
    unfold wg_remove_node in *. destruct (g_nodes (s_g s) !! uid_string u); injection H as <- <-;
      (split; [done|]); by apply (cap_mono k); [lia|].
  - pose proof (cap_link dir k w _ u v
      [graph_with_attrs (so_attrs (apply_opts store_opts_zero (store_den <$> l)))] Ht Hc) as Hc'.
    unfold store_link in H. rewrite (wg_link_cases dir) in H, Hc' by (by apply reach_base, tidy_reach).
    assert (Hp : forall n m opts, (link_commit w (s_g s) n m opts).1 <> Panic PNoSlot).
    { intros n m opts. unfold link_commit. destruct (new_edge _ _ _ _) as [e w1]. unfold b_set_edge.
      by case_bool_decide. }
    destruct (wg_node_total (s_g s) u) as [[a Ha]|Ha]; rewrite Ha in *;
      [|injection H as <- <-; split; [done|]; by apply (cap_mono k); [lia|]].
    destruct (wg_node_total (s_g s) v) as [[b Hb']|Hb']; rewrite Hb' in *;
      [|injection H as <- <-; split; [done|]; by apply (cap_mono k); [lia|]].
    set (go := [graph_with_attrs _]) in *. specialize (Hp a b go).
    destruct (wg_edge (s_g s) u v) as [e|e|p];
      [injection H as <- <-; split; [done|]; by apply (cap_mono k); [lia|]| |];
      (destruct (link_commit w (s_g s) a b go) as [r1 [w1 g1]]; injection H as <- <-;
       cbn in Hp, Hc'; split; [|by apply (cap_mono k); [lia|]]; destruct r1; cbn; try done;
       [case_bool_decide; congruence|congruence]).
  - pose proof (cap_unlink dir k _ u v Ht Hc) as Hc'. unfold store_unlink in H.
    unfold wg_unlink in *. destruct (g_nodes (s_g s) !! uid_string u), (g_nodes (s_g s) !! uid_string v);
      injection H as <- <-; (split; [done|]); by apply (cap_mono k); [lia|].
Qed.
