(** SubGraph. *)
From Verif.Model Require Import Graph.
From Verif.Spec Require Import GraphSpec SubSpec.
From Verif.Proof Require Import AttrsP GonumP BfsP GraphP GraphP2.

(** ** paths and walks *)
Lemma path_bpath g u r :
  bwf (g_b g) -> gkey g -> gwf g -> wg_node g u = Ok r ->
  forall k v, path g u k v <-> exists m, wg_node g v = Ok m /\ bpath (g_b g) (n_id r) k (n_id m).
Proof.
  intros Hb Hk [Hw1 Hw2] Hr k. induction k as [|k IH]; intros v; split.
  - intros Hp. inversion Hp as [? Hkn Ht|]; subst. exists r. split; [|constructor].
    unfold wg_node in *. unfold same_text in Ht. by rewrite Ht.
  - intros (m&Hm&Hp). inversion Hp as [Hid|]; subst. constructor; [by exists r|].
    rewrite <- (id_text g v u m r); [done|by split|done|done].
  - intros Hp. inversion Hp as [|k' x y e Hp' He]; subst. apply IH in Hp' as (m&Hm&Hp').
    rewrite wg_edge_cases, Hm in He. destruct (wg_node g v) as [m'| |] eqn:Hm'; [|done..].
    exists m'. split; [done|]. eapply bpath_step; [exact Hp'|].
    destruct (b_weighted_edge (g_b g) (n_id m) (n_id m')) as [e'|] eqn:Ee; [|done].
    unfold b_weighted_edge in Ee. by destruct (adj_get (b_from (g_b g)) (n_id m) (n_id m')).
  - intros (m&Hm&Hp). inversion Hp as [|k' y z Hp' Ha]; subst. destruct Ha as [e He].
    destruct (bw_edge _ Hb _ _ _ He) as (_&[ny Hy]&_). destruct (Hw2 _ _ Hy) as (my&Hmy&Hid).
    assert (Hpy : path g u k (n_uid ny)).
    { apply IH. exists my. split; [by apply wg_node_Ok|]. by rewrite Hid. }
    assert (Hed : exists e', wg_edge g (n_uid ny) v = Ok e').
    { rewrite wg_edge_cases, Hm. unfold wg_node. fold (n_key ny). rewrite Hmy, Hid.
      unfold b_weighted_edge. rewrite He. destruct (b_dir (g_b g)); [eauto|].
      case_bool_decide; eauto. }
    destruct Hed as [e' He']. by eapply path_step.
Qed.

(** ** nodes of the subgraph *)
Lemma nodup_keys (l : list node) :
  NoDup (ids l) -> (forall n m, n ∈ l -> m ∈ l -> n_key n = n_key m -> n_id n = n_id m) ->
  NoDup (n_key <$> l).
Proof.
  induction l as [|n l IH]; intros Hnd Hk; [constructor|].
  unfold ids in *. rewrite fmap_cons in *. apply NoDup_cons in Hnd as [Hn Hnd]. apply NoDup_cons. split.
  - intros Hin. apply elem_of_list_fmap in Hin as (m&Em&Hm). apply Hn.
    rewrite (Hk n m); [by apply elem_of_ids|by left|by right|done].
  - apply IH; [done|]. intros a b Ha Hb. apply Hk; by right.
Qed.

Lemma visit_all order : forall sg sgn,
  reach true sg -> gexact sg -> (forall x y, adj_get (b_from (g_b sg)) x y = None) ->
  sgn = b_nodes (g_b sg) ->
  NoDup (ids order) -> NoDup (n_key <$> order) ->
  (forall n, n ∈ order -> b_nodes (g_b sg) !! n_id n = None /\ g_nodes sg !! n_key n = None) ->
  exists sg', fold_left sub_visit order (sg, sgn, None) = (sg', b_nodes (g_b sg'), None) /\
    reach true sg' /\ gexact sg' /\ (forall x y, adj_get (b_from (g_b sg')) x y = None) /\
    g_uid sg' = g_uid sg /\ g_dotid sg' = g_dotid sg /\ g_dot sg' = g_dot sg /\
    (forall i n, b_nodes (g_b sg') !! i = Some n <->
       b_nodes (g_b sg) !! i = Some n \/ (n ∈ order /\ n_id n = i)).
Proof.
  induction order as [|n order IH]; intros sg sgn Hr [Hx1 Hx2] Hadj Hsgn Hnd Hkd Hfr.
  - exists sg. cbn. subst. split_and!; try done. intros i m. split; [by left|].
    intros [?|[Hin _]]; [done|]. by apply elem_of_nil in Hin.
  - destruct (Hfr n) as [Hf1 Hf2]; [by left|].
    unfold ids in Hnd. rewrite fmap_cons in Hnd. rewrite fmap_cons in Hkd. apply NoDup_cons in Hnd as [Hn Hnd].
    apply NoDup_cons in Hkd as [Hkn Hkd].
    destruct (b_add_node_ok _ _ Hf1) as (b'&Hb'&Hd'&Hn'&Hfrom&_).
    set (sg1 := wg_set_nodes (wg_set_b sg b') (<[n_key n:=n]> (g_nodes sg))).
    assert (Hadd : wg_add_node sg (MemNode n) [] = (Ok (), sg1)).
    { cbn. unfold addnode_commit. by rewrite Hf1, Hb'. }
    cbn [fold_left]. unfold sub_visit at 2. rewrite Hadd.
    destruct (IH sg1 (<[n_id n:=n]> sgn)) as (sg'&E&H1&H2&H3&H4&H5&H6&H7).
    + pose proof (reach_step true iter_id [] (World ∅ 0 (fun _ => ""%string) 0) sg (GAddNode (MemNode n) []) Hr) as H.
      cbn [gstep] in H. by rewrite Hadd in H.
    + split; unfold sg1; cbn; rewrite Hn'.
      * intros k m. rewrite lookup_insert_Some. intros [[<- <-]|[Hne Hm]]; [by rewrite lookup_insert|].
        pose proof (Hx1 _ _ Hm) as H. rewrite lookup_insert_ne; [done|]. intros E. rewrite E in Hf1. congruence.
      * intros i m. rewrite lookup_insert_Some. intros [[<- <-]|[Hne Hm]]; [by rewrite lookup_insert|].
        pose proof (Hx2 _ _ Hm) as H. rewrite lookup_insert_ne; [done|]. intros E. rewrite E in Hf2. congruence.
    + intros x y. unfold sg1; cbn. rewrite Hfrom. apply Hadj.
    + unfold sg1; cbn. by rewrite Hn', Hsgn.
    + done.
    + done.
    + intros m Hm. unfold sg1; cbn. destruct (Hfr m) as [Hm1 Hm2]; [by right|]. rewrite Hn'. split.
      * rewrite lookup_insert_ne; [done|]. intros E. apply Hn. rewrite E. by apply elem_of_ids.
      * rewrite lookup_insert_ne; [done|]. intros E. apply Hkn. rewrite E. apply elem_of_list_fmap. eauto.
    + exists sg'. split; [done|]. split_and!; try done. intros i m. rewrite H7. unfold sg1; cbn.
      rewrite Hn', lookup_insert_Some, elem_of_cons. split.
      * intros [[[<- <-]|[_ ?]]|[? ?]]; auto.
      * intros [Hm|[[->|Hm] Hi]]; [|left; by left|by right].
        left. right. split; [|done]. intros E1. rewrite E1 in Hf1. congruence.
Qed.

(** ** edges of the subgraph *)
Definition wframe (w w' : world) : Prop :=
  (w_next w <= w_next w')%N /\ forall x, (x < w_next w)%N -> attrs_map w' x = attrs_map w x.
Lemma wframe_refl w : wframe w w.
Proof. split; [lia|done]. Qed.
Lemma wframe_trans w1 w2 w3 : wframe w1 w2 -> wframe w2 w3 -> wframe w1 w3.
Proof.
  intros [H1 H2] [H3 H4]. split; [lia|]. intros x Hx. rewrite H4 by lia. by apply H2.
Qed.

(** an edge of the subgraph was copied from [e0] *)
Definition copied (w0 w : world) (e0 e : edge) : Prop :=
  ed_weight e = ed_weight e0 /\
  ((ed_attrs e0 < w_next w0)%N -> attrs_map w (ed_attrs e) = attrs_map w0 (ed_attrs e0)) /\
  (w_next w0 <= ed_attrs e < w_next w)%N.

(** an edge that Edges lists *)
Definition in_b (b : builder) (e : edge) : Prop := adj_get (b_from b) (ends e).1 (ends e).2 = Some e.
(** [src]: the edges that may be copied *)
Record subinv (src : edge -> Prop) (w0 : world) (sg0 : wg) (P : Z -> Z -> Prop) (w : world) (sg : wg) : Prop := {
  si_reach : reach true sg;
  si_exact : gexact sg;
  si_obj : gobj sg;
  si_same : sg = wg_set_b sg0 (g_b sg);
  si_nodes : b_nodes (g_b sg) = b_nodes (g_b sg0);
  si_frame : wframe w0 w;
  si_some : forall i j e, adj_get (b_from (g_b sg)) i j = Some e ->
    P i j /\ exists e0, src e0 /\ copied w0 w e0 e;
  si_none : forall i j, P i j -> is_Some (adj_get (b_from (g_b sg)) i j);
  si_inj : forall i j e i' j' e', adj_get (b_from (g_b sg)) i j = Some e ->
    adj_get (b_from (g_b sg)) i' j' = Some e' -> ed_attrs e = ed_attrs e' -> i = i' /\ j = j';
}.

Lemma subinv_ext src w0 sg0 P Q w sg :
  (forall i j, P i j <-> Q i j) -> subinv src w0 sg0 P w sg -> subinv src w0 sg0 Q w sg.
Proof.
  intros H [H1 H2 H0 H3 H4 H5 H6 H7 H8]. split; try done.
  - intros i j e He. destruct (H6 _ _ _ He) as [? ?]. split; [by apply H|done].
  - intros i j Hq. apply H7. by apply H.
Qed.

Lemma new_edge_sub w f t a x :
  new_edge w f t [graph_with_attrs (Some a); graph_with_weight x] =
  (Edge (UPtr (w_next w) (w_uuid w (w_cnt w))) a f t (w_uuid w (w_cnt w)) x, (uid_new w).2).
Proof. reflexivity. Qed.

Lemma copied_frame w0 w1 w2 e0 e :
  wframe w1 w2 -> copied w0 w1 e0 e -> copied w0 w2 e0 e.
Proof.
  intros [H1 H2] (H3&H4&H5). split; [done|]. split; [|lia]. intros Hlt. rewrite H2 by lia. by apply H4.
Qed.

(** one Link call *)
Lemma sub_link_one (src : edge -> Prop) w0 sg0 P w sg from to e a w1 :
  subinv src w0 sg0 P w sg ->
  b_nodes (g_b sg0) !! n_id from = Some from -> b_nodes (g_b sg0) !! n_id to = Some to ->
  n_id from <> n_id to ->
  src e \/ P (n_id from) (n_id to) ->
  (a, w1) = attrs_alloc w (attrs_map w (ed_attrs e)) ->
  exists e' w2 sg', wg_link w1 sg (n_uid from) (n_uid to) [graph_with_attrs (Some a); graph_with_weight (ed_weight e)]
    = (Ok e', (w2, sg')) /\
    subinv src w0 sg0 (fun i j => P i j \/ (i = n_id from /\ j = n_id to)) w2 sg'.
Proof.
  intros [Hr [Hx1 Hx2] Hobj Hs Hn Hf Hsome Hnone Hinj] Hfrom Hto Hne He Hal.
  pose proof (reach_base _ _ Hr) as Hbase. pose proof Hbase as (Hd&Hb&Hk).
  rewrite <- Hn in Hfrom, Hto.
  assert (Hnf : wg_node sg (n_uid from) = Ok from) by (apply wg_node_Ok; by eapply Hx2).
  assert (Hnt : wg_node sg (n_uid to) = Ok to) by (apply wg_node_Ok; by eapply Hx2).
  assert (Hf1 : wframe w w1).
  { injection Hal as -> ->. split; [cbn; lia|]. intros x Hx.
    pose proof (attrs_map_alloc w (attrs_map w (ed_attrs e)) x) as H. unfold attrs_alloc in H. cbn [snd] in H.
    rewrite H, bool_decide_false; [done|lia]. }
  assert (Ha : a = w_next w) by (injection Hal as -> ->; done).
  assert (Hw1 : (w_next w1 = w_next w + 1)%N) by (injection Hal as -> ->; done).
  assert (Hm1 : (ed_attrs e < w_next w0)%N -> attrs_map w1 a = attrs_map w0 (ed_attrs e)).
  { intros Hlt. injection Hal as -> ->.
    pose proof (attrs_map_alloc w (attrs_map w (ed_attrs e)) (w_next w)) as H. unfold attrs_alloc in H. cbn [snd] in H.
    rewrite H, bool_decide_true by done. by apply Hf. }
  pose proof (reach_step true iter_id [] w1 sg
    (GLink (n_uid from) (n_uid to) [graph_with_attrs (Some a); graph_with_weight (ed_weight e)]) Hr) as Hr'.
  cbn [gstep] in Hr'.
  rewrite (wg_link_cases true) in * by done. rewrite Hnf, Hnt in *.
  pose proof (wg_edge_cases sg (n_uid from) (n_uid to)) as Hcase. rewrite Hnf, Hnt in Hcase.
  destruct (b_weighted_edge (g_b sg) (n_id from) (n_id to)) as [e1|] eqn:Ee; rewrite Hcase in *.
  - exists e1, w1, sg. split; [done|]. cbn in Hr'. split; try done.
    + by eapply wframe_trans.
    + intros i j e2 He2. destruct (Hsome _ _ _ He2) as [? (e0&?&?)]. split; [by left|].
      exists e0. split; [done|]. by eapply copied_frame.
    + intros i j [Hp|[-> ->]]; [by apply Hnone|]. unfold b_weighted_edge in Ee.
      by destruct (adj_get (b_from (g_b sg)) (n_id from) (n_id to)).
  - destruct (link_commit_ok w1 sg from to [graph_with_attrs (Some a); graph_with_weight (ed_weight e)] Hne)
      as (e'&w2&b'&Hnew&Hef&Het&Hl&_&Hd'&Hn'&Hadj).
    destruct He as [He|He].
    2:{ exfalso. destruct (Hnone _ _ He) as [e1 He1]. by rewrite (proj1 (b_weighted_edge_None _ _ _) Ee) in He1. }
    rewrite new_edge_sub in Hnew. injection Hnew as He' Hw2. rewrite Hl in *. cbn in Hr'.
    assert (Hnn : b_nodes b' = b_nodes (g_b sg)).
    { rewrite Hn', (insert_id (b_nodes (g_b sg)) (n_id from) from) by done. by rewrite insert_id. }
    assert (Hf2 : wframe w1 w2). { subst w2. split; [cbn; lia|]. done. }
    exists e', w2, (wg_set_b sg b'). split; [done|]. rewrite Hd in Hadj.
    assert (Hadj' : forall i j, adj_get (b_from b') i j =
      if bool_decide (i = n_id from /\ j = n_id to) then Some e' else adj_get (b_from (g_b sg)) i j).
    { intros i j. rewrite Hadj. apply bool_decide_ext_if. unfold same_pair. naive_solver. }
    assert (Hcopy : copied w0 w2 e e').
    { subst e'. split; [done|]. cbn [ed_attrs]. destruct Hf2 as [Hf2a Hf2b]. destruct Hf as [Hfa Hfb].
      split; [intros Hlt; rewrite Hf2b by lia; by apply Hm1|lia]. }
    split.
    + done.
    + split; cbn; rewrite Hnn; done.
    + intros x y e2. cbn. rewrite Hadj', Hnn. case_bool_decide; [|apply Hobj].
      intros [= <-]. by rewrite Hef, Het.
    + rewrite Hs. done.
    + cbn. by rewrite Hnn.
    + eapply wframe_trans; [done|]. by eapply wframe_trans.
    + intros i j e2. cbn. rewrite Hadj'. case_bool_decide as Hp.
      * intros [= <-]. split; [by right|]. exists e. done.
      * intros He2. destruct (Hsome _ _ _ He2) as [? (e0&?&?)]. split; [by left|].
        exists e0. split; [done|]. eapply copied_frame; [|done]. by eapply wframe_trans.
    + intros i j Hp. cbn. rewrite Hadj'. case_bool_decide; [eauto|]. apply Hnone. naive_solver.
    + intros i j e1 i' j' e2. cbn. rewrite !Hadj'.
      assert (Hnew : forall i j e2, adj_get (b_from (g_b sg)) i j = Some e2 -> ed_attrs e' <> ed_attrs e2).
      { intros i0 j0 e3 H3. destruct (Hsome _ _ _ H3) as [_ (e0&_&_&_&?)]. subst e'. cbn [ed_attrs]. lia. }
      case_bool_decide as Hp1; case_bool_decide as Hp2.
      * destruct Hp1, Hp2. subst. done.
      * intros [= <-] H2 E. by destruct (Hnew _ _ _ H2).
      * intros H2 [= <-] E. by destruct (Hnew _ _ _ H2).
      * apply Hinj.
Qed.

Lemma sub_edges_first o (src : edge -> Prop) w0 sg0 from to :
  b_nodes (g_b sg0) !! n_id from = Some from -> b_nodes (g_b sg0) !! n_id to = Some to ->
  n_id from <> n_id to ->
  forall es st P w sg,
  (forall e, head es = Some e -> src e \/ P (n_id from) (n_id to)) ->
  subinv src w0 sg0 P w sg ->
  exists w' sg', sub_link_edges o st w sg from to es = (Ok (), (w', sg')) /\
    subinv src w0 sg0 (fun i j => P i j \/ (es <> [] /\ i = n_id from /\ j = n_id to)) w' sg'.
Proof.
  intros Hf Ht Hne. induction es as [|e es IH]; intros st P w sg Hes I.
  - exists w, sg. split; [done|]. eapply subinv_ext; [|exact I]. naive_solver.
  - cbn [sub_link_edges]. rewrite new_copy_mem.
    destruct (attrs_alloc w (attrs_map w (ed_attrs e))) as [a w1] eqn:Eal.
    assert (He1 := Hes e eq_refl).
    destruct (sub_link_one src w0 sg0 P w sg from to e a w1 I Hf Ht Hne He1 (eq_sym Eal))
      as (e'&w2&sg'&->&I'). cbn.
    destruct (IH st _ w2 sg' (fun e0 H0 => or_intror (or_intror (conj eq_refl eq_refl))) I') as (w3&sg3&->&I3).
    exists w3, sg3. split; [done|]. eapply subinv_ext; [|exact I3]. intros i j. cbn. naive_solver.
Qed.
Lemma sub_edges_ok o (src : edge -> Prop) w0 sg0 from to :
  b_nodes (g_b sg0) !! n_id from = Some from -> b_nodes (g_b sg0) !! n_id to = Some to ->
  n_id from <> n_id to ->
  forall es st P w sg,
  (forall e, e ∈ es -> src e) ->
  subinv src w0 sg0 P w sg ->
  exists w' sg', sub_link_edges o st w sg from to es = (Ok (), (w', sg')) /\
    subinv src w0 sg0 (fun i j => P i j \/ (es <> [] /\ i = n_id from /\ j = n_id to)) w' sg'.
Proof.
  intros Hf Ht Hne es st P w sg Hes I. apply sub_edges_first; try done.
  intros e He. left. apply Hes. destruct es; [done|]. injection He as ->. left.
Qed.

(** [S] holds of every edge that can be the first one tried for a pair *)
Definition tried_first (o : iter_order) (src : builder) (S : edge -> Prop) : Prop :=
  forall st e, head (b_weighted_edges o (st ++ [0]) src) = Some e -> S e.
Lemma sub_peers_ok o src S w0 sg0 from :
  bwf src -> tried_first o src S -> b_nodes (g_b sg0) !! n_id from = Some from ->
  (forall i n, b_nodes (g_b sg0) !! i = Some n -> n_id n = i) ->
  forall peers st P w sg,
  (forall p, p ∈ peers -> is_Some (adj_get (b_from src) (n_id from) (n_id p))) ->
  subinv S w0 sg0 P w sg ->
  exists w' sg', sub_link_peers o st w src (b_nodes (g_b sg0)) sg from peers = (Ok (), (w', sg')) /\
    subinv S w0 sg0 (fun i j => P i j \/ (i = n_id from /\ j ∈ ids peers /\ is_Some (b_nodes (g_b sg0) !! j))) w' sg'.
Proof.
  intros Hb HS Hf Hid. induction peers as [|p peers IH]; intros st P w sg Hp I.
  - exists w, sg. split; [done|]. eapply subinv_ext; [|exact I]. intros i j. cbn.
    split; [by left|]. intros [?|(_&H&_)]; [done|]. by apply elem_of_nil in H.
  - cbn [sub_link_peers].
    assert (Hp' : forall q, q ∈ peers -> is_Some (adj_get (b_from src) (n_id from) (n_id q))).
    { intros q Hq. apply Hp. by right. }
    destruct (b_nodes (g_b sg0) !! n_id p) as [to|] eqn:Eto.
    + destruct (Hp p) as [e He]; [by left|]. destruct (bw_edge _ Hb _ _ _ He) as (Hne&_).
      pose proof (Hid _ _ Eto) as Hto. 
      destruct (sub_edges_first o S w0 sg0 from to Hf) with
        (es := b_weighted_edges o ((st ++ [length peers]) ++ [0]) src) (st := (st ++ [length peers]) ++ [1])
        (P := P) (w := w) (sg := sg) as (w1&sg1&->&I1).
      * by rewrite Hto.
      * by rewrite Hto.
      * intros e' He'. left. by eapply HS.
      * done.
      * cbn beta iota. destruct (IH st _ w1 sg1 Hp' I1) as (w2&sg2&->&I2). exists w2, sg2. split; [done|].
        eapply subinv_ext; [|exact I2]. intros i j. cbn beta. rewrite Hto.
        assert (Hnil : b_weighted_edges o ((st ++ [length peers]) ++ [0]) src <> []).
        { pose proof (b_weighted_edges_complete o ((st ++ [length peers]) ++ [0]) src _ _ _ Hb He) as H.
          destruct (b_weighted_edges o ((st ++ [length peers]) ++ [0]) src); [by apply elem_of_nil in H|done]. }
        unfold ids. rewrite fmap_cons, elem_of_cons. split.
        -- intros [[?|(_&->&->)]|(->&?&?)]; [by left|right|right].
           ++ split; [done|]. split; [by left|]. eauto.
           ++ split; [done|]. split; [by right|done].
        -- intros [?|(->&[->|?]&?)]; [by left; left|left; right|right]; done.
    + destruct (IH st P w sg Hp' I) as (w2&sg2&->&I2). exists w2, sg2. split; [done|].
      eapply subinv_ext; [|exact I2]. intros i j. cbn beta. unfold ids. rewrite fmap_cons, elem_of_cons. split.
      * intros [?|(->&?&?)]; [by left|right]. split; [done|]. split; [by right|done].
      * intros [?|(->&[->|?]&[m Hm])]; [by left|congruence|right]. split; [done|]. split; [done|eauto].
Qed.

Lemma sub_nodes_ok o src S w0 sg0 :
  bwf src -> tried_first o src S ->
  (forall i n, b_nodes (g_b sg0) !! i = Some n -> n_id n = i) ->
  forall todo st P w sg,
  (forall i n, (i, n) ∈ todo -> b_nodes (g_b sg0) !! i = Some n) ->
  subinv S w0 sg0 P w sg ->
  exists w' sg', sub_link_nodes o st w src (b_nodes (g_b sg0)) sg todo = (Ok (), (w', sg')) /\
    subinv S w0 sg0 (fun i j => P i j \/ (i ∈ todo.*1 /\ is_Some (adj_get (b_from src) i j) /\
                                            is_Some (b_nodes (g_b sg0) !! j))) w' sg'.
Proof.
  intros Hb HS Hid. induction todo as [|[i0 from] todo IH]; intros st P w sg Htodo I.
  - exists w, sg. split; [done|]. eapply subinv_ext; [|exact I]. intros i j. cbn.
    split; [by left|]. intros [?|(H&_)]; [done|]. by apply elem_of_nil in H.
  - cbn [sub_link_nodes].
    destruct (b_from_nodes_ok o ((st ++ [length todo]) ++ [0]) src i0 Hb) as (peers&->&_&Hin).
    assert (Hi0 : b_nodes (g_b sg0) !! i0 = Some from) by (apply Htodo; left).
    pose proof (Hid _ _ Hi0) as Hfid.
    destruct (sub_peers_ok o src S w0 sg0 from Hb HS) with (peers := peers) (st := (st ++ [length todo]) ++ [1])
      (P := P) (w := w) (sg := sg) as (w1&sg1&->&I1); [by rewrite Hfid|done| |done|].
    { intros p Hp. rewrite Hfid. by apply Hin. }
    destruct (IH st _ w1 sg1 (fun i n H => Htodo i n (elem_of_list_further _ _ _ H)) I1) as (w2&sg2&E2&I2).
    cbn. rewrite E2. exists w2, sg2. split; [done|]. eapply subinv_ext; [|exact I2]. intros i j. cbn.
    rewrite elem_of_cons, Hfid.
    assert (Hpeer : j ∈ ids peers <-> is_Some (adj_get (b_from src) i0 j)).
    { unfold ids. rewrite elem_of_list_fmap. split.
      - intros (p&->&Hp). by apply Hin.
      - intros Ha. pose proof Ha as [e He]. destruct (bw_edge _ Hb _ _ _ He) as (_&_&[m Hm]&_).
        exists m. pose proof (bw_id _ Hb _ _ Hm) as Hmid. split; [done|]. apply Hin. rewrite Hmid. done. }
    split.
    + intros [[?|(->&H&?)]|(?&?&?)]; [by left|right|right]; [|auto]. apply Hpeer in H. auto.
    + intros [?|([->|?]&?&?)]; [by left; left|left; right|right]; [|done]. split; [done|]. by rewrite Hpeer.
Qed.

(** ** the whole of SubGraph *)
Lemma subgraph_first dir o st w g u d opts r S :
  tried_first o (g_b g) S -> reach dir g -> gwf g -> wg_node g u = Ok r ->
  exists sg w', wg_subgraph o st w g u d opts = Some (Ok sg, w') /\
    let w1 := (new_wdg w opts).2 in let sg0 := (new_wdg w opts).1 in
    (exists sg1, subinv S w1 sg1
      (fun i j => is_Some (b_nodes (g_b sg) !! i) /\ is_Some (b_nodes (g_b sg) !! j) /\
                  is_Some (adj_get (b_from (g_b g)) i j)) w' sg) /\
    wframe w w1 /\
    g_uid sg = g_uid sg0 /\ g_dotid sg = g_dotid sg0 /\ g_dot sg = g_dot sg0 /\
    (forall i, is_Some (b_nodes (g_b sg) !! i) <->
       exists k, in_radius d k /\ bpath (g_b g) (n_id r) k i) /\
    (forall i n, b_nodes (g_b sg) !! i = Some n -> n = r \/ b_nodes (g_b g) !! i = Some n).
Proof.
  intros HS Hr Hw Hu. pose proof (reach_base _ _ Hr) as (Hd&Hb&Hk).
  assert (Hlook : forall n, n = r \/ b_nodes (g_b g) !! n_id n = Some n ->
     exists m, g_nodes g !! n_key n = Some m /\ n_id m = n_id n).
  { pose proof Hw as [_ Hw2]. intros n [->|Hn]; [|by apply Hw2].
    exists r. apply wg_node_Ok in Hu. rewrite (Hk _ _ Hu). done. }
  unfold wg_subgraph. pose proof Hu as Hu'. apply wg_node_Ok in Hu'. rewrite Hu'.
  destruct (new_wdg w opts) as [sg0 w1] eqn:Enew. cbn zeta. cbn [fst snd].
  assert (Hroot : is_Some (b_nodes (g_b g) !! n_id r)).
  { destruct Hw as [Hw1 _]. destruct (Hw1 _ _ Hu') as (m&Hm&_). eauto. }
  destruct (bfs_walk_ok o (st ++ [0]) (g_b g) r d Hb Hroot) as (order&->&Hnd&Hst&Hball).
  pose proof (new_fields true w opts) as Hnf. cbn zeta in Hnf. rewrite Enew in Hnf. cbn [fst] in Hnf.
  destruct Hnf as [[x Hsb] Hsn].
  destruct (visit_all order sg0 ∅) as (sg1&->&Hr1&Hx1&Hadj1&Hg1&Hg2&Hg3&Hnodes).
  - pose proof (reach_new true w opts) as H. by rewrite Enew in H.
  - split; rewrite ?Hsb, ?Hsn; intros k n H; cbn in H; by rewrite lookup_empty in H.
  - intros a b. by rewrite Hsb.
  - by rewrite Hsb.
  - done.
  - apply nodup_keys; [done|]. intros n m Hn Hm E.
    destruct (Hlook n (Hst n Hn)) as (n'&Hn'&<-). destruct (Hlook m (Hst m Hm)) as (m'&Hm'&<-).
    rewrite E in Hn'. congruence.
  - intros n Hn. by rewrite Hsb, Hsn, !lookup_empty.
  - pose proof (reach_base _ _ Hr1) as (_&Hb1&_).
    assert (Hframe1 : wframe w w1).
    { unfold new_wdg, new_wg in Enew.
      destruct (go_uid (apply_opts graph_opts_zero opts)) as [uu|]; cbn in Enew; injection Enew as _ <-;
        [apply wframe_refl|]. split; [cbn; lia|done]. }
    assert (Hsg1 : forall i n, b_nodes (g_b sg1) !! i = Some n <-> n ∈ order /\ n_id n = i).
    { intros i n. rewrite Hnodes, Hsb. cbn. rewrite lookup_empty. naive_solver. }
    assert (I0 : subinv S w1 sg1 (fun _ _ => False) w1 sg1).
    { split; try done.
      - intros i j e. by rewrite Hadj1.
      - by destruct sg1.
      - intros i j e. by rewrite Hadj1.
      - intros i j e i' j' e'. by rewrite Hadj1. }
    destruct (sub_nodes_ok o (g_b g) S w1 sg1 Hb HS) with (todo := map_range o (st ++ [1]) (b_nodes (g_b sg1)))
      (st := st ++ [2]) (P := fun _ _ : Z => False) (w := w1) (sg := sg1) as (w2&sg2&->&I2).
    + apply (bw_id _ Hb1).
    + intros i n Hin. by apply elem_of_map_range in Hin.
    + done.
    + exists sg2, w2. split; [done|]. pose proof (si_nodes _ _ _ _ _ _ I2) as Hn2.
      pose proof (si_same _ _ _ _ _ _ I2) as Hs2. split.
      { exists sg1. eapply subinv_ext; [|exact I2]. intros i j. cbn. rewrite Hn2.
        assert (Hk1 : i ∈ (map_range o (st ++ [1]) (b_nodes (g_b sg1))).*1 <-> is_Some (b_nodes (g_b sg1) !! i)).
        { rewrite elem_of_list_fmap. split.
          - intros ([i' n]&->&Hin). apply elem_of_map_range in Hin. cbn. eauto.
          - intros [n Hn]. exists (i, n). split; [done|]. by apply elem_of_map_range. }
        rewrite Hk1. split; [intros [[]|(?&?&?)]; auto|]. intros (?&?&?). auto. }
      split; [done|]. rewrite Hs2. cbn. do 3 (split; [done|]). rewrite Hn2. split.
      * intros i. rewrite <- Hball. unfold ids. rewrite elem_of_list_fmap. split.
        -- intros [n Hn]. apply Hsg1 in Hn as [? ?]. eauto.
        -- intros (n&->&Hn). exists n. by apply Hsg1.
      * intros i n Hn. apply Hsg1 in Hn as [Hn <-]. by apply Hst.
Qed.
Lemma subgraph_ok dir o st w g u d opts r :
  reach dir g -> gwf g -> wg_node g u = Ok r ->
  exists sg w', wg_subgraph o st w g u d opts = Some (Ok sg, w') /\
    let w1 := (new_wdg w opts).2 in let sg0 := (new_wdg w opts).1 in
    (exists sg1, subinv (in_b (g_b g)) w1 sg1
      (fun i j => is_Some (b_nodes (g_b sg) !! i) /\ is_Some (b_nodes (g_b sg) !! j) /\
                  is_Some (adj_get (b_from (g_b g)) i j)) w' sg) /\
    wframe w w1 /\
    g_uid sg = g_uid sg0 /\ g_dotid sg = g_dotid sg0 /\ g_dot sg = g_dot sg0 /\
    (forall i, is_Some (b_nodes (g_b sg) !! i) <->
       exists k, in_radius d k /\ bpath (g_b g) (n_id r) k i) /\
    (forall i n, b_nodes (g_b sg) !! i = Some n -> n = r \/ b_nodes (g_b g) !! i = Some n).
Proof.
  intros Hr Hw Hu. apply (subgraph_first dir); try done. pose proof (reach_base _ _ Hr) as (_&Hb&_).
  intros s e He. destruct (b_weighted_edges o (s ++ [0]) (g_b g)) as [|e' es] eqn:E; [done|]. injection He as ->.
  apply (b_weighted_edges_in o (s ++ [0])); [done|]. rewrite E. left.
Qed.

(** ** an order in which a given edge is tried first *)
(** all lists rotated by a, those of the first rows of WeightedEdges by b *)
Definition rot_by (a b : nat) (st : site) : nat :=
  match reverse st with 0 :: 1 :: _ => b | _ => a end.
Program Definition iter_rot (a b : nat) : iter_order :=
  IterOrder (fun _ st l => drop (rot_by a b st) l ++ take (rot_by a b st) l) _.
Next Obligation. intros a b A st l. cbn. rewrite Permutation_app_comm, take_drop. done. Qed.

Lemma rot_row a b st : rot_by a b ((st ++ [0]) ++ [1; 0]) = b.
Proof. unfold rot_by. by rewrite reverse_app. Qed.
Lemma rot_other a b st : rot_by a b ((st ++ [0]) ++ [0]) = a.
Proof. unfold rot_by. by rewrite !reverse_app. Qed.

Lemma map_range_rot {V} a b st (m : gmap Z V) n x v :
  map_to_list m !! n = Some (x, v) -> rot_by a b st = n ->
  exists l, map_range (iter_rot a b) st m = (x, v) :: l.
Proof.
  intros Hn E. unfold map_range. cbn [shuffle iter_rot]. rewrite E, (drop_S _ _ _ Hn). cbn. eauto.
Qed.
Lemma in_map_nth {V} (m : gmap Z V) x v : m !! x = Some v -> exists n, map_to_list m !! n = Some (x, v).
Proof. intros H. apply elem_of_list_lookup. by apply elem_of_map_to_list. Qed.

Lemma some_order_first b e :
  bwf b -> in_b b e -> exists o, tried_first o b (eq e).
Proof.
  intros Hb He. unfold in_b in He. pose proof He as He'. unfold adj_get in He'.
  destruct (b_from b !! (ends e).1) as [row|] eqn:Erow; [|done]. cbn in He'.
  destruct (bw_edge _ Hb _ _ _ He) as (_&[n Hn]&_).
  destruct (in_map_nth _ _ _ He') as [j Hj].
  assert (Ha : exists a, if b_dir b then map_to_list (b_nodes b) !! a = Some ((ends e).1, n)
                         else map_to_list (b_from b) !! a = Some ((ends e).1, row)).
  { destruct (b_dir b); by apply in_map_nth. }
  destruct Ha as [a Ha]. exists (iter_rot a j). intros st e1.
  destruct (map_range_rot a j ((st ++ [0]) ++ [1; 0]) row j _ _ Hj (rot_row a j st)) as [l El].
  unfold b_weighted_edges. destruct (b_dir b).
  - destruct (map_range_rot a j ((st ++ [0]) ++ [0]) _ a _ _ Ha (rot_other a j st)) as [l' El'].
    unfold b_all_nodes. rewrite El'. cbn [fmap list_fmap snd wedges_directed].
    rewrite (bw_id _ Hb _ _ Hn), Erow. cbn [from_option id]. rewrite El. by intros [= <-].
  - destruct (map_range_rot a j ((st ++ [0]) ++ [0]) _ a _ _ Ha (rot_other a j st)) as [l' El'].
    rewrite El'. cbn [fmap list_fmap snd wedges_undirected]. rewrite El. cbn [fmap list_fmap snd dedup_row].
    rewrite bool_decide_false by set_solver. destruct (dedup_row _ _) as [l2 s2]. cbn. by intros [= <-].
Qed.
