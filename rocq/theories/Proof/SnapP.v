(** SubGraph beside calls that leave the graph alone. *)
From Verif.Model Require Import Conc.
From Verif.Spec Require Import GraphSpec SubSpec LinSpec ConcSpec SnapSpec.
From Verif.Proof Require Import AttrsP GonumP BfsP GraphP GraphP2 SubP.

(** ** allocation only *)
Lemma wframe_attrs a w : wframe w (attrs_or_new a w).2.
Proof.
  destruct a; cbn; [apply wframe_refl|]. split; [cbn; lia|]. intros x Hx. unfold attrs_map. cbn.
  rewrite lookup_insert_ne by lia. done.
Qed.
Lemma wframe_node w id e opts : wframe w (mem_new_node w id e opts).2.
Proof.
  unfold mem_new_node. pose proof (wframe_attrs (go_attrs (apply_opts graph_opts_zero opts)) w) as H.
  destruct (attrs_or_new _ w) as [a w1]. exact H.
Qed.
Lemma wframe_uid u w : wframe w (uid_or_new u w).2.
Proof. destruct u; cbn; [apply wframe_refl|]. split; [cbn; lia|done]. Qed.
Lemma wframe_edge w f t opts : wframe w (new_edge w f t opts).2.
Proof.
  unfold new_edge. pose proof (wframe_uid (go_uid (apply_opts graph_opts_zero opts)) w) as H.
  destruct (uid_or_new _ w) as [u0 w1]. case_bool_decide.
  - pose proof (wframe_attrs (go_attrs (apply_opts graph_opts_zero opts)) w1) as H2.
    destruct (attrs_or_new _ w1) as [a w2]. by eapply wframe_trans.
  - destruct (uid_from_string w1 _) as [u w'] eqn:E.
    assert (H1 : wframe w1 w').
    { unfold uid_from_string in E. injection E as _ <-. split; [cbn; lia|done]. }
    pose proof (wframe_attrs (go_attrs (apply_opts graph_opts_zero opts)) w') as H2.
    destruct (attrs_or_new _ w') as [a w2]. eapply wframe_trans; [|exact H2]. by eapply wframe_trans.
Qed.
Lemma wframe_link w g u v opts : wframe w (wg_link w g u v opts).2.1.
Proof.
  unfold wg_link. destruct (link_check g u v) as [[e|[f t]]|x|p]; try apply wframe_refl.
  unfold link_commit. pose proof (wframe_edge w f t opts) as H. destruct (new_edge w f t opts) as [e w1]. cbn in H.
  repeat case_match; exact H.
Qed.
Lemma wframe_sub_edges o from to es : forall st w sg, wframe w (sub_link_edges o st w sg from to es).2.1.
Proof.
  induction es as [|e es IH]; intros st w sg; cbn [sub_link_edges]; [apply wframe_refl|].
  rewrite new_copy_mem. destruct (attrs_alloc w (attrs_map w (ed_attrs e))) as [a w1] eqn:Ea.
  assert (H1 : wframe w w1).
  { unfold attrs_alloc in Ea. injection Ea as _ <-. split; [cbn; lia|]. intros x Hx. unfold attrs_map. cbn.
    rewrite lookup_insert_ne by lia. done. }
  pose proof (wframe_link w1 sg (n_uid from) (n_uid to) [graph_with_attrs (Some a); graph_with_weight (ed_weight e)]) as H2.
  destruct (wg_link _ _ _ _ _) as [[e'|x|p] [w2 sg']]; cbn in H2 |- *; [|by eapply wframe_trans..].
  eapply wframe_trans; [exact H1|]. eapply wframe_trans; [exact H2|]. apply IH.
Qed.
Lemma wframe_new w opts : wframe w (new_wdg w opts).2.
Proof.
  destruct (new_wdg w opts) as [sg0 w1] eqn:Enew. unfold new_wdg, new_wg in Enew.
  destruct (go_uid (apply_opts graph_opts_zero opts)) as [uu|]; cbn in Enew; injection Enew as _ <-;
    [apply wframe_refl|]. split; [cbn; lia|done].
Qed.
Lemma subinv_frame src w0 sg0 P w w' sg : wframe w w' -> subinv src w0 sg0 P w sg -> subinv src w0 sg0 P w' sg.
Proof.
  intros F [H1 H2 H0 H3 H4 H5 H6 H7 H8]. split; try done; [by eapply wframe_trans|].
  intros i j e He. destruct (H6 _ _ _ He) as [? (e0&?&?)]. split; [done|]. exists e0. split; [done|]. by eapply copied_frame.
Qed.

(** ** code that keeps the graph [g] and only allocates, run while others only
    allocate: from world w it ends with a result and a world in Q *)
Fixpoint stays {R} (g : wg) (Q : R -> world -> Prop) (p : prog gstate R) (w : world) : Prop :=
  match p with
  | Ret r => Q r w
  | Act u k => forall w1, wframe w w1 ->
      (u (w1, g)).2 = g /\ wframe w1 (u (w1, g)).1 /\ stays g Q (k (w1, g)) (u (w1, g)).1
  | RLock _ k | RUnlock _ k | Lock _ k | LockWait _ k | Unlock _ k => stays g Q k w
  end.
Definition stable {R} (Q : R -> world -> Prop) : Prop := forall r w w', wframe w w' -> Q r w -> Q r w'.
Lemma stays_frame {R} g (Q : R -> world -> Prop) p : stable Q -> forall w w', wframe w w' -> stays g Q p w -> stays g Q p w'.
Proof.
  intros HQ. induction p; cbn [stays]; intros w w' F Hp; eauto.
  intros w1 F1. apply Hp. by eapply wframe_trans.
Qed.
Lemma stays_bind {A B} g (Q : B -> world -> Prop) (p : prog gstate A) f : forall w,
  stays g (fun a w' => stays g Q (f a) w') p w -> stays g Q (pbind p f) w.
Proof.
  induction p; cbn [stays pbind]; intros w Hp; eauto. intros w1 F. destruct (Hp w1 F) as (?&?&?). eauto.
Qed.
Lemma stays_mono {R} g (Q Q' : R -> world -> Prop) p : forall w,
  (forall r w', Q r w' -> Q' r w') -> stays g Q p w -> stays g Q' p w.
Proof. induction p; cbn [stays]; intros w HQ Hp; eauto. intros w1 F. destruct (Hp w1 F) as (?&?&?). eauto. Qed.
Lemma stays_load {R} g (Q : R -> world -> Prop) f w :
  (forall w1, wframe w w1 -> stays g Q (f g) w1) -> stays g Q (pbind gload f) w.
Proof. intros H. cbn. intros w1 F. split; [done|]. split; [apply wframe_refl|]. by apply H. Qed.
Lemma stays_alloc {A R} g (Q : R -> world -> Prop) (h : world -> A * world) f w :
  (forall w1, wframe w w1 -> wframe w1 (h w1).2 /\ stays g Q (f (h w1).1) (h w1).2) -> stays g Q (pbind (galloc h) f) w.
Proof. intros H. cbn. intros w1 F. split; [done|]. by apply H. Qed.

(** ** SubGraph *)
Lemma sub_peers_stays g o w0 sg0 from :
  bwf (g_b g) -> b_nodes (g_b sg0) !! n_id from = Some from ->
  (forall i n, b_nodes (g_b sg0) !! i = Some n -> n_id n = i) ->
  forall peers st P w sg,
  (forall p, p ∈ peers -> is_Some (adj_get (b_from (g_b g)) (n_id from) (n_id p))) ->
  subinv (in_b (g_b g)) w0 sg0 P w sg ->
  stays g (fun r w' => exists sg', r = Ok sg' /\
      subinv (in_b (g_b g)) w0 sg0 (fun i j => P i j \/ (i = n_id from /\ j ∈ ids peers /\ is_Some (b_nodes (g_b sg0) !! j))) w' sg')
    (sub_peers_prog o st (b_nodes (g_b sg0)) sg from peers) w.
Proof.
  intros Hb Hf Hid. induction peers as [|p peers IH]; intros st P w sg Hp I.
  - cbn. exists sg. split; [done|]. eapply subinv_ext; [|exact I]. intros i j. cbn.
    split; [by left|]. intros [?|(_&H&_)]; [done|]. by apply elem_of_nil in H.
  - cbn [sub_peers_prog].
    assert (Hp' : forall q, q ∈ peers -> is_Some (adj_get (b_from (g_b g)) (n_id from) (n_id q))).
    { intros q Hq. apply Hp. by right. }
    destruct (b_nodes (g_b sg0) !! n_id p) as [to|] eqn:Eto.
    + destruct (Hp p) as [e He]; [by left|]. destruct (bw_edge _ Hb _ _ _ He) as (Hne&_).
      pose proof (Hid _ _ Eto) as Hto. cbv zeta. apply stays_load. intros w1 F1. apply stays_alloc. intros w2 F2.
      pose proof (wframe_sub_edges o from to (b_weighted_edges o ((st ++ [length peers]) ++ [0]) (g_b g)) ((st ++ [length peers]) ++ [1]) w2 sg) as Hfr.
      destruct (sub_edges_ok o (in_b (g_b g)) w0 sg0 from to Hf) with
        (es := b_weighted_edges o ((st ++ [length peers]) ++ [0]) (g_b g)) (st := (st ++ [length peers]) ++ [1])
        (P := P) (w := w2) (sg := sg) as (w3&sg1&Ed&I1).
      * by rewrite Hto.
      * by rewrite Hto.
      * intros e' He'. by apply b_weighted_edges_in in He'.
      * eapply subinv_frame; [exact F2|]. by eapply subinv_frame.
      * rewrite Ed in Hfr |- *. cbn [fst snd] in Hfr |- *. split; [done|].
        eapply stays_mono; [|exact (IH st _ w3 sg1 Hp' I1)]. cbn beta. intros r w' (sg2&->&I2). exists sg2. split; [done|].
        eapply subinv_ext; [|exact I2]. intros i j. cbn beta. rewrite Hto.
        assert (Hnil : b_weighted_edges o ((st ++ [length peers]) ++ [0]) (g_b g) <> []).
        { pose proof (b_weighted_edges_complete o ((st ++ [length peers]) ++ [0]) (g_b g) _ _ _ Hb He) as H.
          destruct (b_weighted_edges o ((st ++ [length peers]) ++ [0]) (g_b g)); [by apply elem_of_nil in H|done]. }
        unfold ids. rewrite fmap_cons, elem_of_cons. split.
        -- intros [[?|(_&->&->)]|(->&?&?)]; [by left|right|right].
           ++ split; [done|]. split; [by left|]. eauto.
           ++ split; [done|]. split; [by right|done].
        -- intros [?|(->&[->|?]&?)]; [by left; left|left; right|right]; done.
    + eapply stays_mono; [|exact (IH st P w sg Hp' I)]. cbn beta. intros r w' (sg2&->&I2). exists sg2. split; [done|].
      eapply subinv_ext; [|exact I2]. intros i j. cbn beta. unfold ids. rewrite fmap_cons, elem_of_cons. split.
      * intros [?|(->&?&?)]; [by left|right]. split; [done|]. split; [by right|done].
      * intros [?|(->&[->|?]&[m Hm])]; [by left|congruence|right]. split; [done|]. split; [done|eauto].
Qed.
Lemma sub_nodes_stays g o w0 sg0 :
  bwf (g_b g) ->
  (forall i n, b_nodes (g_b sg0) !! i = Some n -> n_id n = i) ->
  forall todo st P w sg,
  (forall i n, (i, n) ∈ todo -> b_nodes (g_b sg0) !! i = Some n) ->
  subinv (in_b (g_b g)) w0 sg0 P w sg ->
  stays g (fun r w' => exists sg', r = Ok sg' /\
      subinv (in_b (g_b g)) w0 sg0 (fun i j => P i j \/ (i ∈ todo.*1 /\ is_Some (adj_get (b_from (g_b g)) i j) /\
                                            is_Some (b_nodes (g_b sg0) !! j))) w' sg')
    (sub_nodes_prog o st (b_nodes (g_b sg0)) sg todo) w.
Proof.
  intros Hb Hid. induction todo as [|[i0 from] todo IH]; intros st P w sg Htodo I.
  - cbn. exists sg. split; [done|]. eapply subinv_ext; [|exact I]. intros i j. cbn.
    split; [by left|]. intros [?|(H&_)]; [done|]. by apply elem_of_nil in H.
  - cbn [sub_nodes_prog]. cbv zeta. apply stays_load. intros w1 F1.
    destruct (b_from_nodes_ok o ((st ++ [length todo]) ++ [0]) (g_b g) i0 Hb) as (peers&->&_&Hin).
    assert (Hi0 : b_nodes (g_b sg0) !! i0 = Some from) by (apply Htodo; left).
    pose proof (Hid _ _ Hi0) as Hfid. apply stays_bind.
    assert (Hi0' : b_nodes (g_b sg0) !! n_id from = Some from) by (by rewrite Hfid).
    eapply stays_mono; [|apply (sub_peers_stays g o w0 sg0 from Hb Hi0' Hid) with (P := P)].
    2:{ intros p Hp. rewrite Hfid. by apply Hin. }
    2:{ by eapply subinv_frame. }
    cbn beta. intros r w2 (sg1&->&I1).
    eapply stays_mono; [|exact (IH st _ w2 sg1 (fun i n H => Htodo i n (elem_of_list_further _ _ _ H)) I1)].
    cbn beta. intros r w3 (sg2&->&I2). exists sg2. split; [done|]. eapply subinv_ext; [|exact I2]. intros i j. cbn.
    rewrite elem_of_cons, Hfid.
    assert (Hpeer : j ∈ ids peers <-> is_Some (adj_get (b_from (g_b g)) i0 j)).
    { unfold ids. rewrite elem_of_list_fmap. split.
      - intros (p&->&Hp). by apply Hin.
      - intros Ha. pose proof Ha as [e He]. destruct (bw_edge _ Hb _ _ _ He) as (_&_&[m Hm]&_).
        exists m. pose proof (bw_id _ Hb _ _ Hm) as Hmid. split; [done|]. apply Hin. rewrite Hmid. done. }
    split.
    + intros [[?|(->&H&?)]|(?&?&?)]; [by left|right|right]; [|auto]. apply Hpeer in H. auto.
    + intros [?|([->|?]&?&?)]; [by left; left|left; right|right]; [|done]. split; [done|]. by rewrite Hpeer.
Qed.

(** what [subgraph_ok] says of the result, at any later world *)
Definition subres (g : wg) (r : node) (d : Z) (w : world) (w' : world) (sg : wg) : Prop :=
  exists w1 sg1, wframe w w1 /\
    subinv (in_b (g_b g)) w1 sg1
      (fun i j => is_Some (b_nodes (g_b sg) !! i) /\ is_Some (b_nodes (g_b sg) !! j) /\
                  is_Some (adj_get (b_from (g_b g)) i j)) w' sg /\
    (forall i, is_Some (b_nodes (g_b sg) !! i) <->
       exists k, in_radius d k /\ bpath (g_b g) (n_id r) k i) /\
    (forall i n, b_nodes (g_b sg) !! i = Some n -> n = r \/ b_nodes (g_b g) !! i = Some n).
Lemma subres_frame g r d w w' w'' sg : wframe w' w'' -> subres g r d w w' sg -> subres g r d w w'' sg.
Proof. intros F (w1&sg1&?&?&?). exists w1, sg1. split; [done|]. split; [by eapply subinv_frame|done]. Qed.

Lemma subgraph_stays dir o st w g u d opts w2 :
  reach dir g -> gwf g -> wframe w w2 ->
  stays g (fun x w' => match wg_node g u with
                       | Ok r => exists sg, x = Some (Ok sg) /\ subres g r d w w' sg
                       | _ => x = Some (Err GraphErrNodeNotFound)
                       end) (subgraph_prog o st u d opts) w2.
Proof.
  intros Hr Hw Fw. pose proof (reach_base _ _ Hr) as (Hd&Hb&Hk).
  unfold subgraph_prog. cbn [stays]. apply stays_load. intros wa Fa.
  destruct (wg_node_total g u) as [[r Hu]|Hu].
  2:{ pose proof Hu as Hu'. apply wg_node_Err in Hu'. rewrite Hu'. cbn. by rewrite Hu. }
  assert (Hlook : forall n, n = r \/ b_nodes (g_b g) !! n_id n = Some n ->
     exists m, g_nodes g !! n_key n = Some m /\ n_id m = n_id n).
  { pose proof Hw as [_ Hw2]. intros n [->|Hn]; [|by apply Hw2].
    exists r. apply wg_node_Ok in Hu. rewrite (Hk _ _ Hu). done. }
  pose proof Hu as Hu'. apply wg_node_Ok in Hu'. rewrite Hu'. cbn [stays]. apply stays_alloc. intros wb Fb.
  split; [apply wframe_new|]. destruct (new_wdg wb opts) as [sg0 w1] eqn:Enew. cbn [fst snd stays].
  apply stays_load. intros wc Fc. cbv zeta. cbn [stays].
  assert (Hroot : is_Some (b_nodes (g_b g) !! n_id r)).
  { destruct Hw as [Hw1 _]. destruct (Hw1 _ _ Hu') as (m&Hm&_). eauto. }
  destruct (bfs_walk_ok o (st ++ [0]) (g_b g) r d Hb Hroot) as (order&->&Hnd&Hst&Hball).
  pose proof (new_fields true wb opts) as Hnf. cbn zeta in Hnf. rewrite Enew in Hnf. cbn [fst] in Hnf.
  destruct Hnf as [[x Hsb] Hsn].
  destruct (visit_all order sg0 ∅) as (sg1&->&Hr1&Hx1&Hadj1&Hg1&Hg2&Hg3&Hnodes).
  - pose proof (reach_new true wb opts) as H. by rewrite Enew in H.
  - split; rewrite ?Hsb, ?Hsn; intros k n H; cbn in H; by rewrite lookup_empty in H.
  - intros a b. by rewrite Hsb.
  - by rewrite Hsb.
  - done.
  - apply nodup_keys; [done|]. intros n m Hn Hm E.
    destruct (Hlook n (Hst n Hn)) as (n'&Hn'&<-). destruct (Hlook m (Hst m Hm)) as (m'&Hm'&<-).
    rewrite E in Hn'. congruence.
  - intros n Hn. by rewrite Hsb, Hsn, !lookup_empty.
  - pose proof (reach_base _ _ Hr1) as (_&Hb1&_).
    assert (Hframe1 : wframe w wc).
    { pose proof (wframe_new wb opts) as H. rewrite Enew in H. cbn in H.
      eapply wframe_trans; [exact Fw|]. eapply wframe_trans; [exact Fa|]. eapply wframe_trans; [exact Fb|].
      by eapply wframe_trans. }
    assert (Hsg1 : forall i n, b_nodes (g_b sg1) !! i = Some n <-> n ∈ order /\ n_id n = i).
    { intros i n. rewrite Hnodes, Hsb. cbn. rewrite lookup_empty. naive_solver. }
    assert (I0 : subinv (in_b (g_b g)) wc sg1 (fun _ _ => False) wc sg1).
    { split; try done.
      - intros i j e. by rewrite Hadj1.
      - by destruct sg1.
      - intros i j e. by rewrite Hadj1.
      - intros i j e i' j' e'. by rewrite Hadj1. }
    unfold pmap. apply stays_bind. eapply stays_mono;
      [|apply (sub_nodes_stays g o wc sg1 Hb) with (P := fun _ _ : Z => False); [apply (bw_id _ Hb1)| |exact I0]].
    2:{ intros i n Hin. by apply elem_of_map_range in Hin. }
    cbn beta. intros y w3 (sg2&->&I2). cbn [stays]. rewrite Hu. exists sg2. split; [done|].
    pose proof (si_nodes _ _ _ _ _ _ I2) as Hn2. exists wc, sg1. split; [done|]. split.
    { eapply subinv_ext; [|exact I2]. intros i j. cbn. rewrite Hn2.
      assert (Hk1 : i ∈ (map_range o (st ++ [1]) (b_nodes (g_b sg1))).*1 <-> is_Some (b_nodes (g_b sg1) !! i)).
      { rewrite elem_of_list_fmap. split.
        - intros ([i' n]&->&Hin). apply elem_of_map_range in Hin. cbn. eauto.
        - intros [n Hn]. exists (i, n). split; [done|]. by apply elem_of_map_range. }
      rewrite Hk1. split; [intros [[]|(?&?&?)]; auto|]. intros (?&?&?). auto. }
    rewrite Hn2. split.
    + intros i. rewrite <- Hball. unfold ids. rewrite elem_of_list_fmap. split.
      * intros [n Hn]. apply Hsg1 in Hn as [? ?]. eauto.
      * intros (n&->&Hn). exists n. by apply Hsg1.
    + intros i n Hn. apply Hsg1 in Hn as [Hn <-]. by apply Hst.
Qed.

(** ** the result as seen through Node and Edge *)
Lemma ball_nodes dir g u r d sg :
  gbase dir g -> gwf g -> wg_node g u = Ok r -> gbase true sg -> gexact sg ->
  (forall i, is_Some (b_nodes (g_b sg) !! i) <-> exists k, in_radius d k /\ bpath (g_b g) (n_id r) k i) ->
  (forall i n, b_nodes (g_b sg) !! i = Some n -> n = r \/ b_nodes (g_b g) !! i = Some n) ->
  (forall v n, wg_node sg v = Ok n -> exists m, wg_node g v = Ok m /\ n_id m = n_id n) /\
  (forall v, known sg v <-> in_ball g u d v).
Proof.
  intros (Hd&Hb&Hk) Hw Hu (_&Hb'&Hk') [Hx1 Hx2] Hball Hobj.
  assert (Hmatch : forall v n, wg_node sg v = Ok n -> exists m, wg_node g v = Ok m /\ n_id m = n_id n).
  { intros v n Hn. apply wg_node_Ok in Hn. pose proof (Hk' _ _ Hn) as Hkey. pose proof (Hx1 _ _ Hn) as Hbn.
    destruct (Hobj _ _ Hbn) as [->|Hg].
    - exists r. split; [|done]. apply wg_node_Ok in Hu. pose proof (Hk _ _ Hu) as Hku. apply wg_node_Ok.
      rewrite <- Hkey, Hku. done.
    - destruct Hw as [Hw1 Hw2]. destruct (Hw2 _ _ Hg) as (m&Hm&Hi). rewrite Hkey in Hm.
      exists m. split; [by apply wg_node_Ok|done]. }
  split; [exact Hmatch|]. intros v. split.
  + intros [n Hn]. destruct (Hmatch _ _ Hn) as (m&Hm&Hi).
    apply wg_node_Ok in Hn. pose proof (Hx1 _ _ Hn) as Hbn.
    destruct (Hball (n_id n)) as [Hk1 _]. destruct Hk1 as (k&Hrad&Hp); [eauto|].
    exists k. split; [done|]. apply (path_bpath g u r); [done..|]. exists m. by rewrite Hi.
  + intros (k&Hrad&Hp). apply (path_bpath g u r) in Hp as (m&Hm&Hp); [|done..].
    destruct (Hball (n_id m)) as [_ Hk2]. destruct Hk2 as [n Hn]; [eauto|].
    exists n. assert (Hns : wg_node sg (n_uid n) = Ok n) by (apply wg_node_Ok; by eapply Hx2).
    destruct (Hmatch _ _ Hns) as (m'&Hm'&Hi). pose proof (bw_id _ Hb' _ _ Hn) as Hid.
    assert (Htext : same_text (n_uid n) v).
    { apply (id_text g _ _ m' m); [done..|]. congruence. }
    unfold wg_node in *. by rewrite <- Htext.
Qed.
Lemma edge_adj g0 x y a b : wg_node g0 x = Ok a -> wg_node g0 y = Ok b ->
  (exists e, wg_edge g0 x y = Ok e) <-> is_Some (adj_get (b_from (g_b g0)) (n_id a) (n_id b)).
Proof.
  intros Ha Hb0. rewrite wg_edge_cases, Ha, Hb0.
  pose proof (b_weighted_edge_None (g_b g0) (n_id a) (n_id b)) as Hnone.
  destruct (b_weighted_edge (g_b g0) (n_id a) (n_id b)) as [e|].
  - split; [|eauto]. intros _. apply not_eq_None_Some. intros E0. by apply Hnone in E0.
  - split; [by intros [? ?]|]. intros [e He]. by rewrite (proj1 Hnone eq_refl) in He.
Qed.
Lemma subres_snapshot dir g u r d w w' sg :
  reach dir g -> gwf g -> wg_node g u = Ok r -> subres g r d w w' sg -> snapshot g u d sg.
Proof.
  intros Hr Hw Hu (w1&sg1&_&I&Hball&Hobj). pose proof (reach_base _ _ Hr) as Hbase.
  pose proof (reach_base _ _ (si_reach _ _ _ _ _ _ I)) as Hbase'.
  pose proof (si_exact _ _ _ _ _ _ I) as [Hx1 Hx2].
  destruct (ball_nodes dir g u r d sg Hbase Hw Hu Hbase' (conj Hx1 Hx2) Hball Hobj) as [Hmatch Hkn].
  split; [exact Hkn|]. intros x y. rewrite <- !Hkn. split.
  - intros [e He]. pose proof He as He0. rewrite wg_edge_cases in He.
    destruct (wg_node sg x) as [a| |] eqn:Ha; [|done..]. destruct (wg_node sg y) as [b| |] eqn:Hb1; [|done..].
    split; [eexists; exact Ha|]. split; [eexists; exact Hb1|].
    destruct (Hmatch _ _ Ha) as (a'&Ha'&Hai). destruct (Hmatch _ _ Hb1) as (b'&Hb2&Hbi).
    apply (edge_adj g x y a' b'); [done..|]. rewrite Hai, Hbi.
    destruct (proj1 (edge_adj sg x y a b Ha Hb1) (ex_intro _ e He0)) as [e1 He1].
    destruct (si_some _ _ _ _ _ _ I _ _ _ He1) as [(_&_&?) _]. done.
  - intros ([a Ha]&[b Hb1]&He). destruct (Hmatch _ _ Ha) as (a'&Ha'&Hai). destruct (Hmatch _ _ Hb1) as (b'&Hb2&Hbi).
    apply (edge_adj g x y a' b') in He; [|done..]. rewrite Hai, Hbi in He.
    apply (edge_adj sg x y a b); [done..|]. apply (si_none _ _ _ _ _ _ I).
    apply wg_node_Ok in Ha, Hb1. split_and!; [|  |done]; [apply Hx1 in Ha|apply Hx1 in Hb1]; eauto.
Qed.
Lemma subres_content dir g r d w w' sg :
  reach dir g -> subres g r d w w' sg -> (forall e, edge_listed g e -> (ed_attrs e < w_next w)%N) -> same_content w g w' sg.
Proof.
  intros Hr (w1&sg1&[Hf1 Hf2]&I&_) Hat. pose proof (reach_base _ _ Hr) as (Hd&Hb&Hk).
  pose proof (reach_base _ _ (si_reach _ _ _ _ _ _ I)) as (Hd'&Hb'&Hk').
  intros x y e He. rewrite wg_edge_cases in He.
  destruct (wg_node sg x) as [a| |]; [|done..]. destruct (wg_node sg y) as [b| |]; [|done..].
  destruct (b_weighted_edge (g_b sg) (n_id a) (n_id b)) as [e'|] eqn:Ee; [|done]. injection He as ->.
  unfold b_weighted_edge in Ee. destruct (adj_get (b_from (g_b sg)) (n_id a) (n_id b)) as [e1|] eqn:Eadj; [|done].
  rewrite Hd' in Ee. injection Ee as ->.
  destruct (si_some _ _ _ _ _ _ I _ _ _ Eadj) as [_ (e0&He0&Hwt&Hm&_)]. exists e0.
  assert (Hl : edge_listed g e0) by (by apply edge_listed_iff). split; [done|]. split; [done|].
  specialize (Hat _ Hl). rewrite Hm by lia. by apply Hf2.
Qed.

(** ** all calls that leave the graph alone *)
Definition subpost (w : world) (g : wg) (q : gcall) (r : gqret) (w' : world) : Prop :=
  match q.2 with
  | QSubGraph u d _ =>
      match wg_node g u with
      | Ok n => exists sg, r = QRGraph (Some (Ok sg)) /\ subres g n d w w' sg
      | _ => r = QRGraph (Some (Err GraphErrNodeNotFound))
      end
  | _ => True
  end.
Lemma subpost_stable w g q : stable (subpost w g q).
Proof.
  intros r w1 w2 F. unfold subpost. destruct q.2; try done. destruct (wg_node g u); [|done..].
  intros (sg&->&H). exists sg. split; [done|]. by eapply subres_frame.
Qed.
Lemma stays_read {A R} g (Q : R -> world -> Prop) (f : wg -> A) (h : A -> R) w :
  (forall w', wframe w w' -> Q (h (f g)) w') -> stays g Q (pmap h (rlocked 1 (pbind gload (fun g => Ret (f g))))) w.
Proof. intros H. cbn. intros w1 F. split; [done|]. split; [apply wframe_refl|]. by apply H. Qed.
Lemma graph_stays dir o q w g w2 :
  reach dir g -> gwf g -> wframe w w2 ->
  (forall n l, q.2 <> QAddNode n l) -> (forall e l, q.2 <> QCreate e l) -> (forall u, q.2 <> QRemoveNode u) ->
  (forall u v l, q.2 <> QLink u v l) -> (forall u v, q.2 <> QUnlink u v) ->
  stays g (subpost w g q) (graph_prog o q) w2.
Proof.
  intros Hr Hw F H2 H3 H4 H5 H6. destruct q as [st q]; unfold subpost; cbn [graph_prog fst snd] in *.
  destruct q; try solve [exfalso; first [by eapply H2|by eapply H3|by eapply H4|by eapply H5|by eapply H6]];
    try (by apply stays_read).
  - unfold pmap. apply stays_bind. unfold new_node_prog. cbn [stays]. apply stays_load. intros w3 F3.
    cbn [fst]. destruct (newnode_id o st g); [|exact I..]. cbn [stays]. apply stays_alloc. intros w4 F4. split; [apply wframe_node|].
    cbn [stays]. by apply stays_load.
  - unfold pmap. apply stays_bind. eapply stays_mono; [|by apply (subgraph_stays dir o st w g u depth opts w2)].
    cbn beta. intros x w'. destruct (wg_node g u); [|intros ->; done..]. intros (sg&->&H). exists sg. done.
  - unfold pmap. apply stays_bind. unfold dot_prog. cbn [stays]. by apply stays_load.
Qed.

(** ** executions *)
Lemma stays_exec o w g (ok : gcall -> Prop) (Q : gcall -> gqret -> world -> Prop) todo sched c :
  (forall q, stable (Q q)) ->
  (forall q w', ok q -> wframe w w' -> stays g (Q q) (graph_prog o q) w') ->
  (forall l q, l ∈ todo -> q ∈ l -> ok q) ->
  exec (graph_prog o) (conf_init (w, g) todo) sched = Some c ->
  (c_sh c).2 = g /\ wframe w (c_sh c).1 /\ forall q r, answered c q r -> Q q r (c_sh c).1.
Proof.
  intros HQ Hp Hok E.
  set (tinv := fun (w' : world) (t : thread gstate gqret gcall) =>
    (forall q, q ∈ t_todo t -> ok q) /\
    (forall q p, t_cur t = Some (q, p) -> stays g (Q q) p w') /\
    (forall q r, (q, r) ∈ t_done t -> Q q r w')).
  assert (tinv_frame : forall w1 w2 t, wframe w1 w2 -> tinv w1 t -> tinv w2 t).
  { intros w1 w2 t F (T1&T2&T3). split; [done|]. split.
    - intros q p Ec. eapply stays_frame; [apply HQ|exact F|by apply T2].
    - intros q r H. eapply HQ; [exact F|by apply T3]. }
  set (inv := fun c0 : conf gstate gqret gcall =>
    (c_sh c0).2 = g /\ wframe w (c_sh c0).1 /\ forall t, t ∈ c_ths c0 -> tinv (c_sh c0).1 t).
  assert (I : inv c).
  2:{ destruct I as (I1&I2&I3). split; [done|]. split; [done|]. intros q r (t&Ht&Hd). by apply (I3 _ Ht). }
  assert (I0 : inv (conf_init (w, g) todo)).
  { split; [done|]. split; [apply wframe_refl|]. intros t Ht. cbn in Ht. apply elem_of_list_fmap in Ht as (l&->&Hl).
    split; [|split]; cbn; [eauto|done|]. intros q r H. by apply elem_of_nil in H. }
  clear Hok. revert E I0. generalize (conf_init (R := gqret) (w, g) todo).
  induction sched as [|n sched IH]; intros c0 E I0; cbn in E.
  - by injection E as <-.
  - destruct (conf_step (graph_prog o) c0 n) as [c1|] eqn:Es; [|discriminate]. apply (IH c1 E). clear IH E.
    unfold conf_step in Es. destruct (c_ths c0 !! n) as [t|] eqn:Et; [|discriminate].
    destruct (thread_step _ _ _ _) as [[[s' mu'] t']|] eqn:Eh; [|discriminate]. injection Es as <-.
    destruct I0 as (I1&I2&I3). pose proof (I3 t (elem_of_list_lookup_2 _ _ _ Et)) as (T1&T2&T3).
    assert (H : s'.2 = g /\ wframe (c_sh c0).1 s'.1 /\ tinv s'.1 t').
    { unfold thread_step in Eh. destruct (t_cur t) as [[op p]|] eqn:Ec.
      - pose proof (T2 _ _ eq_refl) as Hst.
        destruct (match p with Ret r => Some r | _ => None end) as [r|] eqn:Er.
        { destruct p; try discriminate. injection Eh as <- <- <-. split; [done|]. split; [apply wframe_refl|].
          split; [exact T1|]. split; [done|]. intros q' r' Hin. cbn in Hin.
          apply elem_of_app in Hin as [Hin|Hin]; [by apply T3|]. apply elem_of_list_singleton in Hin.
          injection Hin as -> ->. done. }
        assert (Hm : match prog_step (c_sh c0) (c_mu c0) p with
                     | Some (s1, mu1, p1) => s1.2 = g /\ wframe (c_sh c0).1 s1.1 /\ stays g (Q op) p1 s1.1
                     | None => True end).
        { destruct (c_sh c0) as [w1 g1]. cbn in I1 |- *. subst g1.
          destruct p; cbn in Hst |- *; [done|destruct (Hst w1 (wframe_refl _)) as (A1&A2&A3); done|..].
          - destruct (m_ann (c_mu c0 m)); cbn; [done|]. split; [done|]. split; [apply wframe_refl|done].
          - destruct (m_rd (c_mu c0 m)); cbn; [done|]. split; [done|]. split; [apply wframe_refl|done].
          - destruct (m_ann (c_mu c0 m)); cbn; [done|]. split; [done|]. split; [apply wframe_refl|done].
          - destruct (m_rd (c_mu c0 m)); cbn; [|done]. split; [done|]. split; [apply wframe_refl|done].
          - destruct (m_wr (c_mu c0 m)); cbn; [|done]. split; [done|]. split; [apply wframe_refl|done]. }
        assert (Eh' : match prog_step (c_sh c0) (c_mu c0) p with
                     | Some (s1, mu1, p1) => Some (s1, mu1, Thread (Some (op, p1)) (t_todo t) (t_done t))
                     | None => None end = Some (s', mu', t')).
        { destruct p; try discriminate; exact Eh. }
        clear Eh. destruct (prog_step _ _ p) as [[[s1 mu1] p1]|]; [|discriminate]. injection Eh' as <- <- <-.
        destruct Hm as (A1&A2&A3). split; [done|]. split; [done|]. split; [exact T1|]. split.
        + cbn. by intros q p2 [= <- <-].
        + cbn. intros q r Hin. eapply HQ; [exact A2|]. by apply T3.
      - destruct (t_todo t) as [|op ops] eqn:Eo; [discriminate|]. injection Eh as <- <- <-.
        split; [done|]. split; [apply wframe_refl|]. split; [|split]; cbn.
        + intros q Hq. apply T1. by right.
        + intros q p [= <- <-]. apply Hp; [apply T1; by left|done].
        + exact T3. }
    destruct H as (A1&A2&A3). split; [done|]. split; [by eapply wframe_trans|]. cbn. intros t1 Ht1.
    apply elem_of_list_lookup in Ht1 as [k Hk]. destruct (decide (n = k)) as [<-|N].
    + rewrite list_lookup_insert in Hk by (by eapply lookup_lt_Some). by injection Hk as <-.
    + rewrite list_lookup_insert_ne in Hk by done. eapply tinv_frame; [exact A2|]. apply I3.
      by eapply elem_of_list_lookup_2.
Qed.
