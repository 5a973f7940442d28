(** SubGraph: C11 to C14. *)
From Verif.Model Require Import Graph.
From Verif.Spec Require Import GraphSpec SubSpec.
From Verif.Proof Require Import AttrsP GonumP BfsP GraphP GraphP2 SubP.
From Verif.Props Require Import PGraph.

(** C11.  The subgraph holds exactly the nodes of the ball, as the same objects
    when Node and Nodes agree; an unknown root is refused. *)
Theorem c11_ball :
  forall dir g o st w u d opts, reach dir g -> consistent g ->
    match wg_node g u with
    | Ok _ =>
        exists sg w', wg_subgraph o st w g u d opts = Some (Ok sg, w') /\
          (forall v, known sg v <-> in_ball g u d v) /\
          (forall v n, wg_node sg v = Ok n ->
             exists m, wg_node g v = Ok m /\ n_id m = n_id n /\ (agree g -> m = n)) /\
          reach true sg /\ agree sg /\
          g_uid sg = g_uid (new_wdg w opts).1 /\ g_dotid sg = g_dotid (new_wdg w opts).1 /\
          g_dot sg = g_dot (new_wdg w opts).1
    | _ => wg_subgraph o st w g u d opts = Some (Err GraphErrNodeNotFound, w)
    end.
Proof.
  intros dir g o st w u d opts Hr Hc. pose proof (reach_base _ _ Hr) as (Hd&Hb&Hk).
  pose proof Hc as Hw. apply gwf_consistent in Hw; [|done..].
  destruct (wg_node_total g u) as [[r Hu]|Hu]; rewrite Hu.
  2:{ unfold wg_subgraph. apply wg_node_Err in Hu. by rewrite Hu. }
  destruct (subgraph_ok dir o st w g u d opts r Hr Hw Hu) as (sg&w'&E&[sg1 I]&_&H1&H2&H3&Hball&Hobj).
  exists sg, w'. split; [done|]. pose proof (si_reach _ _ _ _ _ _ I) as Hr'.
  pose proof (reach_base _ _ Hr') as (_&Hb'&Hk'). pose proof (si_exact _ _ _ _ _ _ I) as [Hx1 Hx2].
  (* nodes of the subgraph correspond to nodes of the graph *)
  assert (Hmatch : forall v n, wg_node sg v = Ok n ->
            exists m, wg_node g v = Ok m /\ n_id m = n_id n /\ (agree g -> m = n)).
  { intros v n Hn. apply wg_node_Ok in Hn. pose proof (Hk' _ _ Hn) as Hkey. pose proof (Hx1 _ _ Hn) as Hbn.
    destruct (Hobj _ _ Hbn) as [->|Hg].
    - exists r. split; [|done]. apply wg_node_Ok in Hu. pose proof (Hk _ _ Hu) as Hku. apply wg_node_Ok.
      rewrite <- Hkey, Hku. done.
    - destruct Hw as [Hw1 Hw2]. destruct (Hw2 _ _ Hg) as (m&Hm&Hi). rewrite Hkey in Hm.
      exists m. split; [by apply wg_node_Ok|]. split; [done|]. intros Hag.
      apply gexact_agree in Hag as [_ Ha2]; [|done..]. apply Ha2 in Hg. rewrite Hkey in Hg. congruence. }
  split.
  - intros v. split.
    + intros [n Hn]. destruct (Hmatch _ _ Hn) as (m&Hm&Hi&_).
      apply wg_node_Ok in Hn. pose proof (Hx1 _ _ Hn) as Hbn.
      destruct (Hball (n_id n)) as [Hk1 _]. destruct Hk1 as (k&Hrad&Hp); [eauto|].
      exists k. split; [done|]. apply (path_bpath g u r); [done..|]. exists m. by rewrite Hi.
    + intros (k&Hrad&Hp). apply (path_bpath g u r) in Hp as (m&Hm&Hp); [|done..].
      destruct (Hball (n_id m)) as [_ Hk2]. destruct Hk2 as [n Hn]; [eauto|].
      exists n. assert (Hns : wg_node sg (n_uid n) = Ok n) by (apply wg_node_Ok; by eapply Hx2).
      destruct (Hmatch _ _ Hns) as (m'&Hm'&Hi&_). pose proof (bw_id _ Hb' _ _ Hn) as Hid.
      assert (Htext : same_text (n_uid n) v).
      { apply (id_text g _ _ m' m); [done..|]. congruence. }
      unfold wg_node in *. by rewrite <- Htext.
  - split; [done|]. split; [done|]. split; [|done]. apply gexact_agree; [done..|]. by split.
Qed.
Print Assumptions c11_ball.

(** C12.  Inside the ball the subgraph has exactly the edges of the graph,
    in that direction; its edges join its own nodes. *)
Theorem c12_induced :
  forall dir g o st w u d opts sg w', reach dir g -> consistent g ->
    wg_subgraph o st w g u d opts = Some (Ok sg, w') ->
    (forall x y, (exists e, wg_edge sg x y = Ok e) <->
       in_ball g u d x /\ in_ball g u d y /\ exists e, wg_edge g x y = Ok e) /\
    (forall x y e, wg_edge sg x y = Ok e -> wg_node sg x = Ok (ed_from e) /\ wg_node sg y = Ok (ed_to e)).
Proof.
  intros dir g o st w u d opts sg w' Hr Hc E.
  pose proof (c11_ball dir g o st w u d opts Hr Hc) as H11. pose proof (reach_base _ _ Hr) as (Hd&Hb&Hk).
  pose proof Hc as Hw. apply gwf_consistent in Hw; [|done..].
  destruct (wg_node_total g u) as [[r Hu]|Hu]; rewrite Hu in H11; [|congruence].
  destruct H11 as (sg'&w''&E'&Hkn&Hmatch&_). rewrite E in E'. injection E' as <- <-.
  destruct (subgraph_ok dir o st w g u d opts r Hr Hw Hu) as (sg'&w''&E'&[sg1 I]&_). rewrite E in E'. injection E' as <- <-.
  pose proof (si_reach _ _ _ _ _ _ I) as Hr'. pose proof (reach_base _ _ Hr') as (Hd'&Hb'&Hk').
  pose proof (si_exact _ _ _ _ _ _ I) as [Hx1 Hx2].
  assert (Hedge : forall g0 x y a b, wg_node g0 x = Ok a -> wg_node g0 y = Ok b ->
    (exists e, wg_edge g0 x y = Ok e) <-> is_Some (adj_get (b_from (g_b g0)) (n_id a) (n_id b))).
  { intros g0 x y a b Ha Hb0. rewrite wg_edge_cases, Ha, Hb0.
    pose proof (b_weighted_edge_None (g_b g0) (n_id a) (n_id b)) as Hnone.
    destruct (b_weighted_edge (g_b g0) (n_id a) (n_id b)) as [e|].
    - split; [|eauto]. intros _. apply not_eq_None_Some. intros E0. by apply Hnone in E0.
    - split; [by intros [? ?]|]. intros [e He]. by rewrite (proj1 Hnone eq_refl) in He. }
  split.
  - intros x y. rewrite <- !Hkn. split.
    + intros [e He]. pose proof He as He0. rewrite wg_edge_cases in He.
      destruct (wg_node sg x) as [a| |] eqn:Ha; [|done..]. destruct (wg_node sg y) as [b| |] eqn:Hb1; [|done..].
      split; [eexists; exact Ha|]. split; [eexists; exact Hb1|].
      destruct (Hmatch _ _ Ha) as (a'&Ha'&Hai&_). destruct (Hmatch _ _ Hb1) as (b'&Hb2&Hbi&_).
      apply (Hedge g x y a' b'); [done..|]. rewrite Hai, Hbi.
      destruct (proj1 (Hedge sg x y a b Ha Hb1) (ex_intro _ e He0)) as [e1 He1].
      destruct (si_some _ _ _ _ _ _ I _ _ _ He1) as [(_&_&?) _]. done.
    + intros ([a Ha]&[b Hb1]&He). destruct (Hmatch _ _ Ha) as (a'&Ha'&Hai&_). destruct (Hmatch _ _ Hb1) as (b'&Hb2&Hbi&_).
      apply (Hedge g x y a' b') in He; [|done..]. rewrite Hai, Hbi in He.
      apply (Hedge sg x y a b); [done..|]. apply (si_none _ _ _ _ _ _ I).
      apply wg_node_Ok in Ha, Hb1. split_and!; [|  |done]; [apply Hx1 in Ha|apply Hx1 in Hb1]; eauto.
  - intros x y e He. pose proof He as He0. rewrite wg_edge_cases in He.
    destruct (wg_node sg x) as [a| |] eqn:Ha; [|done..]. destruct (wg_node sg y) as [b| |] eqn:Hb1; [|done..].
    destruct (b_weighted_edge (g_b sg) (n_id a) (n_id b)) as [e'|] eqn:Ee; [|done]. injection He as ->.
    pose proof (b_weighted_edge_ends _ _ _ _ Hb' Ee) as Hends. unfold ends in Hends. injection Hends as Hf Ht.
    unfold b_weighted_edge in Ee. destruct (adj_get (b_from (g_b sg)) (n_id a) (n_id b)) as [e1|] eqn:Eadj; [|done].
    rewrite Hd' in Ee. injection Ee as ->. destruct (si_obj _ _ _ _ _ _ I _ _ _ Eadj) as [Hof Hot].
    apply wg_node_Ok in Ha, Hb1. pose proof (Hx1 _ _ Ha) as Ha1. pose proof (Hx1 _ _ Hb1) as Hb2.
    rewrite Hf in Hof. rewrite Ht in Hot. split; congruence.
Qed.
Print Assumptions c12_induced.

(** the graph of the examples: a -> b -> c with weights 7 and 9 and an isolated d *)
Definition ud : UID := UVal "d".
Definition ex_w : world := World ({[1%N := {["k" := "ab"]}; 2%N := {["k" := "bc"]}]})%string 3 (fun _ => "u"%string) 0.
Definition ex4 : wg :=
  (wg_link ex_w (wg_link ex_w (put_tidy (put_tidy (put_tidy (put_tidy (gnew true) (gent0 ua)) (gent0 ub)) (gent0 uc)) (gent0 ud))
     ua ub [graph_with_weight 7%N; graph_with_attrs (Some 1%N)]).2.2
     ub uc [graph_with_weight 9%N; graph_with_attrs (Some 2%N)]).2.2.
Lemma ex4_tidy : tidy true ex4.
Proof. do 2 apply tidy_link. repeat apply put_tidy_ok. apply tidy_empty. Qed.
Definition ex_sub (o : iter_order) (d : Z) : wg :=
  match wg_subgraph o [] ex_w ex4 ua d [] with Some (Ok sg, _) => sg | _ => ex4 end.
Definition ex_sub_w (o : iter_order) (d : Z) : world :=
  match wg_subgraph o [] ex_w ex4 ua d [] with Some (_, w) => w | _ => ex_w end.
Lemma ex_sub_ok o d : wg_subgraph o [] ex_w ex4 ua d [] = Some (Ok (ex_sub o d), ex_sub_w o d).
Proof.
  destruct (c03_tidy_consistent _ _ ex4_tidy) as [Hr Hc].
  pose proof (c11_ball true ex4 o [] ex_w ua d [] Hr Hc) as H.
  assert (Hu : exists n, wg_node ex4 ua = Ok n) by (eexists; vm_compute; reflexivity). destruct Hu as [n Hu]. rewrite Hu in H.
  destruct H as (sg&w'&E&_). unfold ex_sub, ex_sub_w. by rewrite E.
Qed.
Example c11_example :
  reach true ex4 /\ consistent ex4 /\ agree ex4 /\
  wg_node (ex_sub iter_rev 1) ub = wg_node ex4 ub /\
  wg_node (ex_sub iter_rev 1) uc = Err GraphErrNodeNotFound /\
  wg_node (ex_sub iter_rev (-1)) uc = wg_node ex4 uc /\
  wg_node (ex_sub iter_rev (-1)) ud = Err GraphErrNodeNotFound /\
  wg_edge (ex_sub iter_rev 1) ua uc = Err GraphErrNodeNotFound.
Proof.
  destruct (c03_tidy_consistent _ _ ex4_tidy) as [Hr Hc].
  pose proof (c03_lookup_enumeration_partial _ _ ex4_tidy) as Ha.
  split; [exact Hr|]. split; [exact Hc|]. split; [exact Ha|].
  repeat (match goal with |- _ /\ _ => split end); vm_compute; reflexivity.
Qed.

(** C13, the full statement; false because every edge of the source is tried for
    every pair and the first one wins. *)
Definition c13_full : Prop :=
  forall dir g o st w u d opts sg w', reach dir g -> consistent g ->
    wg_subgraph o st w g u d opts = Some (Ok sg, w') ->
    forall x y e e0, wg_edge sg x y = Ok e -> wg_edge g x y = Ok e0 ->
      ed_weight e = ed_weight e0 /\ attrs_map w' (ed_attrs e) = attrs_map w (ed_attrs e0).
Theorem c13_weights_and_attributes_refuted : ~ c13_full.
Proof.
  intros H. destruct (c03_tidy_consistent _ _ ex4_tidy) as [Hr Hc].
  assert (He : exists e e0, wg_edge (ex_sub iter_id (-1)) ub uc = Ok e /\ wg_edge ex4 ub uc = Ok e0 /\ ed_weight e = 7%N /\ ed_weight e0 = 9%N).
  { vm_compute. eexists _, _. split_and!; reflexivity. }
  destruct He as (e&e0&H1&H2&H3&H4).
  destruct (H _ _ _ _ _ _ _ _ _ _ Hr Hc (ex_sub_ok iter_id (-1)) ub uc e e0 H1 H2) as [H5 _]. congruence.
Qed.
Print Assumptions c13_weights_and_attributes_refuted.
(** Weight and attributes come together from one edge of the graph, so they are
    preserved when all edges agree. *)
Theorem c13_weights_and_attributes_partial :
  forall dir g o st w u d opts sg w', reach dir g -> consistent g ->
    wg_subgraph o st w g u d opts = Some (Ok sg, w') ->
    (forall e, edge_listed g e -> (ed_attrs e < w_next w)%N) ->
    (forall x y e, wg_edge sg x y = Ok e ->
       exists e0, edge_listed g e0 /\ ed_weight e = ed_weight e0 /\
                  attrs_map w' (ed_attrs e) = attrs_map w (ed_attrs e0)) /\
    ((forall e1 e2, edge_listed g e1 -> edge_listed g e2 ->
        ed_weight e1 = ed_weight e2 /\ attrs_map w (ed_attrs e1) = attrs_map w (ed_attrs e2)) ->
     forall x y e e0, wg_edge sg x y = Ok e -> wg_edge g x y = Ok e0 ->
       ed_weight e = ed_weight e0 /\ attrs_map w' (ed_attrs e) = attrs_map w (ed_attrs e0)).
Proof.
  intros dir g o st w u d opts sg w' Hr Hc E Hat. pose proof (reach_base _ _ Hr) as (Hd&Hb&Hk).
  assert (Hmain : forall x y e, wg_edge sg x y = Ok e ->
       exists e0, edge_listed g e0 /\ ed_weight e = ed_weight e0 /\
                  attrs_map w' (ed_attrs e) = attrs_map w (ed_attrs e0)).
  { pose proof Hc as Hw. apply gwf_consistent in Hw; [|done..].
    destruct (wg_node_total g u) as [[r Hu]|Hu].
    2:{ pose proof (c11_ball dir g o st w u d opts Hr Hc) as H. rewrite Hu in H. congruence. }
    destruct (subgraph_ok dir o st w g u d opts r Hr Hw Hu) as (sg'&w''&E'&[sg1 I]&[Hf1 Hf2]&_).
    rewrite E in E'. injection E' as <- <-.
    pose proof (reach_base _ _ (si_reach _ _ _ _ _ _ I)) as (Hd'&Hb'&Hk').
    intros x y e He. rewrite wg_edge_cases in He.
    destruct (wg_node sg x) as [a| |]; [|done..]. destruct (wg_node sg y) as [b| |]; [|done..].
    destruct (b_weighted_edge (g_b sg) (n_id a) (n_id b)) as [e'|] eqn:Ee; [|done]. injection He as ->.
    unfold b_weighted_edge in Ee. destruct (adj_get (b_from (g_b sg)) (n_id a) (n_id b)) as [e1|] eqn:Eadj; [|done].
    rewrite Hd' in Ee. injection Ee as ->.
    destruct (si_some _ _ _ _ _ _ I _ _ _ Eadj) as [_ (e0&He0&Hwt&Hm&_)]. exists e0.
    assert (Hl : edge_listed g e0) by (by apply edge_listed_iff). split; [done|]. split; [done|].
    specialize (Hat _ Hl). rewrite Hm by lia. by apply Hf2. }
  split; [exact Hmain|]. intros Hall x y e e0 He He0. destruct (Hmain _ _ _ He) as (e1&Hl1&Hw1&Hm1).
  destruct (c01_adjacency_sound dir g Hr) as (_&Hs&_). destruct (Hs _ _ _ He0) as (_&_&_&_&_&[Hl|[_ Hl]]);
    destruct (Hall _ _ Hl1 Hl) as [Ha1 Ha2]; split; rewrite ?Hw1, ?Hm1; done.
Qed.
Print Assumptions c13_weights_and_attributes_partial.
(** Which edge that is, only the order of the maps decides: for every edge of the
    graph there is an order in which every edge of the result is made like it. *)
Theorem c13_any_edge_refuted :
  forall dir g w u d opts e0, reach dir g -> consistent g -> edge_listed g e0 ->
    (ed_attrs e0 < w_next w)%N ->
    exists o, forall st sg w', wg_subgraph o st w g u d opts = Some (Ok sg, w') ->
      forall x y e, wg_edge sg x y = Ok e ->
        ed_weight e = ed_weight e0 /\ attrs_map w' (ed_attrs e) = attrs_map w (ed_attrs e0).
Proof.
  intros dir g w u d opts e0 Hr Hc Hl Hat. pose proof (reach_base _ _ Hr) as (Hd&Hb&Hk).
  pose proof Hc as Hw. apply gwf_consistent in Hw; [|done..].
  assert (Hin : in_b (g_b g) e0) by (by apply edge_listed_iff).
  destruct (some_order_first (g_b g) e0 Hb Hin) as [o Ho]. exists o. intros st sg w' E.
  destruct (wg_node_total g u) as [[r Hu]|Hu].
  2:{ pose proof (c11_ball dir g o st w u d opts Hr Hc) as H. rewrite Hu in H. congruence. }
  destruct (subgraph_first dir o st w g u d opts r (eq e0) Ho Hr Hw Hu) as (sg'&w''&E'&[sg1 I]&[Hf1 Hf2]&_).
  rewrite E in E'. injection E' as <- <-.
  pose proof (reach_base _ _ (si_reach _ _ _ _ _ _ I)) as (Hd'&Hb'&Hk').
  intros x y e He. rewrite wg_edge_cases in He.
  destruct (wg_node sg x) as [a| |]; [|done..]. destruct (wg_node sg y) as [b| |]; [|done..].
  destruct (b_weighted_edge (g_b sg) (n_id a) (n_id b)) as [e'|] eqn:Ee; [|done]. injection He as ->.
  unfold b_weighted_edge in Ee. destruct (adj_get (b_from (g_b sg)) (n_id a) (n_id b)) as [e1|] eqn:Eadj; [|done].
  rewrite Hd' in Ee. injection Ee as ->.
  destruct (si_some _ _ _ _ _ _ I _ _ _ Eadj) as [_ (e2&<-&Hwt&Hm&_)]. split; [done|].
  rewrite Hm by lia. by apply Hf2.
Qed.
Print Assumptions c13_any_edge_refuted.
(** So SubGraph keeps weights and attributes in every order exactly when the edges
    inside the ball are like all edges of the graph. *)
Theorem c13_exact_partial :
  forall dir g w u d opts, reach dir g -> consistent g ->
    (forall e, edge_listed g e -> (ed_attrs e < w_next w)%N) ->
    (forall o st sg w', wg_subgraph o st w g u d opts = Some (Ok sg, w') ->
       forall x y e e0, wg_edge sg x y = Ok e -> wg_edge g x y = Ok e0 ->
         ed_weight e = ed_weight e0 /\ attrs_map w' (ed_attrs e) = attrs_map w (ed_attrs e0)) <->
    (forall x y e0 e1, in_ball g u d x -> in_ball g u d y -> wg_edge g x y = Ok e0 -> edge_listed g e1 ->
       ed_weight e0 = ed_weight e1 /\ attrs_map w (ed_attrs e0) = attrs_map w (ed_attrs e1)).
Proof.
  intros dir g w u d opts Hr Hc Hat. split.
  - intros Hall x y e0 e1 Hx Hy He0 Hl.
    destruct (c13_any_edge_refuted dir g w u d opts e1 Hr Hc Hl (Hat _ Hl)) as [o Ho].
    pose proof (c11_ball dir g o [] w u d opts Hr Hc) as H11.
    destruct (wg_node_total g u) as [[r Hu]|Hu]; rewrite Hu in H11.
    + destruct H11 as (sg&w'&E&_). destruct (c12_induced dir g o [] w u d opts sg w' Hr Hc E) as [H12 _].
      destruct (proj2 (H12 x y)) as [e He]; [eauto|].
      destruct (Ho _ _ _ E _ _ _ He) as [H1 H2]. destruct (Hall _ _ _ _ E _ _ _ _ He He0) as [H3 H4].
      split; congruence.
    + exfalso. destruct Hx as (k&_&Hp). clear - Hu Hp. induction Hp as [v [n Hn] _|]; [congruence|done].
  - intros Hall o st sg w' E x y e e0 He He0.
    destruct (c12_induced dir g o st w u d opts sg w' Hr Hc E) as [H12 _].
    destruct (proj1 (H12 x y)) as (Hx&Hy&_); [eauto|].
    destruct (c13_weights_and_attributes_partial dir g o st w u d opts sg w' Hr Hc E Hat) as [Hsrc _].
    destruct (Hsrc _ _ _ He) as (e1&Hl&H1&H2). destruct (Hall _ _ _ _ Hx Hy He0 Hl) as [H3 H4].
    split; congruence.
Qed.
Print Assumptions c13_exact_partial.
Example c13_example :
  (forall e, edge_listed ex4 e -> (ed_attrs e < w_next ex_w)%N) /\
  match wg_edge (ex_sub iter_rev (-1)) ub uc with
  | Ok e => attrs_map (ex_sub_w iter_rev (-1)) (ed_attrs e) !! "k"%string = Some "bc"%string | _ => False end /\
  (rmap ed_weight (wg_edge (ex_sub iter_id (-1)) ua ub), rmap ed_weight (wg_edge (ex_sub iter_id (-1)) ub uc)) = (Ok 7%N, Ok 7%N) /\
  (rmap ed_weight (wg_edge (ex_sub iter_rev (-1)) ua ub), rmap ed_weight (wg_edge (ex_sub iter_rev (-1)) ub uc)) = (Ok 9%N, Ok 9%N) /\
  (rmap ed_weight (wg_edge ex4 ua ub), rmap ed_weight (wg_edge ex4 ub uc)) = (Ok 7%N, Ok 9%N).
Proof.
  split; [|split_and!; vm_compute; reflexivity]. intros e He. destruct (He iter_id []) as (es&Hes&Hin).
  vm_compute in Hes. injection Hes as <-. repeat (apply elem_of_cons in Hin as [->|Hin]; [vm_compute; reflexivity|]).
  by apply elem_of_nil in Hin.
Qed.

(** C14.  SubGraph only allocates: every attribute set that existed is unchanged,
    every subgraph edge has its own new set, and so writing through a subgraph
    edge changes neither an old set nor that of another subgraph edge.  (The graph
    itself is not returned: SubGraph of the model cannot change it.) *)
Theorem c14_source_untouched :
  forall dir g o st w u d opts r w', reach dir g -> consistent g ->
    wg_subgraph o st w g u d opts = Some (r, w') ->
    (forall a, (a < w_next w)%N -> attrs_map w' a = attrs_map w a) /\
    (forall sg x y e, r = Ok sg -> wg_edge sg x y = Ok e ->
       (w_next w <= ed_attrs e < w_next w')%N /\
       (forall k v a, (a < w_next w)%N -> attrs_map (attrs_set w' (ed_attrs e) k v) a = attrs_map w a) /\
       (forall x' y' e', wg_edge sg x' y' = Ok e' -> ed_attrs e' = ed_attrs e -> e' = e)).
Proof.
  intros dir g o st w u d opts r w' Hr Hc E. pose proof (reach_base _ _ Hr) as (Hd&Hb&Hk).
  pose proof Hc as Hw. apply gwf_consistent in Hw; [|done..].
  destruct (wg_node_total g u) as [[n Hu]|Hu].
  2:{ pose proof (c11_ball dir g o st w u d opts Hr Hc) as H. rewrite Hu in H.
      rewrite E in H. injection H as -> ->. done. }
  destruct (subgraph_ok dir o st w g u d opts n Hr Hw Hu) as (sg'&w''&E'&[sg1 I]&Hf&_).
  rewrite E in E'. injection E' as -> ->.
  pose proof (wframe_trans _ _ _ Hf (si_frame _ _ _ _ _ _ I)) as [Hlt Hfr].
  split; [exact Hfr|]. intros sg x y e [= <-] He.
  pose proof (reach_base _ _ (si_reach _ _ _ _ _ _ I)) as (Hd'&Hb'&Hk').
  assert (Hadj : forall x y e, wg_edge sg' x y = Ok e -> exists i j, adj_get (b_from (g_b sg')) i j = Some e).
  { intros x0 y0 e0 He0. rewrite wg_edge_cases in He0.
    destruct (wg_node sg' x0) as [a| |]; [|done..]. destruct (wg_node sg' y0) as [b| |]; [|done..].
    destruct (b_weighted_edge (g_b sg') (n_id a) (n_id b)) as [e'|] eqn:Ee; [|done]. injection He0 as ->.
    unfold b_weighted_edge in Ee. destruct (adj_get (b_from (g_b sg')) (n_id a) (n_id b)) as [e1|] eqn:Eadj; [|done].
    rewrite Hd' in Ee. injection Ee as ->. eauto. }
  destruct (Hadj _ _ _ He) as (i&j&Hij).
  destruct (si_some _ _ _ _ _ _ I _ _ _ Hij) as [_ (e0&_&_&_&Hrange)]. destruct Hf as [Hf1 _].
  split; [lia|]. split.
  - intros k v a Ha. rewrite attrs_map_set, bool_decide_false by lia. by apply Hfr.
  - intros x' y' e' He' Heq. destruct (Hadj _ _ _ He') as (i'&j'&Hij').
    destruct (si_inj _ _ _ _ _ _ I _ _ _ _ _ _ Hij' Hij Heq) as [-> ->]. congruence.
Qed.
Print Assumptions c14_source_untouched.
Example c14_example :
  match wg_edge (ex_sub iter_id (-1)) ub uc with Ok e => (3 <= ed_attrs e)%N | _ => False end /\
  attrs_map (ex_sub_w iter_id (-1)) 2%N !! "k"%string = Some "bc"%string.
Proof. split; vm_compute; [discriminate|reflexivity]. Qed.
