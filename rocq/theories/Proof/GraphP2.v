(** Consistent graphs: how Link, Unlink and RemoveNode change what is observed. *)
From Verif.Model Require Import Graph.
From Verif.Spec Require Import GraphSpec.
From Verif.Proof Require Import AttrsP GonumP GraphP.


(** the ids of two known UIDs are equal exactly when the texts are *)
Lemma id_text g u v a b :
  gwf g -> wg_node g u = Ok a -> wg_node g v = Ok b -> n_id a = n_id b <-> same_text u v.
Proof.
  intros Hw Ha Hb. apply wg_node_Ok in Ha, Hb. split.
  - intros H. by eapply gwf_id_inj.
  - intros H. unfold same_text in H. rewrite H in Ha. congruence.
Qed.

Lemma wg_node_total g u : (exists n, wg_node g u = Ok n) \/ wg_node g u = Err GraphErrNodeNotFound.
Proof. unfold wg_node. destruct (g_nodes g !! uid_string u); eauto. Qed.

Lemma wg_node_set_b g b u : wg_node (wg_set_b g b) u = wg_node g u.
Proof. done. Qed.

Lemma same_pair_ends dir g x y u v a b c d :
  gwf g -> wg_node g x = Ok a -> wg_node g y = Ok b -> wg_node g u = Ok c -> wg_node g v = Ok d ->
  same_pair dir (n_id a) (n_id b) (n_id c) (n_id d) <-> same_ends dir x y u v.
Proof.
  intros Hw Hx Hy Hu Hv. unfold same_pair, same_ends.
  rewrite (id_text g x u), (id_text g y v), (id_text g x v), (id_text g y u) by done. done.
Qed.

Lemma gwf_link_commit g a b b' u v :
  bwf (g_b g) -> gkey g -> gwf g -> wg_node g u = Ok a -> wg_node g v = Ok b ->
  b_nodes b' = <[n_id b := b]> (<[n_id a := a]> (b_nodes (g_b g))) ->
  gwf (wg_set_b g b').
Proof.
  intros Hb Hk [H1 H2] Ha Hbn Hn. apply wg_node_Ok in Ha, Hbn.
  pose proof (Hk _ _ Ha) as Hka. pose proof (Hk _ _ Hbn) as Hkb. split; cbn; rewrite Hn.
  - intros k n Hkn. destruct (H1 _ _ Hkn) as (m&Hm&Hmk). pose proof (Hk _ _ Hkn) as Hkk.
    destruct (decide (n_id b = n_id n)) as [E|E].
    { exists b. rewrite E, lookup_insert. split; [done|]. rewrite Hkb.
      eapply gwf_id_inj; [split; [exact H1|exact H2]|done|done|done]. }
    rewrite lookup_insert_ne by done. destruct (decide (n_id a = n_id n)) as [E'|E'].
    { exists a. rewrite E', lookup_insert. split; [done|]. rewrite Hka.
      eapply gwf_id_inj; [split; [exact H1|exact H2]|done|done|done]. }
    rewrite lookup_insert_ne by done. eauto.
  - intros i m. rewrite lookup_insert_Some. intros [[<- <-]|[_ Hm]].
    { exists b. rewrite Hkb. done. }
    rewrite lookup_insert_Some in Hm. destruct Hm as [[<- <-]|[_ Hm]]; [|by apply H2].
    exists a. rewrite Hka. done.
Qed.

Lemma gwf_remove g u : bwf (g_b g) -> gkey g -> gwf g -> gwf (wg_remove_node g u).2.
Proof.
  intros Hb Hk [H1 H2]. unfold wg_remove_node.
  destruct (g_nodes g !! uid_string u) as [n|] eqn:En; [|done]. cbn.
  destruct (b_remove_node_ok _ (n_id n) Hb) as (_&Hn'&_). split; cbn; rewrite Hn'.
  - intros k m. rewrite lookup_delete_Some. intros [Hne Hm]. destruct (H1 _ _ Hm) as (m'&Hm'&Hk').
    exists m'. rewrite lookup_delete_ne; [done|]. intros E. apply Hne.
    eapply gwf_id_inj; [split; [exact H1|exact H2]|done|done|done].
  - intros i m. rewrite lookup_delete_Some. intros [Hne Hm]. destruct (H2 _ _ Hm) as (n'&Hn1&Hi).
    exists n'. rewrite lookup_delete_ne; [done|]. intros E. apply Hne. rewrite <- E, En in Hn1.
    injection Hn1 as ->. done.
Qed.

Lemma gwf_unlink g u v : bwf (g_b g) -> gwf g -> gwf (wg_unlink g u v).2.
Proof.
  intros Hb Hw. unfold wg_unlink.
  destruct (g_nodes g !! uid_string u) as [n|] eqn:En; [|done].
  destruct (g_nodes g !! uid_string v) as [m|] eqn:Em; [|done]. cbn.
  destruct (b_remove_edge_ok _ (n_id n) (n_id m) Hb) as (_&Hn'&_).
  destruct Hw as [H1 H2]. split; cbn; rewrite Hn'; done.
Qed.

(** removing [u] from a consistent graph *)
Lemma remove_edge_obs dir g u x y :
  gbase dir g -> gwf g ->
  wg_edge (wg_remove_node g u).2 x y =
  if bool_decide (same_text x u \/ same_text y u) then Err GraphErrNodeNotFound else wg_edge g x y.
Proof.
  intros (Hd&Hb&Hk) Hw. unfold wg_remove_node.
  destruct (g_nodes g !! uid_string u) as [n|] eqn:En.
  2:{ cbn. case_bool_decide as Hor; [|done]. unfold wg_edge. unfold same_text in Hor.
      destruct Hor as [->| ->]; rewrite En; [done|]. by destruct (g_nodes g !! uid_string x). }
  cbn. unfold wg_edge, removenode_commit. cbn [g_nodes g_b wg_set_nodes wg_set_b].
  destruct (b_remove_node_ok _ (n_id n) Hb) as (Hd'&_&_&_&Ha&_).
  destruct (decide (same_text x u)) as [Hx|Hx].
  { rewrite bool_decide_true by auto. unfold same_text in Hx. rewrite Hx, lookup_delete. done. }
  unfold same_text in Hx. rewrite (lookup_delete_ne (g_nodes g) (uid_string u) (uid_string x)) by congruence.
  destruct (decide (same_text y u)) as [Hy|Hy].
  { rewrite bool_decide_true by auto. unfold same_text in Hy. rewrite Hy, lookup_delete.
    by destruct (g_nodes g !! uid_string x). }
  unfold same_text in Hy. rewrite (lookup_delete_ne (g_nodes g) (uid_string u) (uid_string y)) by congruence.
  rewrite bool_decide_false by (unfold same_text; naive_solver).
  destruct (g_nodes g !! uid_string x) as [a|] eqn:Ea; [|done].
  destruct (g_nodes g !! uid_string y) as [b|] eqn:Eb; [|done].
  rewrite (b_weighted_edge_adj (g_b g)); [done|done|].
  rewrite Ha, bool_decide_false; [done|]. intros [E|E].
  - apply Hx. by eapply gwf_id_inj.
  - apply Hy. by eapply gwf_id_inj.
Qed.

Lemma unlink_edge_obs dir g u v x y :
  gbase dir g -> gwf g ->
  wg_edge (wg_unlink g u v).2 x y =
  if bool_decide (same_ends dir x y u v)
  then match wg_edge g x y with Ok _ => Err GraphErrEdgeNotExist | r => r end
  else wg_edge g x y.
Proof.
  intros (Hd&Hb&Hk) Hw. unfold wg_unlink.
  destruct (g_nodes g !! uid_string u) as [n|] eqn:En.
  2:{ cbn. case_bool_decide as Hs; [|done]. unfold same_ends, same_text in Hs. unfold wg_edge.
      destruct Hs as [[-> ->]|(_&->&->)]; rewrite En; [done|]. by destruct (g_nodes g !! uid_string v). }
  destruct (g_nodes g !! uid_string v) as [m|] eqn:Em.
  2:{ cbn. case_bool_decide as Hs; [|done]. unfold same_ends, same_text in Hs. unfold wg_edge.
      destruct Hs as [[-> ->]|(_&->&->)]; rewrite Em; [|done]. by destruct (g_nodes g !! uid_string u). }
  cbn. rewrite !wg_edge_cases. unfold unlink_commit. rewrite !wg_node_set_b.
  destruct (b_remove_edge_ok _ (n_id n) (n_id m) Hb) as (Hd'&_&_&_&_&Ha).
  destruct (wg_node_total g x) as [[a Hx]|Hx]; rewrite Hx; [|by case_bool_decide].
  destruct (wg_node_total g y) as [[b Hy]|Hy]; rewrite Hy; [|by case_bool_decide].
  cbn [g_b wg_set_b].
  assert (Hiff : same_pair (b_dir (g_b g)) (n_id a) (n_id b) (n_id n) (n_id m) <-> same_ends dir x y u v).
  { rewrite Hd. apply (same_pair_ends dir g); [done..| |]; by apply wg_node_Ok. }
  specialize (Ha (n_id a) (n_id b)). rewrite (bool_decide_ext _ _ Hiff) in Ha.
  case_bool_decide.
  - apply b_weighted_edge_None in Ha. rewrite Ha. by destruct (b_weighted_edge (g_b g) (n_id a) (n_id b)).
  - by rewrite (b_weighted_edge_adj (g_b g)).
Qed.

Lemma link_edge_obs dir g u v a b b' e x y :
  gbase dir g -> gwf g -> wg_node g u = Ok a -> wg_node g v = Ok b -> ~ same_text u v ->
  ed_from e = a -> ed_to e = b -> b_dir b' = b_dir (g_b g) ->
  (forall x y, adj_get (b_from b') x y =
     if bool_decide (same_pair (b_dir (g_b g)) x y (n_id a) (n_id b)) then Some e
     else adj_get (b_from (g_b g)) x y) ->
  wg_edge (wg_set_b g b') x y =
  if bool_decide (same_text x u /\ same_text y v) then Ok e
  else if bool_decide (same_ends dir x y u v) then Ok (edge_reversed e)
  else wg_edge g x y.
Proof.
  intros (Hd&Hb&Hk) Hw Hu Hv Huv Hf Ht Hd' Ha. rewrite !wg_edge_cases, !wg_node_set_b. cbn [g_b wg_set_b].
  assert (Hxk : forall z, same_text z u -> wg_node g z = Ok a).
  { intros z Hz. unfold wg_node in *. by rewrite Hz. }
  assert (Hyk : forall z, same_text z v -> wg_node g z = Ok b).
  { intros z Hz. unfold wg_node in *. by rewrite Hz. }
  destruct (wg_node_total g x) as [[c Hx]|Hx]; rewrite Hx.
  2:{ rewrite !bool_decide_false; [done| |].
      - unfold same_ends. intros [[H _]|(_&H&_)]; [apply Hxk in H|apply Hyk in H]; congruence.
      - intros [H _]. apply Hxk in H. congruence. }
  destruct (wg_node_total g y) as [[d Hy]|Hy]; rewrite Hy.
  2:{ rewrite !bool_decide_false; [done| |].
      - unfold same_ends. intros [[_ H]|(_&_&H)]; [apply Hyk in H|apply Hxk in H]; congruence.
      - intros [_ H]. apply Hyk in H. congruence. }
  assert (Hiff : same_pair (b_dir (g_b g)) (n_id c) (n_id d) (n_id a) (n_id b) <-> same_ends dir x y u v).
  { rewrite Hd. by apply (same_pair_ends dir g). }
  assert (Hne : n_id a <> n_id b) by (rewrite (id_text g u v) by done; done).
  specialize (Ha (n_id c) (n_id d)). rewrite (bool_decide_ext _ _ Hiff) in Ha.
  unfold b_weighted_edge. rewrite Ha, Hd', Hd.
  destruct (decide (same_text x u /\ same_text y v)) as [H1|H1].
  - rewrite (bool_decide_true (same_text x u /\ same_text y v)) by done.
    destruct H1 as [Hx1 Hy1]. rewrite (bool_decide_true (same_ends dir x y u v)) by (left; done).
    rewrite (Hxk _ Hx1) in Hx. injection Hx as <-. destruct dir; [done|]. rewrite Hf. by rewrite bool_decide_true.
  - rewrite (bool_decide_false (same_text x u /\ same_text y v)) by done.
    case_bool_decide as H2; [|done]. destruct H2 as [?|(->&Hx1&Hy1)]; [done|].
    rewrite (Hyk _ Hx1) in Hx. injection Hx as <-. rewrite Hf. by rewrite bool_decide_false.
Qed.
