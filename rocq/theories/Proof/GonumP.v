(** The invariant of the gonum builder and what each of its operations does to
    nodes, adjacency and enumeration. *)
From Verif.Model Require Import Gonum.
From Verif.Proof Require Import AttrsP.

(** ** adjacency maps *)
Lemma adj_get_set m a b e x y :
  adj_get (adj_set m a b e) x y = if bool_decide (x = a /\ y = b) then Some e else adj_get m x y.
Proof.
  unfold adj_get, adj_set. destruct (decide (x = a)) as [->|Hx].
  - destruct (m !! a) as [fm|] eqn:E.
    + rewrite lookup_insert. simpl. destruct (decide (y = b)) as [->|Hy].
      * rewrite bool_decide_true by done. by rewrite lookup_insert.
      * rewrite bool_decide_false by naive_solver. by rewrite lookup_insert_ne.
    + rewrite lookup_insert. simpl. destruct (decide (y = b)) as [->|Hy].
      * rewrite bool_decide_true by done. by rewrite lookup_singleton.
      * rewrite bool_decide_false by naive_solver. by rewrite lookup_singleton_ne.
  - rewrite bool_decide_false by naive_solver.
    destruct (m !! a); by rewrite lookup_insert_ne by done.
Qed.

Lemma adj_get_del m a b x y :
  adj_get (adj_del m a b) x y = if bool_decide (x = a /\ y = b) then None else adj_get m x y.
Proof.
  unfold adj_get, adj_del. destruct (decide (x = a)) as [->|Hx].
  - destruct (m !! a) as [fm|] eqn:E.
    + rewrite lookup_insert. simpl. destruct (decide (y = b)) as [->|Hy].
      * rewrite bool_decide_true by done. by rewrite lookup_delete.
      * rewrite bool_decide_false by naive_solver. by rewrite lookup_delete_ne.
    + rewrite E. simpl. by case_bool_decide.
  - rewrite bool_decide_false by naive_solver.
    destruct (m !! a); [by rewrite lookup_insert_ne by done|done].
Qed.

Lemma bool_decide_ext_if {A} (P Q : Prop) `{Decision P, Decision Q} (a b : A) :
  (P <-> Q) -> (if bool_decide P then a else b) = (if bool_decide Q then a else b).
Proof. intros HPQ. by rewrite (bool_decide_ext P Q HPQ). Qed.

Lemma adj_get_foldr_del m vs id x y :
  adj_get (foldr (fun v m => adj_del m v id) m vs) x y =
  if bool_decide (x ∈ vs /\ y = id) then None else adj_get m x y.
Proof.
  induction vs as [|v vs IH]; cbn [foldr].
  - rewrite bool_decide_false; [done|]. intros [H _]. by apply elem_of_nil in H.
  - rewrite adj_get_del, IH. destruct (decide (x = v /\ y = id)) as [[-> ->]|Hn].
    + rewrite (bool_decide_true (v = v /\ id = id)) by done.
      rewrite bool_decide_true; [done|]. split; [left|done].
    + rewrite (bool_decide_false _ Hn). apply bool_decide_ext_if.
      rewrite elem_of_cons. naive_solver.
Qed.

Lemma adj_get_delete_row m id x y :
  adj_get (delete id m) x y = if bool_decide (x = id) then None else adj_get m x y.
Proof.
  unfold adj_get. case_bool_decide as H.
  - subst. by rewrite lookup_delete.
  - by rewrite lookup_delete_ne.
Qed.

Lemma elem_of_row_keys (m : gmap Z (gmap Z edge)) id y :
  y ∈ (map_to_list (default ∅ (m !! id))).*1 <-> is_Some (adj_get m id y).
Proof.
  unfold adj_get. rewrite elem_of_list_fmap. split.
  - intros ([k e]&->&Hin). apply elem_of_map_to_list in Hin. simpl.
    destruct (m !! id) as [row|]; simpl in *; [by exists e|by rewrite lookup_empty in Hin].
  - intros [e He]. destruct (m !! id) as [row|]; simpl in *; [|done].
    exists (y, e). split; [done|]. by apply elem_of_map_to_list.
Qed.

(** ** the invariant *)
(** the two ids of an edge, in its own orientation *)
Definition ends (e : edge) : Z * Z := (n_id (ed_from e), n_id (ed_to e)).

Record bwf (b : builder) : Prop := Bwf {
  bw_id : forall i n, b_nodes b !! i = Some n -> n_id n = i;
  bw_edge : forall x y e, adj_get (b_from b) x y = Some e ->
    x <> y /\ is_Some (b_nodes b !! x) /\ is_Some (b_nodes b !! y) /\
    (ends e = (x, y) \/ b_dir b = false /\ ends e = (y, x));
  bw_to : b_dir b = true -> forall x y, adj_get (b_to b) y x = adj_get (b_from b) x y;
  bw_sym : b_dir b = false -> forall x y, adj_get (b_from b) x y = adj_get (b_from b) y x;
  bw_used : is_used (b_ids b) = dom (b_nodes b);
  bw_free : is_free (b_ids b) ## is_used (b_ids b);
  bw_max : forall i, i ∈ is_used (b_ids b) -> (i <= is_max (b_ids b))%Z;
}.

Lemma bwf_new dir x y : bwf (builder_new dir x y).
Proof.
  split; simpl; try done; set_solver.
Qed.

Lemma idset_use_max s id i : i = id \/ (i <= is_max s)%Z -> (i <= is_max (idset_use s id))%Z.
Proof. intros H. simpl. case_bool_decide; naive_solver lia. Qed.

(** nodes *)
Lemma b_add_node_ok b n :
  b_nodes b !! n_id n = None ->
  exists b', b_add_node b n = Ok b' /\ b_dir b' = b_dir b /\ b_nodes b' = <[n_id n := n]> (b_nodes b) /\
    b_from b' = b_from b /\ b_to b' = b_to b /\ b_self b' = b_self b /\ b_absent b' = b_absent b /\
    b_ids b' = idset_use (b_ids b) (n_id n).
Proof. intros H. unfold b_add_node. rewrite H. eexists. split; [done|]. done. Qed.

Lemma bwf_put b n nodes ids :
  bwf b -> nodes = <[n_id n := n]> (b_nodes b) ->
  ids = match b_nodes b !! n_id n with None => idset_use (b_ids b) (n_id n) | Some _ => b_ids b end ->
  bwf (Builder (b_dir b) nodes (b_from b) (b_to b) (b_self b) (b_absent b) ids).
Proof.
  intros [H1 H2 H3 H4 H5 H6 H7] -> ->. split; cbn [b_dir b_nodes b_from b_to b_ids].
  - intros i m. rewrite lookup_insert_Some. naive_solver.
  - intros x y e He. destruct (H2 x y e He) as (?&Hx&Hy&?). split_and!; try done.
    + rewrite lookup_insert_is_Some. destruct (decide (n_id n = x)); auto.
    + rewrite lookup_insert_is_Some. destruct (decide (n_id n = y)); auto.
  - done.
  - done.
  - rewrite dom_insert_L. destruct (b_nodes b !! n_id n) eqn:E.
    + assert (n_id n ∈ dom (b_nodes b)) by (apply elem_of_dom; eauto). set_solver.
    + simpl. by rewrite H5.
  - destruct (b_nodes b !! n_id n) eqn:E; [done|]. simpl. set_solver.
  - intros i. destruct (b_nodes b !! n_id n) eqn:E; [by apply H7|].
    simpl. rewrite elem_of_union, elem_of_singleton. intros Hi.
    apply (idset_use_max (b_ids b)). naive_solver.
Qed.

Lemma bwf_add b n b' : bwf b -> b_add_node b n = Ok b' -> bwf b'.
Proof.
  unfold b_add_node. destruct (b_nodes b !! n_id n) eqn:E; [done|]. intros H [= <-].
  apply bwf_put with n; [done|done|by rewrite E].
Qed.

Lemma b_put_node_eq b n :
  b_put_node b n =
  Builder (b_dir b) (<[n_id n := n]> (b_nodes b)) (b_from b) (b_to b) (b_self b) (b_absent b)
    (match b_nodes b !! n_id n with None => idset_use (b_ids b) (n_id n) | Some _ => b_ids b end).
Proof. unfold b_put_node. by destruct (b_nodes b !! n_id n). Qed.

Lemma bwf_put_node b n : bwf b -> bwf (b_put_node b n).
Proof. intros H. rewrite b_put_node_eq. by apply bwf_put with n. Qed.

(** edges *)
Definition same_pair (dir : bool) (x y a b : Z) : Prop :=
  (x = a /\ y = b) \/ (dir = false /\ x = b /\ y = a).
Global Instance same_pair_dec dir x y a b : Decision (same_pair dir x y a b).
Proof. unfold same_pair. apply _. Defined.

Lemma b_set_edge_ok b e :
  n_id (ed_from e) <> n_id (ed_to e) ->
  exists b', b_set_edge b e = Ok b' /\ b_dir b' = b_dir b /\
    b_nodes b' = <[n_id (ed_to e) := ed_to e]> (<[n_id (ed_from e) := ed_from e]> (b_nodes b)) /\
    (forall x y, adj_get (b_from b') x y =
       if bool_decide (same_pair (b_dir b) x y (n_id (ed_from e)) (n_id (ed_to e)))
       then Some e else adj_get (b_from b) x y) /\
    b_self b' = b_self b /\ b_absent b' = b_absent b.
Proof.
  intros Hne. unfold b_set_edge. rewrite bool_decide_false by done.
  rewrite !b_put_node_eq. cbn [b_dir b_nodes b_from b_to b_self b_absent b_ids].
  eexists. split; [done|]. destruct (b_dir b) eqn:Hd.
  - split; [done|]. split; [done|]. split; [|done]. intros x y. cbn [b_from].
    rewrite adj_get_set. apply bool_decide_ext_if. unfold same_pair. naive_solver.
  - split; [done|]. split; [done|]. split; [|done]. intros x y. cbn [b_from].
    rewrite !adj_get_set. destruct (decide (x = n_id (ed_to e) /\ y = n_id (ed_from e))) as [H|H].
    + rewrite !bool_decide_true; [done| |done]. right. naive_solver.
    + rewrite (bool_decide_false _ H). apply bool_decide_ext_if. unfold same_pair. naive_solver.
Qed.

Lemma bwf_set_edge b e b' : bwf b -> b_set_edge b e = Ok b' -> bwf b'.
Proof.
  intros Hb He. assert (Hne : n_id (ed_from e) <> n_id (ed_to e)).
  { intros E. unfold b_set_edge in He. by rewrite bool_decide_true in He. }
  destruct (b_set_edge_ok b e Hne) as (b''&He'&Hd&Hn&Ha&_).
  rewrite He in He'. injection He' as <-.
  pose proof (bwf_put_node _ (ed_to e) (bwf_put_node _ (ed_from e) Hb)) as Hb2.
  set (b2 := b_put_node (b_put_node b (ed_from e)) (ed_to e)) in *.
  assert (Hn2 : b_nodes b2 = b_nodes b') by (unfold b2; rewrite !b_put_node_eq, Hn; done).
  assert (Hi2 : b_ids b2 = b_ids b').
  { unfold b_set_edge in He. rewrite bool_decide_false in He by done. fold b2 in He.
    injection He as <-. by destruct (b_dir b2). }
  assert (Hd2 : b_dir b2 = b_dir b) by (unfold b2; by rewrite !b_put_node_eq).
  assert (Hf2 : b_from b2 = b_from b) by (unfold b2; by rewrite !b_put_node_eq).
  assert (Ht2 : b_to b2 = b_to b) by (unfold b2; by rewrite !b_put_node_eq).
  destruct Hb2 as [H1 H2 H3 H4 H5 H6 H7]. rewrite Hn2, Hi2, Hd2, Hf2, Ht2 in *. split.
  - done.
  - intros x y e0. rewrite Ha, Hd. case_bool_decide as Hp.
    + intros [= <-]. assert (is_Some (b_nodes b' !! n_id (ed_from e)) /\ is_Some (b_nodes b' !! n_id (ed_to e))) as [Hs1 Hs2].
      { rewrite Hn. split; apply lookup_insert_is_Some; [|by left].
        right. split; [done|]. apply lookup_insert_is_Some. by left. }
      unfold ends. destruct Hp as [[-> ->]|(?&->&->)]; split_and!; auto.
    + apply H2.
  - rewrite Hd. intros Hdir x y. specialize (H3 Hdir x y).
    unfold b_set_edge in He. rewrite bool_decide_false in He by done. fold b2 in He.
    rewrite Hd2, Hdir in He. injection He as <-. cbn [b_to b_from].
    rewrite Ht2, Hf2, !adj_get_set, H3. apply bool_decide_ext_if. naive_solver.
  - rewrite Hd. intros Hdir x y. rewrite !Ha, (H4 Hdir x y). apply bool_decide_ext_if.
    unfold same_pair. naive_solver.
  - done.
  - done.
  - done.
Qed.

Lemma b_remove_edge_ok b fid tid :
  bwf b ->
  let b' := b_remove_edge b fid tid in
  b_dir b' = b_dir b /\ b_nodes b' = b_nodes b /\ b_ids b' = b_ids b /\
  b_self b' = b_self b /\ b_absent b' = b_absent b /\
  (forall x y, adj_get (b_from b') x y =
     if bool_decide (same_pair (b_dir b) x y fid tid) then None else adj_get (b_from b) x y).
Proof.
  intros Hb. unfold b_remove_edge.
  assert (Hno : forall b0, (b_nodes b !! fid = None \/ b_nodes b !! tid = None) -> b0 = b ->
    b_dir b0 = b_dir b /\ b_nodes b0 = b_nodes b /\ b_ids b0 = b_ids b /\
    b_self b0 = b_self b /\ b_absent b0 = b_absent b /\
    (forall x y, adj_get (b_from b0) x y =
     if bool_decide (same_pair (b_dir b) x y fid tid) then None else adj_get (b_from b) x y)).
  { intros b0 Hn ->. do 5 (split; [done|]). intros x y. case_bool_decide as Hp; [|done].
    destruct (adj_get (b_from b) x y) as [e|] eqn:E; [|done].
    destruct (bw_edge _ Hb _ _ _ E) as (_&Hx&Hy&_).
    destruct Hp as [[-> ->]|(_&->&->)], Hn as [Hn|Hn]; rewrite Hn in *; by destruct Hx, Hy. }
  destruct (b_nodes b !! fid) eqn:E1; [|by apply Hno; auto].
  destruct (b_nodes b !! tid) eqn:E2; [|by apply Hno; auto].
  destruct (b_dir b) eqn:Hd; (do 5 (split; [done|])); intros x y; cbn [b_from].
  - rewrite adj_get_del. apply bool_decide_ext_if. unfold same_pair. naive_solver.
  - rewrite !adj_get_del. destruct (decide (x = tid /\ y = fid)) as [H|H].
    + rewrite !bool_decide_true; [done| |done]. right. naive_solver.
    + rewrite (bool_decide_false _ H). apply bool_decide_ext_if. unfold same_pair. naive_solver.
Qed.

Lemma bwf_remove_edge b fid tid : bwf b -> bwf (b_remove_edge b fid tid).
Proof.
  intros Hb. destruct (b_remove_edge_ok b fid tid Hb) as (Hd&Hn&Hi&_&_&Ha).
  split; rewrite ?Hd, ?Hn, ?Hi; try by destruct Hb.
  - intros x y e. rewrite Ha. case_bool_decide; [done|]. apply (bw_edge _ Hb).
  - intros Hdir x y. pose proof (bw_to _ Hb Hdir x y) as H3. rewrite Ha.
    unfold b_remove_edge.
    destruct (b_nodes b !! fid) eqn:E1; [destruct (b_nodes b !! tid) eqn:E2|].
    + rewrite Hdir. cbn [b_to]. rewrite adj_get_del, H3. apply bool_decide_ext_if.
      unfold same_pair. naive_solver.
    + rewrite H3. case_bool_decide as Hp; [|done]. destruct (adj_get (b_from b) x y) eqn:E; [|done].
      destruct (bw_edge _ Hb _ _ _ E) as (_&Hx&Hy&_). rewrite Hdir in Hp.
      destruct Hp as [[-> ->]|[? _]]; [|done]. rewrite E2 in Hy. by destruct Hy.
    + rewrite H3. case_bool_decide as Hp; [|done]. destruct (adj_get (b_from b) x y) eqn:E; [|done].
      destruct (bw_edge _ Hb _ _ _ E) as (_&Hx&Hy&_). rewrite Hdir in Hp.
      destruct Hp as [[-> ->]|[? _]]; [|done]. rewrite E1 in Hx. by destruct Hx.
  - intros Hdir x y. rewrite !Ha, (bw_sym _ Hb Hdir x y). apply bool_decide_ext_if.
    unfold same_pair. naive_solver.
Qed.

Lemma b_remove_node_ok b id :
  bwf b ->
  let b' := b_remove_node b id in
  b_dir b' = b_dir b /\ b_nodes b' = delete id (b_nodes b) /\
  b_self b' = b_self b /\ b_absent b' = b_absent b /\
  (forall x y, adj_get (b_from b') x y =
     if bool_decide (x = id \/ y = id) then None else adj_get (b_from b) x y) /\
  (b_dir b = true -> forall x y, adj_get (b_to b') y x = adj_get (b_from b') x y) /\
  b_ids b' = match b_nodes b !! id with Some _ => idset_release (b_ids b) id | None => b_ids b end.
Proof.
  intros Hb. unfold b_remove_node. destruct (b_nodes b !! id) as [n|] eqn:E.
  2:{ simpl. split; [done|]. split; [by rewrite delete_notin|]. do 2 (split; [done|]). split.
      - intros x y. case_bool_decide as Hp; [|done]. destruct (adj_get (b_from b) x y) eqn:E1; [|done].
        destruct (bw_edge _ Hb _ _ _ E1) as (_&Hx&Hy&_).
        destruct Hp as [-> | ->]; rewrite E in *; by destruct Hx, Hy.
      - split; [|done]. intros Hdir x y. by apply (bw_to _ Hb). }
  destruct (b_dir b) eqn:Hd; cbn [b_dir b_nodes b_from b_to b_self b_absent b_ids].
  - set (succs := (map_to_list (default ∅ (b_from b !! id))).*1).
    set (to1 := foldr (fun v m => adj_del m v id) (b_to b) succs).
    assert (Hto1 : forall x y, adj_get to1 y x = if bool_decide (x = id) then None else adj_get (b_from b) x y).
    { intros x y. unfold to1. rewrite adj_get_foldr_del, (bw_to _ Hb Hd).
      destruct (decide (x = id)) as [->|Hx].
      - rewrite (bool_decide_true (id = id)) by done. case_bool_decide as Hs; [done|].
        destruct (adj_get (b_from b) id y) as [e|] eqn:Ey; [|done]. destruct Hs. split; [|done].
        apply elem_of_row_keys. by exists e.
      - rewrite !bool_decide_false by naive_solver. done. }
    assert (Hfrom : forall x y, adj_get (foldr (fun v m => adj_del m v id) (delete id (b_from b))
        (map_to_list (default ∅ (to1 !! id))).*1) x y =
        if bool_decide (x = id \/ y = id) then None else adj_get (b_from b) x y).
    { intros x y. rewrite adj_get_foldr_del, adj_get_delete_row.
      destruct (decide (x = id)) as [->|Hx].
      - rewrite (bool_decide_true (id = id)) by done. rewrite (bool_decide_true (id = id \/ y = id)) by auto.
        by case_bool_decide.
      - rewrite (bool_decide_false (x = id)) by done. destruct (decide (y = id)) as [->|Hy].
        + rewrite (bool_decide_true (x = id \/ id = id)) by auto. case_bool_decide as Hs; [done|].
          destruct (adj_get (b_from b) x id) as [e|] eqn:Ex; [|done]. destruct Hs. split; [|done].
          apply elem_of_row_keys. rewrite Hto1, bool_decide_false by done. by exists e.
        + rewrite !bool_decide_false by naive_solver. done. }
    do 4 (split; [done|]). split; [done|]. split; [|done]. intros _ x y.
    rewrite Hfrom, adj_get_delete_row, Hto1. destruct (decide (x = id)), (decide (y = id)).
    + by rewrite !bool_decide_true by auto.
    + rewrite (bool_decide_false (y = id)), !bool_decide_true by auto. done.
    + rewrite !bool_decide_true by auto. done.
    + rewrite !bool_decide_false by naive_solver. done.
  - do 4 (split; [done|]). split; [|done]. intros x y.
    rewrite adj_get_delete_row, adj_get_foldr_del.
    destruct (decide (x = id)) as [->|Hx].
    + rewrite !bool_decide_true by auto. done.
    + rewrite (bool_decide_false (x = id)) by done. destruct (decide (y = id)) as [->|Hy].
      * rewrite (bool_decide_true (x = id \/ id = id)) by auto. case_bool_decide as Hs; [done|].
        destruct (adj_get (b_from b) x id) as [e|] eqn:Ex; [|done]. destruct Hs. split; [|done].
        apply elem_of_row_keys. rewrite (bw_sym _ Hb Hd). by exists e.
      * rewrite !bool_decide_false by naive_solver. done.
Qed.

Lemma bwf_remove_node b id : bwf b -> bwf (b_remove_node b id).
Proof.
  intros Hb. destruct (b_remove_node_ok b id Hb) as (Hd&Hn&_&_&Ha&Ht&Hi).
  split; rewrite ?Hd, ?Hn, ?Hi.
  - intros i n. rewrite lookup_delete_Some. intros [_ H]. by apply (bw_id _ Hb).
  - intros x y e. rewrite Ha. case_bool_decide as Hp; [done|]. intros He.
    destruct (bw_edge _ Hb _ _ _ He) as (?&?&?&?).
    rewrite !lookup_delete_ne by naive_solver. done.
  - done.
  - intros Hdir x y. rewrite !Ha, (bw_sym _ Hb Hdir x y). apply bool_decide_ext_if. naive_solver.
  - rewrite dom_delete_L. destruct (b_nodes b !! id) eqn:E; simpl; rewrite (bw_used _ Hb); [done|].
    apply not_elem_of_dom in E. set_solver.
  - pose proof (bw_free _ Hb). destruct (b_nodes b !! id) eqn:E; simpl; set_solver.
  - intros i. pose proof (bw_max _ Hb i). destruct (b_nodes b !! id) eqn:E; simpl; [|done]. set_solver.
Qed.

(** ** fresh ids *)
Lemma b_new_node_id_fresh o st b id :
  bwf b -> b_new_node_id o st b = Ok id -> b_nodes b !! id = None.
Proof.
  intros Hb. unfold b_new_node_id. case_bool_decide as Hs.
  - intros [= <-]. apply map_size_empty_inv in Hs. by rewrite Hs.
  - case_bool_decide; [done|]. unfold idset_new_id.
    destruct (shuffle o st (elements (is_free (b_ids b)))) as [|i l] eqn:E.
    + case_bool_decide; [done|]. intros [= <-].
      destruct (b_nodes b !! (is_max (b_ids b) + 1)%Z) eqn:En; [|done].
      assert (Hin : (is_max (b_ids b) + 1)%Z ∈ is_used (b_ids b)).
      { rewrite (bw_used _ Hb). apply elem_of_dom. eauto. }
      apply (bw_max _ Hb) in Hin. lia.
    + intros [= ->]. assert (Hin : id ∈ is_free (b_ids b)).
      { apply elem_of_elements. rewrite <- (shuffle_perm o _ st), E. left. }
      apply not_elem_of_dom. rewrite <- (bw_used _ Hb). pose proof (bw_free _ Hb). set_solver.
Qed.

Lemma b_new_node_id_panic o st b :
  match b_new_node_id o st b with
  | Ok _ => True
  | Err _ => False
  | Panic p => p = PNoSlot /\ (Z.of_nat (size (b_nodes b)) = max_int64 \/ is_max (b_ids b) = max_int64)
  end.
Proof.
  unfold b_new_node_id, idset_new_id.
  case_bool_decide; [done|]. case_bool_decide; [auto|].
  destruct (shuffle o st (elements (is_free (b_ids b)))); [|done]. case_bool_decide; auto.
Qed.

(** ** enumeration *)
Lemma nodes_of_keys_ok b ks :
  Forall (fun k => is_Some (b_nodes b !! k)) ks ->
  exists ns, nodes_of_keys b ks = Ok ns /\ Forall2 (fun k n => b_nodes b !! k = Some n) ks ns.
Proof.
  induction 1 as [|k ks [n Hn] _ IH]; simpl.
  - exists []. done.
  - destruct IH as (ns&->&H2). rewrite Hn. exists (n :: ns). split; [done|]. by constructor.
Qed.

Lemma b_from_nodes_ok o st b id :
  bwf b ->
  exists ns, b_from_nodes o st b id = Ok ns /\ NoDup (n_id <$> ns) /\
    forall n, n ∈ ns <-> b_nodes b !! n_id n = Some n /\ is_Some (adj_get (b_from b) id (n_id n)).
Proof.
  intros Hb. unfold b_from_nodes.
  set (ks := shuffle o st (map_to_list (default ∅ (b_from b !! id))).*1).
  assert (Hks : ks ≡ₚ (map_to_list (default ∅ (b_from b !! id))).*1) by apply shuffle_perm.
  assert (Hin : forall k, k ∈ ks <-> is_Some (adj_get (b_from b) id k)).
  { intros k. rewrite Hks. apply elem_of_row_keys. }
  destruct (nodes_of_keys_ok b ks) as (ns&Hns&H2).
  { apply Forall_forall. intros k Hk. apply Hin in Hk as [e He].
    destruct (bw_edge _ Hb _ _ _ He) as (_&_&?&_). done. }
  exists ns. split; [done|].
  assert (Hids : n_id <$> ns = ks).
  { clear Hns Hks Hin. induction H2 as [|k n ks' ns' Hk _ IH]; [done|]. rewrite fmap_cons, IH.
    by rewrite (bw_id _ Hb _ _ Hk). }
  split.
  - rewrite Hids, Hks. apply NoDup_fst_map_to_list.
  - intros n. split.
    + intros Hn. apply elem_of_list_lookup in Hn as [i Hi].
      destruct (Forall2_lookup_r _ _ _ _ _ H2 Hi) as (k&Hk&Hbk).
      rewrite (bw_id _ Hb _ _ Hbk). split; [done|]. apply Hin. apply elem_of_list_lookup. eauto.
    + intros [Hn Hadj]. apply Hin in Hadj. apply elem_of_list_lookup in Hadj as [i Hi].
      destruct (Forall2_lookup_l _ _ _ _ _ H2 Hi) as (m&Hm&Hbm). rewrite Hn in Hbm. injection Hbm as ->.
      apply elem_of_list_lookup. eauto.
Qed.

Lemma b_all_nodes_in o st b n :
  bwf b -> n ∈ b_all_nodes o st b <-> b_nodes b !! n_id n = Some n.
Proof.
  intros Hb. unfold b_all_nodes. rewrite elem_of_list_fmap. split.
  - intros ([k m]&->&Hin). apply elem_of_map_range in Hin. simpl. by rewrite (bw_id _ Hb _ _ Hin).
  - intros Hn. exists (n_id n, n). split; [done|]. by apply elem_of_map_range.
Qed.

Lemma b_all_nodes_nodup o st b : bwf b -> NoDup (n_id <$> b_all_nodes o st b).
Proof.
  intros Hb. unfold b_all_nodes.
  assert (Hf : Forall (fun kv : Z * node => n_id kv.2 = kv.1) (map_range o st (b_nodes b))).
  { apply Forall_forall. intros [k m] Hin. apply elem_of_map_range in Hin. by apply (bw_id _ Hb). }
  assert (Heq : n_id <$> (map_range o st (b_nodes b)).*2 = (map_range o st (b_nodes b)).*1).
  { induction Hf as [|[k m] l Hk _ IH]; [done|]. rewrite !fmap_cons, IH. simpl in *. by rewrite Hk. }
  rewrite Heq. apply map_range_keys_nodup.
Qed.

Lemma wedges_directed_in o st b i ns e :
  e ∈ wedges_directed o st b i ns <-> exists n y, n ∈ ns /\ adj_get (b_from b) (n_id n) y = Some e.
Proof.
  revert i. induction ns as [|u ns IH]; intros i; simpl.
  - split; [by intros ?%elem_of_nil|]. intros (n&y&Hn&_). by apply elem_of_nil in Hn.
  - rewrite elem_of_app, IH. split.
    + intros [Hin|(n&y&Hn&He)].
      * apply elem_of_list_fmap in Hin as ([y e']&->&Hin). apply elem_of_map_range in Hin.
        exists u, y. split; [left|]. unfold adj_get. simpl in *.
        destruct (b_from b !! n_id u); [done|]. simpl in Hin. by rewrite lookup_empty in Hin.
      * exists n, y. split; [by right|done].
    + intros (n&y&Hn&He). apply elem_of_cons in Hn as [->|Hn]; [left|right; eauto].
      apply elem_of_list_fmap. exists (y, e). split; [done|]. apply elem_of_map_range.
      unfold adj_get in He. destruct (b_from b !! n_id u); [done|]. done.
Qed.

Lemma wedges_directed_nodup o st b i ns :
  bwf b -> b_dir b = true -> NoDup (n_id <$> ns) ->
  NoDup (ends <$> wedges_directed o st b i ns).
Proof.
  intros Hb Hd. revert i. induction ns as [|u ns IH]; intros i Hnd; simpl; [constructor|].
  rewrite fmap_cons in Hnd. apply NoDup_cons in Hnd as [Hu Hnd].
  rewrite fmap_app. apply NoDup_app. split_and!.
  - set (row := map_range o (st ++ [1; i]) (default ∅ (b_from b !! n_id u))).
    assert (Hf : Forall (fun ke : Z * edge => ends ke.2 = (n_id u, ke.1)) row).
    { apply Forall_forall. intros [y e] Hin. apply elem_of_map_range in Hin.
      assert (He : adj_get (b_from b) (n_id u) y = Some e).
      { unfold adj_get. destruct (b_from b !! n_id u); [done|]. simpl in Hin. by rewrite lookup_empty in Hin. }
      destruct (bw_edge _ Hb _ _ _ He) as (_&_&_&[?|[? _]]); [done|congruence]. }
    assert (Heq : ends <$> row.*2 = (fun y => (n_id u, y)) <$> row.*1).
    { induction Hf as [|[y e] l Hy _ IH']; [done|]. rewrite !fmap_cons, IH'. simpl in *. by rewrite Hy. }
    rewrite Heq. apply NoDup_fmap_2; [|apply map_range_keys_nodup]. intros ?? [= ->]. done.
  - intros p Hp Hq. apply elem_of_list_fmap in Hp as (e&->&He).
    apply elem_of_list_fmap in Hq as (e'&Hee&He').
    apply elem_of_list_fmap in He as ([y e0]&->&He). apply elem_of_map_range in He. simpl in *.
    assert (Hadj : adj_get (b_from b) (n_id u) y = Some e0).
    { unfold adj_get. destruct (b_from b !! n_id u); [done|]. simpl in He. by rewrite lookup_empty in He. }
    destruct (bw_edge _ Hb _ _ _ Hadj) as (_&_&_&[E1|[? _]]); [|congruence].
    apply wedges_directed_in in He' as (n&y'&Hn&Hadj').
    destruct (bw_edge _ Hb _ _ _ Hadj') as (_&_&_&[E2|[? _]]); [|congruence].
    rewrite E1, E2 in Hee. injection Hee as Hn' _. apply Hu. rewrite Hn'. by apply elem_of_list_fmap_1.
  - by apply IH.
Qed.

(** the undirected enumeration *)
Definition flip (p : Z * Z) : Z * Z := (p.2, p.1).
Definition seen_sym (s : gset (Z * Z)) : Prop := forall p, p ∈ s <-> flip p ∈ s.

Lemma flip_flip p : flip (flip p) = p. Proof. by destruct p. Qed.

(** unordered pairs of a list of edges are pairwise different *)
Definition upairs_nodup (l : list edge) : Prop :=
  forall i j e1 e2, l !! i = Some e1 -> l !! j = Some e2 ->
    ends e1 = ends e2 \/ ends e1 = flip (ends e2) -> i = j.

Lemma upairs_nodup_cons e l :
  upairs_nodup (e :: l) <->
  (forall e', e' ∈ l -> ends e <> ends e' /\ ends e <> flip (ends e')) /\ upairs_nodup l.
Proof.
  split.
  - intros H. split.
    + intros e' He'. apply elem_of_list_lookup in He' as [j Hj].
      assert (Hn : ~ (ends e = ends e' \/ ends e = flip (ends e'))).
      { intros Hor. by specialize (H 0 (S j) e e' eq_refl Hj Hor). }
      split; intros E; apply Hn; auto.
    + intros i j e1 e2 H1 H2 Hor. specialize (H (S i) (S j) e1 e2 H1 H2 Hor). by injection H.
  - intros [He Hl] [|i] [|j] e1 e2 H1 H2 Hor; simpl in *; [done| | |].
    + injection H1 as ->. destruct (He e2) as [? ?]; [apply elem_of_list_lookup; eauto|]. naive_solver.
    + injection H2 as ->. destruct (He e1) as [Ha Hb]; [apply elem_of_list_lookup; eauto|].
      destruct Hor as [E|E]; [by rewrite E in Ha|]. rewrite E, flip_flip in Hb. done.
    + f_equal. eauto.
Qed.

Lemma dedup_row_spec row s :
  seen_sym s ->
  let '(l, s') := dedup_row s row in
  seen_sym s' /\
  (forall p, p ∈ s' <-> p ∈ s \/ exists e, e ∈ row /\ (ends e = p \/ ends e = flip p)) /\
  (forall e, e ∈ l -> e ∈ row /\ ends e ∉ s) /\
  (forall e, e ∈ row -> ends e ∈ s \/ exists e', e' ∈ l /\ (ends e' = ends e \/ ends e' = flip (ends e))) /\
  upairs_nodup l.
Proof.
  revert s. induction row as [|e row IH]; intros s Hs; simpl.
  - split_and!; try done.
    + intros p. split; [by left|]. intros [?|(e&He&_)]; [done|]. by apply elem_of_nil in He.
    + intros e He. by apply elem_of_nil in He.
    + intros e He. by apply elem_of_nil in He.
  - change (n_id (ed_from e), n_id (ed_to e)) with (ends e).
    change (n_id (ed_to e), n_id (ed_from e)) with (flip (ends e)).
    case_bool_decide as Hin.
    + specialize (IH s Hs). destruct (dedup_row s row) as [l s']. destruct IH as (H1&H2&H3&H4&H5).
      split_and!; try done.
      * intros p. rewrite H2. split.
        -- intros [?|(e'&?&?)]; [by left|]. right. exists e'. split; [by right|done].
        -- intros [?|(e'&He'&Hor)]; [by left|]. apply elem_of_cons in He' as [->|He'].
           ++ left. destruct Hor as [<-|Hf]; [done|]. apply (proj2 (Hs p)). by rewrite <- Hf.
           ++ right. eauto.
      * intros e' He'. destruct (H3 _ He'). split; [by right|done].
      * intros e' He'. apply elem_of_cons in He' as [->|He']; [by left|]. by apply H4.
    + set (s1 := {[ends e]} ∪ ({[flip (ends e)]} ∪ s)).
      assert (Hs1 : forall p, p ∈ s1 <-> p = ends e \/ p = flip (ends e) \/ p ∈ s).
      { intros p. unfold s1. set_solver. }
      assert (Hsym1 : seen_sym s1).
      { intros p. rewrite !Hs1, (Hs p). split; intros [H|[H|H]]; auto.
        - subst. auto.
        - subst. rewrite flip_flip. auto.
        - right. left. rewrite <- H, flip_flip. done.
        - left. rewrite <- (flip_flip p), H, flip_flip. done. }
      specialize (IH s1 Hsym1). destruct (dedup_row s1 row) as [l s']. destruct IH as (H1&H2&H3&H4&H5).
      split_and!.
      * done.
      * intros p. rewrite H2, Hs1. split.
        -- intros [[-> | [->|H]]|(e'&He'&Hor)].
           ++ right. exists e. split; [left|auto].
           ++ right. exists e. split; [left|]. right. by rewrite flip_flip.
           ++ by left.
           ++ right. exists e'. split; [by right|done].
        -- intros [H|(e'&He'&Hor)]; [auto|]. apply elem_of_cons in He' as [->|He'].
           ++ left. destruct Hor as [-> | ->]; [auto|]. right. left. by rewrite flip_flip.
           ++ right. eauto.
      * intros e' He'. apply elem_of_cons in He' as [->|He']; [split; [left|done]|].
        destruct (H3 _ He') as [Hr Hn]. split; [by right|]. intros Hin0. apply Hn, Hs1. auto.
      * intros e' He'. apply elem_of_cons in He' as [->|He'].
        -- right. exists e. split; [left|auto].
        -- destruct (H4 _ He') as [Hs'|(e2&He2&Hor)].
           ++ apply Hs1 in Hs' as [E|[E|E]]; [..|by left].
              ** right. exists e. split; [left|auto].
              ** right. exists e. split; [left|]. right. by rewrite E, flip_flip.
           ++ right. exists e2. split; [by right|done].
      * apply upairs_nodup_cons. split; [|done]. intros e' He'. destruct (H3 _ He') as [_ Hn].
        split; intros E; apply Hn, Hs1.
        -- by left.
        -- right. left. by rewrite E, flip_flip.
Qed.

Lemma upairs_nodup_app l1 l2 :
  upairs_nodup l1 -> upairs_nodup l2 ->
  (forall e1 e2, e1 ∈ l1 -> e2 ∈ l2 -> ends e2 <> ends e1 /\ ends e2 <> flip (ends e1)) ->
  upairs_nodup (l1 ++ l2).
Proof.
  induction l1 as [|e l1 IH]; intros H1 H2 H12; [done|]. simpl.
  apply upairs_nodup_cons in H1 as [He H1]. apply upairs_nodup_cons. split.
  - intros e' He'. apply elem_of_app in He' as [He'|He']; [by apply He|].
    destruct (H12 e e') as [Ha Hb]; [left|done|]. split; [by intros E; rewrite E in Ha|].
    intros E. rewrite E, flip_flip in Hb. done.
  - apply IH; [done..|]. intros e1 e2 ??. apply H12; [by right|done].
Qed.

Lemma wedges_undirected_spec o st i s rows :
  seen_sym s ->
  (forall e, e ∈ wedges_undirected o st i s rows ->
     (exists r y, r ∈ rows /\ r !! y = Some e) /\ ends e ∉ s) /\
  (forall r y e, r ∈ rows -> r !! y = Some e ->
     ends e ∈ s \/ exists e', e' ∈ wedges_undirected o st i s rows /\ (ends e' = ends e \/ ends e' = flip (ends e))) /\
  upairs_nodup (wedges_undirected o st i s rows).
Proof.
  revert i s. induction rows as [|r rows IH]; intros i s Hs; simpl.
  - split_and!.
    + intros e He. by apply elem_of_nil in He.
    + intros r y e Hr. by apply elem_of_nil in Hr.
    + by intros ????.
  - set (row := (map_range o (st ++ [1; i]) r).*2).
    assert (Hrow : forall e, e ∈ row <-> exists y, r !! y = Some e).
    { intros e. unfold row. rewrite elem_of_list_fmap. split.
      - intros ([y e']&->&Hin). apply elem_of_map_range in Hin. eauto.
      - intros [y Hy]. exists (y, e). split; [done|]. by apply elem_of_map_range. }
    pose proof (dedup_row_spec row s Hs) as Hd. destruct (dedup_row s row) as [l s'].
    destruct Hd as (D1&D2&D3&D4&D5). destruct (IH (S i) s' D1) as (I1&I2&I3). split_and!.
    + intros e He. apply elem_of_app in He as [He|He].
      * destruct (D3 _ He) as [Hr Hn]. split; [|done]. apply Hrow in Hr as [y Hy].
        exists r, y. split; [left|done].
      * destruct (I1 _ He) as [(r'&y&Hr'&Hy) Hn]. split; [exists r', y; split; [by right|done]|].
        intros Hin. apply Hn. apply D2. by left.
    + intros r' y e Hr' Hy. apply elem_of_cons in Hr' as [->|Hr'].
      * destruct (D4 e) as [?|(e'&He'&Hor)]; [apply Hrow; eauto|by left|].
        right. exists e'. split; [apply elem_of_app; by left|done].
      * destruct (I2 r' y e Hr' Hy) as [Hin|(e'&He'&Hor)].
        -- apply D2 in Hin as [Hin|(e0&He0&Hor0)]; [by left|].
           destruct (D4 e0 He0) as [Hin0|(e1&He1&Hor1)].
           ++ left. destruct Hor0 as [<-|E]; [done|]. rewrite (Hs (ends e)), <- E. done.
           ++ right. exists e1. split; [apply elem_of_app; by left|].
              destruct Hor0 as [E|E]; rewrite E in Hor1; [done|]. rewrite flip_flip in Hor1. destruct Hor1; auto.
        -- right. exists e'. split; [apply elem_of_app; by right|done].
    + apply upairs_nodup_app; [done..|]. intros e1 e2 H1 H2.
      destruct (I1 _ H2) as [_ Hn]. destruct (D3 _ H1) as [Hr _].
      split; intros E; apply Hn; apply D2; right; exists e1; (split; [done|]).
      * by left.
      * right. by rewrite E, flip_flip.
Qed.

(** Edges, both kinds. *)
Lemma b_weighted_edges_in o st b e :
  bwf b -> e ∈ b_weighted_edges o st b -> adj_get (b_from b) (ends e).1 (ends e).2 = Some e.
Proof.
  intros Hb. unfold b_weighted_edges. destruct (b_dir b) eqn:Hd.
  - intros He. apply wedges_directed_in in He as (n&y&Hn&He).
    destruct (bw_edge _ Hb _ _ _ He) as (_&_&_&[E|[? _]]); [|congruence]. by rewrite E.
  - intros He. destruct (wedges_undirected_spec o st 0 ∅ (map_range o (st ++ [0]) (b_from b)).*2) as (H1&_&_).
    { intros p. set_solver. }
    destruct (H1 _ He) as [(r&y&Hr&Hy) _].
    apply elem_of_list_fmap in Hr as ([x r']&->&Hr). apply elem_of_map_range in Hr. simpl in Hr, Hy.
    assert (Hadj : adj_get (b_from b) x y = Some e) by (unfold adj_get; by rewrite Hr).
    destruct (bw_edge _ Hb _ _ _ Hadj) as (_&_&_&[E|[_ E]]); rewrite E; simpl; [done|].
    by rewrite (bw_sym _ Hb Hd).
Qed.

Lemma b_weighted_edges_complete o st b x y e :
  bwf b -> adj_get (b_from b) x y = Some e -> e ∈ b_weighted_edges o st b.
Proof.
  intros Hb He. destruct (bw_edge _ Hb _ _ _ He) as (Hne&[n Hn]&_&Hends).
  unfold b_weighted_edges. destruct (b_dir b) eqn:Hd.
  - apply wedges_directed_in. exists n, y. rewrite (bw_id _ Hb _ _ Hn). split; [|done].
    apply b_all_nodes_in; [done|]. by rewrite (bw_id _ Hb _ _ Hn).
  - destruct (wedges_undirected_spec o st 0 ∅ (map_range o (st ++ [0]) (b_from b)).*2) as (H1&H2&_).
    { intros p. set_solver. }
    pose proof He as He0. unfold adj_get in He0. destruct (b_from b !! x) as [r|] eqn:Er; [|done]. simpl in He0.
    destruct (H2 r y e) as [Hin|(e'&He'&Hor)].
    + apply elem_of_list_fmap. exists (x, r). split; [done|]. by apply elem_of_map_range.
    + done.
    + set_solver.
    + pose proof (b_weighted_edges_in o st b e' Hb) as Hin. unfold b_weighted_edges in Hin.
      rewrite Hd in Hin. specialize (Hin He').
      assert (Hxy : adj_get (b_from b) (ends e).1 (ends e).2 = Some e).
      { destruct Hends as [E|[_ E]]; rewrite E; simpl; [done|]. by rewrite (bw_sym _ Hb Hd). }
      assert (e' = e); [|by subst].
      destruct Hor as [E|E]; rewrite E in Hin.
      * congruence.
      * unfold flip in Hin. cbn [fst snd] in Hin. rewrite (bw_sym _ Hb Hd) in Hin. congruence.
Qed.

Lemma b_weighted_edges_nodup o st b :
  bwf b ->
  NoDup (ends <$> b_weighted_edges o st b) /\
  (b_dir b = false -> upairs_nodup (b_weighted_edges o st b)).
Proof.
  intros Hb. unfold b_weighted_edges. destruct (b_dir b) eqn:Hd.
  - split; [|done]. apply wedges_directed_nodup; [done..|]. by apply b_all_nodes_nodup.
  - destruct (wedges_undirected_spec o st 0 ∅ (map_range o (st ++ [0]) (b_from b)).*2) as (_&_&H3).
    { intros p. set_solver. }
    split; [|done]. apply NoDup_alt. intros i j p Hi Hj.
    rewrite list_lookup_fmap in Hi, Hj. apply fmap_Some in Hi as (e1&He1&->).
    apply fmap_Some in Hj as (e2&He2&E). eapply H3; eauto.
Qed.
