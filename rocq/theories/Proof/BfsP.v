(** gonum's breadth first walk visits the ball of the given radius. *)
From Verif.Model Require Import Gonum.
From Verif.Proof Require Import GonumP.

(** walks in the adjacency map *)
Inductive bpath (b : builder) (x : Z) : nat -> Z -> Prop :=
| bpath_here : bpath b x 0 x
| bpath_step k y z : bpath b x k y -> is_Some (adj_get (b_from b) y z) -> bpath b x (S k) z.

Definition ids (l : list node) : list Z := n_id <$> l.

(** state of the walk from [r]: level [D], nodes [L] of that level still to be
    expanded, children [C] found so far *)
Record binv (b : builder) (root : node) (depth : Z) (s : bfs) (D : nat) (L C : list node) : Prop := {
  bi_queue : f_queue s = L ++ C;
  bi_level : L = [] -> C = [];
  bi_depth : f_depth s = Z.of_nat D;
  bi_next : f_until_next s = Z.of_nat (length L);
  bi_children : f_children s = length C;
  bi_limit : (depth < 0 \/ Z.of_nat D <= depth)%Z;
  bi_visited : forall i, i ∈ f_visited s <-> i ∈ ids (f_order s);
  bi_nodup : NoDup (ids (f_order s));
  bi_stored : forall n, n ∈ f_order s -> n = root \/ b_nodes b !! n_id n = Some n;
  bi_root : n_id root ∈ f_visited s;
  bi_qsub : forall n, n ∈ L ++ C -> n ∈ f_order s;
  bi_qnodup : NoDup (ids (L ++ C));
  bi_sound : forall i, i ∈ f_visited s -> i ∉ ids C -> exists k, k <= D /\ bpath b (n_id root) k i;
  bi_l : forall n, n ∈ L -> bpath b (n_id root) D (n_id n);
  bi_c : forall n, n ∈ C -> bpath b (n_id root) (S D) (n_id n);
  bi_cfar : forall n k, n ∈ C -> k <= D -> ~ bpath b (n_id root) k (n_id n);
  bi_near : forall i k, k <= D -> bpath b (n_id root) k i -> i ∈ f_visited s;
  bi_closed : forall i j, i ∈ f_visited s -> i ∉ ids (L ++ C) ->
                is_Some (adj_get (b_from b) i j) -> j ∈ f_visited s;
}.

Lemma elem_of_ids n l : n ∈ l -> n_id n ∈ ids l.
Proof. intros H. apply elem_of_list_fmap. eauto. Qed.

(** expanding the first node [t] of the level: the scan of its successors *)
Lemma bfs_scan_ok b root depth s D t L C ns :
  bwf b -> binv b root depth s D (t :: L) C -> Z.of_nat D <> depth ->
  NoDup (ids ns) ->
  (forall n, n ∈ ns -> b_nodes b !! n_id n = Some n /\ is_Some (adj_get (b_from b) (n_id t) (n_id n))) ->
  forall s0, s0 = s ->
  exists C' s', s' = bfs_scan (Bfs (L ++ C) (f_visited s) (f_order s) (f_depth s) (f_children s) (f_until_next s)) ns /\
    f_queue s' = L ++ C ++ C' /\ f_visited s' = list_to_set (ids C') ∪ f_visited s /\
    f_order s' = f_order s ++ C' /\ f_depth s' = f_depth s /\
    f_children s' = f_children s + length C' /\ f_until_next s' = f_until_next s /\
    NoDup (ids C') /\ (forall n, n ∈ C' -> n ∈ ns /\ n_id n ∉ f_visited s) /\
    (forall n, n ∈ ns -> n_id n ∈ f_visited s').
Proof.
  intros Hb _ _ Hnd _ s0 _. 
  assert (Hgen : forall ns q V O d c u, NoDup (ids ns) ->
    exists C' s', s' = bfs_scan (Bfs q V O d c u) ns /\
    f_queue s' = q ++ C' /\ f_visited s' = list_to_set (ids C') ∪ V /\
    f_order s' = O ++ C' /\ f_depth s' = d /\
    f_children s' = c + length C' /\ f_until_next s' = u /\
    NoDup (ids C') /\ (forall n, n ∈ C' -> n ∈ ns /\ n_id n ∉ V) /\
    (forall n, n ∈ ns -> n_id n ∈ f_visited s')).
  { clear. induction ns as [|n ns IH]; intros q V O d c u Hnd.
    - exists [], (Bfs q V O d c u). cbn. rewrite !app_nil_r. split_and!; try done; try lia.
      + by rewrite (left_id_L ∅ (∪)).
      + intros n Hn. by apply elem_of_nil in Hn.
      + intros n Hn. by apply elem_of_nil in Hn.
    - cbn [bfs_scan f_visited f_queue f_order f_depth f_children f_until_next].
      unfold ids in Hnd. rewrite fmap_cons in Hnd. apply NoDup_cons in Hnd as [Hn Hnd].
      case_bool_decide as Hv.
      + destruct (IH q V O d c u Hnd) as (C'&s'&->&H1&H2&H3&H4&H5&H6&H7&H8&H9).
        eexists C', _. split; [done|]. split_and!; try done.
        * intros m Hm. destruct (H8 m Hm). split; [by right|done].
        * intros m Hm. apply elem_of_cons in Hm as [->|Hm]; [|by apply H9]. rewrite H2. set_solver.
      + destruct (IH (q ++ [n]) ({[n_id n]} ∪ V) (O ++ [n]) d (S c) u Hnd) as (C'&s'&->&H1&H2&H3&H4&H5&H6&H7&H8&H9).
        eexists (n :: C'), _. split; [done|]. rewrite H1, H2, H3, H4, H5, H6. split_and!; try done.
        * by rewrite <- app_assoc.
        * cbn. set_solver.
        * by rewrite <- app_assoc.
        * cbn. lia.
        * unfold ids. rewrite fmap_cons. apply NoDup_cons. split; [|done].
          intros Hin. apply elem_of_list_fmap in Hin as (m&Em&Hm). apply H8 in Hm as [_ Hm]. apply Hm. set_solver.
        * intros m Hm. apply elem_of_cons in Hm as [->|Hm]; [split; [by left|done]|].
          destruct (H8 m Hm) as [H8a H8b]. split; [by right|]. set_solver.
        * intros m Hm. apply elem_of_cons in Hm as [->|Hm]; [set_solver|]. rewrite <- H2. by apply H9. }
  destruct (Hgen ns (L ++ C) (f_visited s) (f_order s) (f_depth s) (f_children s) (f_until_next s) Hnd)
    as (C'&s'&H). exists C', s'. by rewrite app_assoc.
Qed.

Lemma bfs_step_ok o st b root depth s D t L C :
  bwf b -> is_Some (b_nodes b !! n_id root) ->
  binv b root depth s D (t :: L) C -> Z.of_nat D <> depth ->
  exists ns, b_from_nodes o st b (n_id t) = Ok ns /\
    let s' := bfs_level (bfs_scan (Bfs (L ++ C) (f_visited s) (f_order s) (f_depth s) (f_children s) (f_until_next s)) ns) in
    (exists D' L' C', binv b root depth s' D' L' C' /\ (Z.of_nat D' = depth -> C' = [])) /\
    length (f_order s') + length (f_queue s) = S (length (f_order s) + length (f_queue s')).
Proof.
  intros Hb Hroot I Hd. destruct (b_from_nodes_ok o st b (n_id t) Hb) as (ns&Hns&Hnd&Hin).
  exists ns. split; [done|].
  destruct (bfs_scan_ok b root depth s D t L C ns Hb I Hd Hnd (fun n Hn => proj1 (Hin n) Hn) s eq_refl)
    as (C'&s1&Es&Hq&Hvis&Hord&Hdep&Hch&Hun&HndC&HC&Hall). cbn zeta. rewrite <- Es.
  destruct I as [Iq Il Id In Ich Ilim Iv Ind Ist Ir Iqs Iqn Iso IL IC Icf Inr Icl].
  assert (Hcount : forall sx, f_order sx = f_order s1 -> f_queue sx = f_queue s1 ->
     length (f_order sx) + length (f_queue s) = S (length (f_order s) + length (f_queue sx))).
  { intros sx -> ->. rewrite Hord, Hq, Iq, !app_length. cbn. lia. }
  assert (Hvis1 : forall i, i ∈ f_visited s1 <-> i ∈ f_visited s \/ i ∈ ids C').
  { intros i. rewrite Hvis, elem_of_union, elem_of_list_to_set. tauto. }
  assert (Hfresh : forall n, n ∈ C' -> n_id n ∉ f_visited s) by (intros n Hn; by apply HC).
  assert (Horder : forall i, i ∈ f_visited s1 <-> i ∈ ids (f_order s1)).
  { intros i. rewrite Hvis1, Hord. unfold ids. rewrite fmap_app, elem_of_app. rewrite Iv. done. }
  assert (HndO : NoDup (ids (f_order s1))).
  { rewrite Hord. unfold ids. rewrite fmap_app. apply NoDup_app. split_and!; [done| |done].
    intros i Hi Hc. apply elem_of_list_fmap in Hc as (n&->&Hn). apply (Hfresh n Hn). by apply Iv. }
  assert (Hst : forall n, n ∈ f_order s1 -> n = root \/ b_nodes b !! n_id n = Some n).
  { intros n. rewrite Hord, elem_of_app. intros [H|H]; [by apply Ist|]. right. apply HC in H as [H _]. by apply Hin. }
  assert (HtD : bpath b (n_id root) D (n_id t)) by (apply IL; left).
  assert (HC'path : forall n, n ∈ C' -> bpath b (n_id root) (S D) (n_id n)).
  { intros n Hn. apply HC in Hn as [Hn _]. apply Hin in Hn as [_ Ha]. by eapply bpath_step. }
  assert (HC'far : forall n k, n ∈ C' -> k <= D -> ~ bpath b (n_id root) k (n_id n)).
  { intros n k Hn Hk Hp. apply (Hfresh n Hn). by eapply Inr. }
  assert (Hqs : forall n, n ∈ L ++ C ++ C' -> n ∈ f_order s1).
  { intros n. rewrite Hord, !elem_of_app. intros [H|[H|H]]; [left; apply Iqs..|by right].
    - cbn. right. apply elem_of_app. by left.
    - cbn. right. apply elem_of_app. by right. }
  assert (Hqn : NoDup (ids (L ++ C ++ C'))).
  { unfold ids in *. rewrite app_assoc, fmap_app. cbn in Iqn. apply NoDup_cons in Iqn as [_ Iqn].
    apply NoDup_app. split_and!; [done| |done]. intros i Hi Hc. apply elem_of_list_fmap in Hc as (n&->&Hn).
    apply (Hfresh n Hn). apply Iv. apply elem_of_list_fmap in Hi as (m&->&Hm). apply elem_of_ids, Iqs. cbn. by right. }
  assert (Hclosed : forall i j, i ∈ f_visited s1 -> i ∉ ids (L ++ C ++ C') ->
                is_Some (adj_get (b_from b) i j) -> j ∈ f_visited s1).
  { intros i j Hi Hni Ha. unfold ids in Hni. rewrite app_assoc, fmap_app, elem_of_app in Hni.
    destruct (decide (i = n_id t)) as [->|Hne].
    - destruct Ha as [e He]. destruct (bw_edge _ Hb _ _ _ He) as (_&_&[m Hm]&_).
      pose proof (bw_id _ Hb _ _ Hm) as Hid. rewrite <- Hid. apply Hall. apply Hin. rewrite Hid. eauto.
    - apply Hvis1. left. apply (Icl i); [|cbn; rewrite elem_of_cons; naive_solver|done].
      apply Hvis1 in Hi as [Hi|Hi]; [done|]. naive_solver. }
  unfold bfs_level. rewrite Hun, In. cbn [length].
  case_bool_decide as Hlast.
  - (* the level is finished *)
    assert (L = []) as -> by (destruct L; [done|cbn in Hlast; lia]).
    split; [|by apply Hcount]. cbn [app] in *.
    exists (S D), (C ++ C'), []. split; [|done]. constructor; cbn [f_queue f_visited f_order f_depth f_children f_until_next]; try done.
    + by rewrite Hq, app_nil_r.
    + rewrite Hdep, Id. lia.
    + by rewrite Hch, Ich, app_length.
    + lia.
    + apply Hvis1. by left.
    + intros n. rewrite app_nil_r. apply Hqs.
    + by rewrite app_nil_r.
    + intros i Hi _. apply Hvis1 in Hi as [Hi|Hi].
      * destruct (decide (i ∈ ids C)) as [Hc|Hc].
        -- apply elem_of_list_fmap in Hc as (n&->&Hn). exists (S D). split; [lia|]. by apply IC.
        -- destruct (Iso i Hi Hc) as (k&Hk&Hp). exists k. split; [lia|done].
      * apply elem_of_list_fmap in Hi as (n&->&Hn). exists (S D). split; [lia|]. by apply HC'path.
    + intros n Hn. apply elem_of_app in Hn as [Hn|Hn]; [by apply IC|by apply HC'path].
    + intros n Hn. by apply elem_of_nil in Hn.
    + intros n k Hn. by apply elem_of_nil in Hn.
    + intros i k Hk Hp. destruct Hp as [|k y z Hp Ha]; [apply Hvis1; by left|].
      assert (Hy : y ∈ f_visited s) by (eapply Inr; [|exact Hp]; lia).
      apply (Hclosed y); [apply Hvis1; by left| |done].
      unfold ids. rewrite fmap_app, elem_of_app. intros [Hc|Hc].
      * apply elem_of_list_fmap in Hc as (n&->&Hn). apply (Icf n k Hn); [lia|done].
      * apply elem_of_list_fmap in Hc as (n&->&Hn). by apply (Hfresh n Hn).
    + rewrite app_nil_r. done.
  - split; [|by apply Hcount]. assert (L <> []) as HL by (intros ->; cbn in Hlast; lia).
    exists D, L, (C ++ C'). split; [|done]. constructor; cbn [f_queue f_visited f_order f_depth f_children f_until_next]; try done.
    + by rewrite Hdep.
    + lia.
    + by rewrite Hch, Ich, app_length.
    + apply Hvis1. by left.
    + intros i Hi Hc. unfold ids in Hc. rewrite fmap_app, elem_of_app in Hc.
      apply Hvis1 in Hi as [Hi|Hi]; [|by destruct Hc; right]. apply Iso; [done|]. intros H. apply Hc. by left.
    + intros n Hn. apply IL. by right.
    + intros n Hn. apply elem_of_app in Hn as [Hn|Hn]; [by apply IC|by apply HC'path].
    + intros n k Hn Hk. apply elem_of_app in Hn as [Hn|Hn]; [by apply Icf|by apply HC'far].
    + intros i k Hk Hp. apply Hvis1. left. by eapply Inr.
Qed.

Lemma bfs_order_bound b root depth s D L C :
  bwf b -> is_Some (b_nodes b !! n_id root) -> binv b root depth s D L C ->
  length (f_order s) <= size (b_nodes b).
Proof.
  intros Hb Hroot I. rewrite <- (size_dom (D:=gset Z)).
  assert (Hsub : (list_to_set (ids (f_order s)) : gset Z) ⊆ dom (b_nodes b)).
  { intros i Hi. apply elem_of_list_to_set, elem_of_list_fmap in Hi as (n&->&Hn). apply elem_of_dom.
    destruct (bi_stored _ _ _ _ _ _ _ I n Hn) as [->|Hs]; eauto. }
  apply subseteq_size in Hsub. rewrite size_list_to_set in Hsub by apply (bi_nodup _ _ _ _ _ _ _ I).
  unfold ids in Hsub. by rewrite fmap_length in Hsub.
Qed.

Definition in_radius (depth : Z) (k : nat) : Prop := (depth < 0)%Z \/ (Z.of_nat k <= depth)%Z.

Lemma bfs_loop_ok o st b root depth : forall fuel s D L C,
  bwf b -> is_Some (b_nodes b !! n_id root) ->
  binv b root depth s D L C -> (Z.of_nat D = depth -> C = []) ->
  fuel + length (f_order s) >= S (size (b_nodes b)) + length (f_queue s) ->
  exists order, bfs_loop o st b depth fuel s = Some (Ok order) /\
    NoDup (ids order) /\ (forall n, n ∈ order -> n = root \/ b_nodes b !! n_id n = Some n) /\
    (forall i, i ∈ ids order <-> exists k, in_radius depth k /\ bpath b (n_id root) k i).
Proof.
  induction fuel as [|fuel IH]; intros s D L C Hb Hroot I Hlim Hfuel;
    pose proof (bfs_order_bound _ _ _ _ _ _ _ Hb Hroot I) as Hbound;
    pose proof I as [Iq Il Id In Ich Ilimit Iv Ind Ist Ir Iqs Iqn Iso IL IC Icf Inr Icl].
  all: destruct L as [|t L];
    [specialize (Il eq_refl) as ->|].
  1,3: cbn [app] in Iq; cbn [bfs_loop]; rewrite Iq; exists (f_order s); split_and!; [done..|]; intros i; split;
    [intros Hi; apply Iv in Hi; destruct (Iso i Hi) as (k&Hk&Hp); [set_solver|]; exists k; split; [|done];
       unfold in_radius; lia
    |intros (k&_&Hp); apply Iv; induction Hp as [|k y z Hp IHp Ha]; [done|];
       apply (Icl y); [done|set_solver|done]].
  - exfalso. assert (length (f_queue s) <= length (f_order s)); [|lia].
    { rewrite Iq. rewrite <- (fmap_length n_id (f_order s)), <- (fmap_length n_id ((t :: L) ++ C)).
      apply submseteq_length, NoDup_submseteq; [done|]. intros i Hi.
      apply elem_of_list_fmap in Hi as (n&->&Hn). apply elem_of_ids. by apply Iqs. }
  - cbn [bfs_loop]. rewrite Iq. cbn [app]. rewrite Id. case_bool_decide as Hd.
    + exists (f_order s). specialize (Hlim Hd) as ->. split_and!; [done..|]. intros i. split.
      * intros Hi. apply Iv in Hi. destruct (Iso i Hi) as (k&Hk&Hp); [set_solver|]. exists k. split; [|done].
        unfold in_radius. lia.
      * intros (k&Hk&Hp). apply Iv. eapply Inr; [|exact Hp]. unfold in_radius in Hk. lia.
    + destruct (bfs_step_ok o (st ++ [S fuel]) b root depth s D t L C Hb Hroot I Hd) as (ns&Hns&Hs).
      rewrite Hns. destruct Hs as [(D'&L'&C'&I'&Hlim') Hcount]. rewrite Id in *.
      apply (IH _ D' L' C'); [done..|]. lia.
Qed.

Lemma bfs_walk_ok o st b root depth :
  bwf b -> is_Some (b_nodes b !! n_id root) ->
  exists order, bfs_walk o st b root depth = Some (Ok order) /\
    NoDup (ids order) /\ (forall n, n ∈ order -> n = root \/ b_nodes b !! n_id n = Some n) /\
    (forall i, i ∈ ids order <-> exists k, in_radius depth k /\ bpath b (n_id root) k i).
Proof.
  intros Hb Hroot. unfold bfs_walk. apply (bfs_loop_ok o st b root depth _ _ 0 [root] []); [done..| |done|].
  - constructor; cbn [f_queue f_visited f_order f_depth f_children f_until_next]; try done.
    + lia.
    + intros i. unfold ids. cbn. rewrite elem_of_singleton, elem_of_list_singleton. done.
    + unfold ids. apply NoDup_singleton.
    + intros n Hn. apply elem_of_list_singleton in Hn as ->. by left.
    + by apply elem_of_singleton.
    + unfold ids. apply NoDup_singleton.
    + intros i Hi _. apply elem_of_singleton in Hi as ->. exists 0. split; [lia|constructor].
    + intros n Hn. apply elem_of_list_singleton in Hn as ->. constructor.
    + intros n Hn. by apply elem_of_nil in Hn.
    + intros n k Hn. by apply elem_of_nil in Hn.
    + intros i k Hk Hp. assert (k = 0) as -> by lia. inversion Hp; subst. by apply elem_of_singleton.
    + intros i j Hi Hni. exfalso. apply Hni. apply elem_of_singleton in Hi as ->. unfold ids. cbn.
      by apply elem_of_list_singleton.
  - cbn. lia.
Qed.
