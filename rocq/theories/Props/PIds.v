(** C105: node ids stay compact. *)
From Verif.Model Require Import Graph.
From Verif.Spec Require Import GraphSpec.
From Verif.Proof Require Import AttrsP GonumP GraphP.
From Verif.Props Require Import PGraph.

(** the number of nodes Nodes() lists *)
Definition order (g : wg) : nat := match wg_nodes iter_id [] g with Ok ns => length ns | _ => 0 end.
(** one call that changes a graph whose nodes enter through NewNode *)
Inductive change (dir : bool) : wg -> wg -> Prop :=
| ch_put o st w g e nopts aopts n w1 :
    wg_new_node o st w g e nopts = Ok (n, w1) -> change dir g (wg_add_node g (MemNode n) aopts).2
| ch_remove g u : change dir g (wg_remove_node g u).2
| ch_link w g u v opts : change dir g (wg_link w g u v opts).2.2
| ch_unlink g u v : change dir g (wg_unlink g u v).2.
(** [peak]: the largest number of nodes the graph has had *)
Inductive history (dir : bool) : wg -> nat -> Prop :=
| hi_new w opts : history dir (if dir then (new_wdg w opts).1 else (new_wug w opts).1) 0
| hi_step g g' peak : history dir g peak -> change dir g g' -> history dir g' (peak `max` order g').
Lemma history_tidy dir g k : history dir g k -> tidy dir g.
Proof.
  induction 1 as [w opts|g g' k H IH C]; [apply tidy_new|].
  destruct C; [by eapply tidy_put|by apply tidy_remove|by apply tidy_link|by apply tidy_unlink].
Qed.

Lemma length_all_nodes o st b : length (b_all_nodes o st b) = size (b_nodes b).
Proof.
  unfold b_all_nodes. rewrite fmap_length. apply map_range_length.
Qed.
Lemma order_size g : order g = size (b_nodes (g_b g)).
Proof. unfold order, wg_nodes. apply length_all_nodes. Qed.
Lemma size_range (k : nat) : forall X : gset Z, (forall i, i ∈ X -> (0 <= i < Z.of_nat k)%Z) -> size X <= k.
Proof.
  induction k as [|k IH]; intros X H.
  - assert (X ≡ ∅) as E by (intros i; split; [intros Hi; apply H in Hi; lia|set_solver]).
    rewrite E. by rewrite size_empty.
  - assert (IH' : size (X ∖ {[Z.of_nat k]}) <= k).
    { apply IH. intros i Hi. apply elem_of_difference in Hi as [Hi N]. apply H in Hi. rewrite elem_of_singleton in N. lia. }
    assert (X ⊆ {[Z.of_nat k]} ∪ X ∖ {[Z.of_nat k]}) as S.
    { intros i Hi. destruct (decide (i = Z.of_nat k)); set_solver. }
    apply subseteq_size in S. rewrite size_union in S by set_solver. rewrite size_singleton in S. lia.
Qed.
Lemma range_size (k : nat) : forall X : gset Z, (forall i, (0 <= i < Z.of_nat k)%Z -> i ∈ X) -> k <= size X.
Proof.
  induction k as [|k IH]; intros X H; [lia|].
  assert (IH' : k <= size (X ∖ {[Z.of_nat k]})).
  { apply IH. intros i Hi. apply elem_of_difference. split; [apply H; lia|]. rewrite elem_of_singleton. lia. }
  assert (S : {[Z.of_nat k]} ∪ X ∖ {[Z.of_nat k]} ⊆ X).
  { intros i [->%elem_of_singleton|Hi]%elem_of_union; [apply H; lia|set_solver]. }
  apply subseteq_size in S. rewrite size_union in S by set_solver. rewrite size_singleton in S. lia.
Qed.

(** the used and the released ids are the ids below the peak *)
Definition compact (b : builder) (k : nat) : Prop :=
  (is_max (b_ids b) + 1 = Z.of_nat k)%Z /\
  forall i, i ∈ is_free (b_ids b) \/ i ∈ is_used (b_ids b) <-> (0 <= i < Z.of_nat k)%Z.
Lemma compact_size b k : bwf b -> compact b k -> size (b_nodes b) <= k.
Proof.
  intros Hb [_ H]. rewrite <- size_dom, <- (bw_used _ Hb). apply size_range. intros i Hi. apply H. by right.
Qed.
Lemma compact_put o st b k id n b' :
  bwf b -> compact b k -> b_new_node_id o st b = Ok id -> n_id n = id -> b_add_node b n = Ok b' ->
  compact b' (k `max` size (b_nodes b')).
Proof.
  intros Hb HC Hid Hn Ha. pose proof (b_new_node_id_fresh _ _ _ _ Hb Hid) as Hf.
  pose proof (compact_size _ _ Hb HC) as Hs. destruct HC as [Hm Hi].
  rewrite <- Hn in Hf. destruct (b_add_node_ok _ _ Hf) as (b1 & Hb1 & _ & Hn1 & _ & Hi1).
  assert (b1 = b') as -> by congruence. assert (Hsz : size (b_nodes b') = S (size (b_nodes b))) by (rewrite Hn1; by apply map_size_insert_None).
  unfold compact. rewrite Hsz.
  assert (Hids : b_ids b' = idset_use (b_ids b) (n_id n)) by naive_solver. rewrite Hids, Hn. unfold idset_use. cbn [is_max is_free is_used].
  unfold b_new_node_id in Hid. case_bool_decide as E0.
  - injection Hid as <-. rewrite E0. assert (U : forall i, ~ i ∈ is_used (b_ids b)).
    { intros i. rewrite (bw_used _ Hb), elem_of_dom. apply map_size_empty_inv in E0. rewrite E0, lookup_empty. by intros [? ?]. }
    case_bool_decide as E1; split; [lia| |lia|].
    + intros i. rewrite elem_of_difference, elem_of_union, elem_of_singleton. specialize (Hi i). specialize (U i).
      split; [intros [[? ?]|[-> |?]]; [|lia|tauto]|].
      * assert (0 <= i < Z.of_nat k)%Z by tauto. lia.
      * intros. right. left. lia.
    + intros i. rewrite elem_of_difference, elem_of_union, elem_of_singleton. specialize (Hi i). specialize (U i).
      split.
      * intros [[? ?]|[-> |?]]; [assert (0 <= i < Z.of_nat k)%Z by tauto; lia|lia|tauto].
      * intros Hk. destruct (decide (i = 0%Z)); [tauto|]. left. split; [|done].
        assert (0 <= i < Z.of_nat k)%Z by lia. tauto.
  - case_bool_decide as E2; [done|]. unfold idset_new_id in Hid.
    destruct (shuffle o st (elements (is_free (b_ids b)))) as [|j l] eqn:Es.
    + case_bool_decide as E3; [done|]. injection Hid as <-.
      assert (F : forall i, ~ i ∈ is_free (b_ids b)).
      { intros i H%elem_of_elements. rewrite <- (shuffle_perm o _ st) in H. rewrite Es in H. by apply elem_of_nil in H. }
      assert (Hk : size (b_nodes b) = k).
      { apply Nat.le_antisymm; [done|]. rewrite <- size_dom, <- (bw_used _ Hb). apply range_size. intros i H. apply Hi in H. specialize (F i). tauto. }
      rewrite Hk. rewrite bool_decide_true by lia. split; [lia|].
      intros i. rewrite elem_of_difference, elem_of_union, elem_of_singleton. specialize (Hi i). specialize (F i). split.
      * intros [[? ?]|[-> |?]]; [tauto|lia|]. assert (0 <= i < Z.of_nat k)%Z by tauto. lia.
      * intros. destruct (decide (i = (is_max (b_ids b) + 1)%Z)); [tauto|]. assert (0 <= i < Z.of_nat k)%Z by lia. tauto.
    + injection Hid as <-. assert (Hj : j ∈ is_free (b_ids b)).
      { apply elem_of_elements. rewrite <- (shuffle_perm o _ st), Es. by left. }
      assert (Hjk : (0 <= j < Z.of_nat k)%Z) by (apply Hi; by left).
      assert (Hk : S (size (b_nodes b)) <= k).
      { rewrite <- Hsz, <- size_dom, Hn1, dom_insert_L, <- (bw_used _ Hb), Hn. apply size_range.
        intros i [->%elem_of_singleton|H]%elem_of_union; [done|]. apply Hi. by right. }
      rewrite Nat.max_l by done. rewrite bool_decide_false by lia. split; [done|].
      intros i. rewrite elem_of_difference, elem_of_union, elem_of_singleton. specialize (Hi i).
      destruct (decide (i = j)) as [-> |N]; tauto.
Qed.

Lemma compact_same b b' k : b_ids b' = b_ids b -> compact b k -> compact b' k.
Proof. intros E. unfold compact. by rewrite E. Qed.
Lemma compact_step dir g g' k : gtidy dir g -> change dir g g' -> compact (g_b g) k -> compact (g_b g') (k `max` order g').
Proof.
  intros T C HC. assert (T' : gtidy dir g').
  { destruct C; [by eapply gtidy_put|by apply gtidy_remove|by apply gtidy_link|by apply gtidy_unlink]. }
  assert (same : b_ids (g_b g') = b_ids (g_b g) -> compact (g_b g') (k `max` order g')).
  { intros E. apply (compact_same _ _ _ E) in HC. rewrite Nat.max_l; [done|]. rewrite order_size.
    apply compact_size; [apply T'|done]. }
  destruct T as ((Hd & Hb & Hk) & [Hx1 Hx2] & Ho).
  destruct C as [o st w g e nopts aopts n w1 En|g u|w g u v opts|g u v].
  - apply wg_new_node_ok in En as (id & n0 & Hid & _ & He0 & Hi0 & ->).
    destruct (g_nodes g !! uid_string (ge_uid e)) as [m|] eqn:Em; cbn [default] in *.
    + apply same. cbn. pose proof (Hx1 _ _ Em) as Hm. pose proof (Hk _ _ Em) as Hmk.
      unfold addnode_commit. cbn. rewrite Hm, Hmk, Em. by destruct (go_upsert _).
    + clear same. rewrite order_size. cbn. pose proof (b_new_node_id_fresh _ _ _ _ Hb Hid) as Hfresh. rewrite <- Hi0 in Hfresh.
      unfold addnode_commit. cbn. rewrite Hfresh.
      destruct (b_add_node_ok _ _ Hfresh) as (b' & Hb' & _). rewrite Hb'. cbn.
      by eapply compact_put.
  - rewrite order_size. rewrite order_size in same. unfold wg_remove_node in *.
    destruct (g_nodes g !! uid_string u) as [n|] eqn:En; [|by apply same]. cbn in *.
    destruct (b_remove_node_ok _ (n_id n) Hb) as (_ & Hn & _ & _ & _ & _ & Hi). rewrite (Hx1 _ _ En) in Hi.
    assert (U : n_id n ∈ is_used (b_ids (g_b g))).
    { rewrite (bw_used _ Hb), elem_of_dom. eauto. }
    assert (C' : compact (b_remove_node (g_b g) (n_id n)) k).
    { destruct HC as [Hm HC]. split; rewrite Hi; cbn; [done|]. intros i. rewrite <- HC.
      rewrite elem_of_union, elem_of_difference, elem_of_singleton. destruct (decide (i = n_id n)) as [-> |]; tauto. }
    rewrite Nat.max_l; [done|]. apply compact_size; [|done]. apply T'.
  - apply same. rewrite (wg_link_cases dir) by done.
    destruct (wg_node g u) as [a| |] eqn:Ha; [|done..].
    destruct (wg_node g v) as [b| |] eqn:Hbn; [|done..].
    destruct (wg_edge g u v); [done|..].
    all: destruct (decide (n_id a = n_id b)) as [Heq|Hne];
      [destruct (link_commit_self w g a b opts Heq) as [w1 ->]; done|].
    all: destruct (link_commit_ok w g a b opts Hne) as (e1&w1&b'&_&Hf&Ht&->&Hse&_); cbn.
    all: apply wg_node_Ok in Ha, Hbn; pose proof (Hx1 _ _ Ha) as Ha'; pose proof (Hx1 _ _ Hbn) as Hb'.
    all: unfold b_set_edge in Hse; rewrite bool_decide_false in Hse by congruence; rewrite !b_put_node_eq in Hse;
      cbn [b_dir b_nodes b_from b_to b_self b_absent b_ids] in Hse; rewrite Hf, Ht in Hse; rewrite Ha' in Hse;
      rewrite lookup_insert_ne, Hb' in Hse by done; destruct (b_dir (g_b g)); by injection Hse as <-.
  - apply same. unfold wg_unlink. destruct (g_nodes g !! uid_string u) as [n|]; [|done].
    destruct (g_nodes g !! uid_string v) as [m|]; [|done]. cbn.
    by destruct (b_remove_edge_ok _ (n_id n) (n_id m) Hb) as (_ & _ & -> & _).
Qed.
Lemma history_compact dir g k : history dir g k -> compact (g_b g) k.
Proof.
  induction 1 as [w opts|g g' k H IH C].
  - assert (E : b_ids (g_b (if dir then (new_wdg w opts).1 else (new_wug w opts).1)) = idset_empty).
    { destruct dir; unfold new_wdg, new_wug; by rewrite (proj1 (new_wg_fields _ _ _)). }
    split; rewrite E; cbn; [lia|]. intros i. rewrite elem_of_empty. split; [tauto|lia].
  - eapply compact_step; [|done|done]. by apply tidy_inv, (history_tidy _ _ _ H).
Qed.

(** C105.  Every id is below the largest number of nodes the graph has had; a new
    node gets such an id too, or the first one above; NewNode can only fail when that
    number is 2^63-1. *)
Theorem c105_ids_compact :
  forall dir g peak, history dir g peak ->
    order g <= peak /\
    (forall n, listed g n -> (0 <= n_id n < Z.of_nat peak)%Z) /\
    (forall o st w e opts, (Z.of_nat peak < max_int64)%Z ->
       exists n w1, wg_new_node o st w g e opts = Ok (n, w1) /\ (0 <= n_id n < Z.of_nat (peak `max` S (order g)))%Z).
Proof.
  intros dir g k H. pose proof (history_compact _ _ _ H) as HC.
  destruct (tidy_inv _ _ (history_tidy _ _ _ H)) as ((Hd & Hb & Hk) & [Hx1 Hx2] & Ho).
  pose proof (compact_size _ _ Hb HC) as Hs. rewrite order_size. split; [done|].
  assert (HL : forall i n, b_nodes (g_b g) !! i = Some n -> (0 <= i < Z.of_nat k)%Z).
  { intros i n Hi. apply HC. right. rewrite (bw_used _ Hb), elem_of_dom. eauto. }
  split.
  - intros n Hn. apply listed_iff in Hn; [|done]. by eapply HL.
  - intros o st w e opts Hm. destruct HC as [HC1 HC2].
    pose proof (b_new_node_id_panic o st (g_b g)) as Hp.
    destruct (wg_new_node o st w g e opts) as [[n w1]|x|p] eqn:E.
    + exists n, w1. split; [done|]. apply wg_new_node_ok in E as (id & n0 & Hid & _ & He0 & Hi0 & ->).
      destruct (g_nodes g !! uid_string (ge_uid e)) as [m|] eqn:Em; cbn [default Datatypes.id].
      { apply Hx1, HL in Em. lia. }
      rewrite Hi0. unfold b_new_node_id in Hid. case_bool_decide as E0; [injection Hid as <-; lia|].
      case_bool_decide; [done|]. unfold idset_new_id in Hid.
      destruct (shuffle o st (elements (is_free (b_ids (g_b g))))) as [|j l] eqn:Es.
      * case_bool_decide; [done|]. injection Hid as <-.
        assert (k <= size (b_nodes (g_b g))).
        { rewrite <- size_dom, <- (bw_used _ Hb). apply range_size. intros i Hi. apply HC2 in Hi as [Hi|Hi]; [|done].
          apply elem_of_elements in Hi. rewrite <- (shuffle_perm o _ st), Es in Hi. by apply elem_of_nil in Hi. }
        lia.
      * injection Hid as <-. assert (Hj : j ∈ is_free (b_ids (g_b g))).
        { apply elem_of_elements. rewrite <- (shuffle_perm o _ st), Es. by left. }
        assert (0 <= j < Z.of_nat k)%Z by (apply HC2; by left). lia.
    + exfalso. unfold wg_new_node, newnode_id in E. destruct (b_new_node_id o st (g_b g)); [|done|done].
      cbn in E. by destruct (mem_new_node _ _ _ _).
    + exfalso. unfold wg_new_node, newnode_id in E. destruct (b_new_node_id o st (g_b g)); [|done|].
      * cbn in E. by destruct (mem_new_node _ _ _ _).
      * destruct Hp as [_ [Hp|Hp]]; lia.
Qed.
Print Assumptions c105_ids_compact.

(** three nodes, two removed, one added: the peak is 3 *)
Definition ids_put (g : wg) (u : UID) : wg :=
  match wg_new_node iter_id [] w0 g (gent0 u) [] with Ok (n, _) => (wg_add_node g (MemNode n) []).2 | _ => g end.
Lemma ids_put_ok g u k : history false g k -> order (ids_put g u) <= k -> history false (ids_put g u) k.
Proof.
  intros H Hk. unfold ids_put in *. destruct (wg_new_node iter_id [] w0 g (gent0 u) []) as [[n w1]| |] eqn:E; try done.
  rewrite <- (Nat.max_l _ _ Hk). eapply hi_step; [done|]. by eapply ch_put.
Qed.
Definition ids3 : wg := ids_put (ids_put (ids_put (gnew false) ua) ub) uc.
Definition ids_end : wg := ids_put (wg_remove_node (wg_remove_node ids3 ua).2 ub).2 ub.
Lemma ids3_history : history false ids3 3.
Proof.
  assert (H : forall g u, history false g (order g) -> order g <= order (ids_put g u) ->
    match wg_new_node iter_id [] w0 g (gent0 u) [] with Ok _ => true | _ => false end = true ->
    history false (ids_put g u) (order (ids_put g u))).
  { intros g u Hg Hle Hn. unfold ids_put in *. destruct (wg_new_node iter_id [] w0 g (gent0 u) []) as [[n w1]| |] eqn:E; try done.
    rewrite <- (Nat.max_r _ _ Hle). eapply hi_step; [done|]. by eapply ch_put. }
  assert (H0 : history false (gnew false) (order (gnew false))) by (vm_compute; apply (hi_new false w0 [])).
  assert (H1 : history false (ids_put (gnew false) ua) (order (ids_put (gnew false) ua))).
  { apply H; [done|vm_compute; lia|vm_compute; reflexivity]. }
  assert (H2 : history false (ids_put (ids_put (gnew false) ua) ub) (order (ids_put (ids_put (gnew false) ua) ub))).
  { apply H; [done|vm_compute; lia|vm_compute; reflexivity]. }
  assert (H3 : history false ids3 (order ids3)).
  { apply H; [done|vm_compute; lia|vm_compute; reflexivity]. }
  replace 3 with (order ids3) by (vm_compute; reflexivity). done.
Qed.
Example c105_example :
  history false ids_end 3 /\ order ids_end = 2 /\
  (fun u => match wg_node ids_end u with Ok n => Some (n_id n) | _ => None end) <$> [ua; ub; uc] = [None; Some 0%Z; Some 2%Z].
Proof.
  split; [|split; vm_compute; reflexivity]. apply ids_put_ok; [|vm_compute; lia].
  change 3 with (3 `max` order (wg_remove_node (wg_remove_node ids3 ua).2 ub).2).
  eapply hi_step; [|apply ch_remove]. change 3 with (3 `max` order (wg_remove_node ids3 ua).2).
  eapply hi_step; [apply ids3_history|apply ch_remove].
Qed.
