(** Serialisable structs, their JSON and back. *)
From Verif.Model Require Import Marshal.
From Verif.Spec Require Import MarshalSpec.
From Verif.Proof Require Import AttrsP JsonP JsonP2.

(** ** Order of strings *)
Lemma ascii_lt_trans a b c : Ascii.compare a b = Lt -> Ascii.compare b c = Lt -> Ascii.compare a c = Lt.
Proof. unfold Ascii.compare. rewrite !N.compare_lt_iff. lia. Qed.
Lemma ascii_eq a b : Ascii.compare a b = Eq -> a = b.
Proof. apply Ascii.compare_eq_iff. Qed.
Lemma string_le_trans x y z : String.leb x y = true -> String.leb y z = true -> String.leb x z = true.
Proof.
  unfold String.leb. revert y z. induction x as [|a x IH]; intros [|b y] [|c z]; simpl; try done.
  destruct (Ascii.compare a b) eqn:E1; try done.
  - apply ascii_eq in E1 as ->. destruct (Ascii.compare b c) eqn:E2; try done. apply IH.
  - intros _. destruct (Ascii.compare b c) eqn:E2; try done.
    + apply ascii_eq in E2 as ->. by rewrite E1.
    + by rewrite (ascii_lt_trans _ _ _ E1 E2).
Qed.
Lemma string_le_antisym x y : String.leb x y = true -> String.leb y x = true -> x = y.
Proof.
  unfold String.leb. rewrite (String.compare_antisym x y). destruct (String.compare y x) eqn:E; simpl; try done.
  intros _ _. symmetry. by apply String.compare_eq_iff.
Qed.
Lemma string_le_total x y : String.leb x y = true \/ String.leb y x = true.
Proof.
  unfold String.leb. rewrite (String.compare_antisym x y). destruct (String.compare y x); simpl; auto.
Qed.
Lemma string_le_refl x : String.leb x x = true.
Proof. destruct (string_le_total x x); done. Qed.
Global Instance byte_le_trans : Transitive byte_le.
Proof. intros [x a] [y b] [z c]. unfold byte_le. simpl. apply string_le_trans. Qed.
Global Instance byte_le_total : Total byte_le.
Proof. intros [x a] [y b]. unfold byte_le. simpl. apply string_le_total. Qed.

(** sorting by key does not depend on the order of the entries *)
Lemma sorted_unique (l1 l2 : list (string * string)) :
  StronglySorted byte_le l1 -> StronglySorted byte_le l2 -> NoDup l1.*1 -> l1 ≡ₚ l2 -> l1 = l2.
Proof.
  intros H1. revert l2. induction H1 as [|[k v] l1 H1 IH HF]; intros l2 H2 Hn Hp.
  { by apply Permutation_nil in Hp as ->. }
  destruct l2 as [|[k' v'] l2]. { by apply Permutation_sym, Permutation_nil in Hp. }
  assert (E : (k, v) = (k', v')).
  { assert (Hin : (k', v') ∈ (k, v) :: l1) by (rewrite Hp; left).
    assert (Hin' : (k, v) ∈ (k', v') :: l2) by (rewrite <- Hp; left).
    apply elem_of_cons in Hin as [Hin|Hin]; [done|]. apply elem_of_cons in Hin' as [Hin'|Hin']; [done|].
    exfalso. inversion H2 as [|? ? _ HF2]; subst. rewrite Forall_forall in HF, HF2.
    specialize (HF _ Hin). specialize (HF2 _ Hin'). unfold byte_le in HF, HF2. simpl in HF, HF2.
    pose proof (string_le_antisym _ _ HF HF2) as ->. rewrite fmap_cons in Hn. apply NoDup_cons in Hn as [Hn _].
    apply Hn. apply elem_of_list_fmap. by exists (k', v'). }
  inversion E; subst. f_equal. rewrite fmap_cons in Hn. apply NoDup_cons in Hn as [_ Hn]. inversion H2; subst.
  apply IH; [done|done|]. by apply Permutation_cons_inv in Hp.
Qed.
Lemma sorted_lookup {A} (R : A -> A -> Prop) l i j x y :
  StronglySorted R l -> l !! i = Some x -> l !! j = Some y -> i < j -> R x y.
Proof.
  intros H. revert i j. induction H as [|a l H IH HF]; intros [|i] [|j] Hi Hj Hij; try done; try lia; simpl in *.
  - injection Hi as ->. rewrite Forall_forall in HF. apply HF. by eapply elem_of_list_lookup_2.
  - apply (IH i j); [done|done|lia].
Qed.
(** the entries of a map by increasing key *)
Definition entries (m : amap) : list (string * string) := merge_sort byte_le (map_to_list m).
Lemma entries_sorted m : StronglySorted byte_le (entries m).
Proof. apply StronglySorted_merge_sort; apply _. Qed.
Lemma entries_perm m : entries m ≡ₚ map_to_list m.
Proof. apply merge_sort_Permutation. Qed.
Lemma elem_of_entries m k v : (k, v) ∈ entries m <-> m !! k = Some v.
Proof. rewrite entries_perm. apply elem_of_map_to_list. Qed.
Lemma sort_range io n (m : amap) : merge_sort byte_le (map_range io n m) = entries m.
Proof.
  apply sorted_unique; [apply StronglySorted_merge_sort; apply _|apply entries_sorted| |].
  - rewrite merge_sort_Permutation. apply map_range_keys_nodup.
  - rewrite merge_sort_Permutation, entries_perm. apply map_range_perm.
Qed.
Definition map_json (m : amap) : json := JObj ((fun kv : string * string => (to_bytes kv.1, JStr (to_bytes kv.2))) <$> entries m).
Lemma encode_range io n m : encode_map (map_range io n m) = map_json m.
Proof. unfold encode_map. by rewrite sort_range. Qed.

(** ** Attributes field *)
Definition attrs_member (a : option amap) : list (bytes * json) :=
  if bool_decide (default ∅ a = (∅ : amap)) then [] else [(to_bytes "attrs", map_json (default ∅ a))].
Lemma field_attrs_eq io n a : field_attrs io n a = attrs_member a.
Proof.
  unfold field_attrs, attrs_member. case_bool_decide as E.
  - rewrite E. assert (Hl : length (map_range io n (∅ : amap)) = 0) by (rewrite map_range_length; apply map_size_empty).
    by destruct (map_range io n (∅ : amap)).
  - rewrite <- (encode_range io n). destruct (map_range io n (default ∅ a)) as [|kv l] eqn:El; [|done].
    exfalso. apply E. apply map_size_empty_iff. rewrite <- (map_range_length io n). by rewrite El.
Qed.

(** ** Clean text *)
Definition ctext (s : string) : string := of_bytes (cln (to_bytes s)).
Definition cjson (s : string) : json := JStr (cln (to_bytes s)).
Lemma decode_cjson s old : decode_string (cjson s) old = Some (ctext s).
Proof. done. Qed.
Lemma ctext_valid s : valid_text s -> ctext s = s.
Proof. intros H. unfold ctext. rewrite valid_text_cln by done. apply of_to_bytes. Qed.
Lemma cln_bytes n : forall l, (length l <= n)%nat -> Forall byte l -> Forall byte (cln l).
Proof.
  induction n as [|n IH]; intros l Hl HF; [destruct l; [constructor|simpl in Hl; lia]|].
  destruct l as [|b l]; [constructor|]. simpl in Hl. pose proof HF as HF0. apply Forall_cons in HF as [Hb HF].
  destruct (rune_len (b :: l)) as [|k] eqn:E.
  - rewrite cln_bad by done. apply Forall_app. split; [by repeat constructor|]. apply IH; [lia|done].
  - rewrite (cln_good _ _ E). apply Forall_app. split; [by apply Forall_take|].
    apply IH; [rewrite drop_length; simpl; lia|by apply Forall_drop].
Qed.
Lemma ctext_cleaned s : cleaned (bytes_of s) (bytes_of (ctext s)).
Proof.
  apply cleaned_iff. unfold ctext. change (bytes_of (of_bytes (cln (to_bytes s)))) with (to_bytes (of_bytes (cln (to_bytes s)))).
  change (bytes_of s) with (to_bytes s). apply to_of_bytes. apply (cln_bytes (length (to_bytes s))); [done|]. apply to_bytes_byte.
Qed.
Lemma cleaned_ctext s t : cleaned (bytes_of s) (bytes_of t) -> t = ctext s.
Proof.
  intros H. apply cleaned_iff in H. unfold ctext. change (to_bytes s) with (bytes_of s). rewrite <- H. symmetry. apply of_to_bytes.
Qed.

(** the map an encoded map is decoded to *)
Definition cmap (m : amap) : amap :=
  foldl (fun acc kv => <[ctext kv.1 := ctext kv.2]> acc) (∅ : amap) (entries m).
Definition clean_map (a : option amap) : option amap :=
  if bool_decide (default ∅ a = (∅ : amap)) then None else Some (cmap (default ∅ a)).
Lemma clean_map_json m :
  clean_json (map_json m) = JObj ((fun kv : string * string => (cln (to_bytes kv.1), cjson kv.2)) <$> entries m).
Proof.
  unfold map_json. rewrite clean_obj. f_equal. unfold clean_members. rewrite <- list_fmap_compose. done.
Qed.
Lemma set_entries_clean (l : list (string * string)) (acc : amap) :
  set_entries ((fun kv : string * string => (cln (to_bytes kv.1), cjson kv.2)) <$> l) acc =
  Some (foldl (fun acc kv => <[ctext kv.1 := ctext kv.2]> acc) acc l).
Proof. revert acc. induction l as [|[k v] l IH]; intros acc; [done|]. rewrite fmap_cons. cbn [set_entries]. simpl. apply IH. Qed.
Lemma decode_map_clean m : decode_map (clean_json (map_json m)) None = Some (Some (cmap m)).
Proof. rewrite clean_map_json. unfold decode_map. simpl default. by rewrite set_entries_clean. Qed.
(** a key of the result is the clean form of the greatest key that has it *)
Lemma foldl_clean_lookup (l : list (string * string)) (acc : amap) k' :
  foldl (fun acc kv => <[ctext kv.1 := ctext kv.2]> acc) acc l !! k' =
  match list_find (fun kv : string * string => ctext kv.1 = k') (reverse l) with
  | Some (_, kv) => Some (ctext kv.2)
  | None => acc !! k'
  end.
Proof.
  revert acc. induction l as [|[k v] l IH] using rev_ind; intros acc; [done|].
  rewrite foldl_app, reverse_app. simpl. case_decide as E.
  - subst. by rewrite lookup_insert.
  - rewrite lookup_insert_ne by done. rewrite IH.
    destruct (list_find _ (reverse l)) as [[i kv]|] eqn:El; simpl; [|done]. done.
Qed.
Lemma cmap_lookup m k' v' :
  cmap m !! k' = Some v' <->
  exists k v, m !! k = Some v /\ ctext k = k' /\ ctext v = v' /\
    forall k2, is_Some (m !! k2) -> ctext k2 = k' -> String.leb k2 k = true.
Proof.
  unfold cmap. rewrite foldl_clean_lookup.
  assert (Hchar : forall kv i, list_find (fun kv : string * string => ctext kv.1 = k') (reverse (entries m)) = Some (i, kv) ->
    m !! kv.1 = Some kv.2 /\ ctext kv.1 = k' /\
    forall k2, is_Some (m !! k2) -> ctext k2 = k' -> String.leb k2 kv.1 = true).
  { intros [k v] i Hf. apply list_find_Some in Hf as (Hi & Hk & Hlt).
    split; [apply elem_of_entries; rewrite <- elem_of_reverse; by apply elem_of_list_lookup_2 in Hi|]. split; [done|].
    intros k2 [v2 Hk2] Hc. apply elem_of_entries in Hk2. rewrite <- elem_of_reverse in Hk2.
    apply elem_of_list_lookup_1 in Hk2 as [j Hj]. simpl in *.
    destruct (decide (j < i)) as [Hji|Hji]. { exfalso. by apply (Hlt j _ Hj Hji). }
    destruct (decide (j = i)) as [->|Hne].
    { rewrite Hi in Hj. injection Hj as <- <-. apply string_le_refl. }
    pose proof (entries_sorted m) as Hs.
    apply reverse_lookup_Some in Hi as [Hi Hi']. apply reverse_lookup_Some in Hj as [Hj Hj'].
    exact (sorted_lookup byte_le (entries m) _ _ _ _ Hs Hj Hi ltac:(lia)). }
  split.
  - destruct (list_find _ _) as [[i [k v]]|] eqn:Hf; [|done]. simpl. intros [= <-].
    destruct (Hchar _ _ eq_refl) as (H1 & H2 & H3). by exists k, v.
  - intros (k & v & H1 & H2 & H3 & H4). destruct (list_find _ _) as [[i [k0 v0]]|] eqn:Hf.
    + destruct (Hchar _ _ eq_refl) as (G1 & G2 & G3). simpl in *.
      assert (k = k0) as <-. { apply string_le_antisym; [apply G3; [by eexists|done]|apply H4; [by eexists|done]]. }
      rewrite H1 in G1. injection G1 as <-. by rewrite H3.
    + exfalso. apply list_find_None in Hf. rewrite Forall_forall in Hf. apply (Hf (k, v)); [|done].
      rewrite elem_of_reverse. by apply elem_of_entries.
Qed.
Lemma cmap_valid m : valid_map m -> cmap m = m.
Proof.
  intros Hv. apply map_eq. intros k'. apply option_eq. intros v'. rewrite cmap_lookup. split.
  - intros (k & v & H1 & H2 & H3 & _). destruct (Hv _ _ H1) as [Hk Hv']. rewrite !ctext_valid in H2, H3 by done. by subst.
  - intros H. exists k', v'. destruct (Hv _ _ H) as [Hk Hv']. rewrite !ctext_valid by done.
    split; [done|]. split; [done|]. split; [done|]. intros k2 [v2 H2] E.
    destruct (Hv _ _ H2) as [Hk2 _]. rewrite ctext_valid in E by done. subst.
    apply string_le_refl.
Qed.
