From Verif.Model Require Import Attrs.
From Verif.Spec Require Import AttrsSpec.
Global Arguments new_copy_from : simpl never.
Global Arguments new_from_map : simpl never.
Global Arguments to_map : simpl never.

Lemma map_range_perm {K V} `{Countable K} o st (m : gmap K V) :
  map_range o st m ≡ₚ map_to_list m.
Proof. unfold map_range. apply shuffle_perm. Qed.

Lemma elem_of_map_range {K V} `{Countable K} o st (m : gmap K V) k v :
  (k, v) ∈ map_range o st m <-> m !! k = Some v.
Proof. rewrite map_range_perm. apply elem_of_map_to_list. Qed.

Lemma map_range_keys_nodup {K V} `{Countable K} o st (m : gmap K V) :
  NoDup (map_range o st m).*1.
Proof. rewrite map_range_perm. apply NoDup_fst_map_to_list. Qed.

Lemma map_range_list_to_map {K V} `{Countable K} o st (m : gmap K V) :
  list_to_map (map_range o st m) = m.
Proof.
  rewrite <- (list_to_map_to_list m) at 2.
  symmetry. apply list_to_map_proper.
  - apply NoDup_fst_map_to_list.
  - symmetry. apply map_range_perm.
Qed.

Lemma map_range_length {K V} `{Countable K} o st (m : gmap K V) :
  length (map_range o st m) = size m.
Proof. by rewrite map_range_perm. Qed.

Lemma foldl_insert_lookup (l : list (string * string)) (m : amap) k :
  NoDup l.*1 ->
  foldl (fun acc kv => <[kv.1 := kv.2]> acc) m l !! k =
  match (list_to_map l : amap) !! k with Some v => Some v | None => m !! k end.
Proof.
  revert m. induction l as [|[k' v'] l IH]; intros m; simpl.
  - done.
  - rewrite NoDup_cons. intros [Hk Hnd]. rewrite IH by done.
    destruct (decide (k' = k)) as [->|Hne].
    + rewrite lookup_insert. rewrite lookup_insert.
      rewrite not_elem_of_list_to_map_1; done.
    + rewrite !lookup_insert_ne by done. done.
Qed.

Lemma new_from_map_content o st w m :
  new_from_map o st w m = attrs_alloc w m.
Proof.
  unfold new_from_map. f_equal. apply map_eq. intros k.
  rewrite foldl_insert_lookup by apply map_range_keys_nodup.
  rewrite map_range_list_to_map, lookup_empty. by destruct (m !! k).
Qed.

Lemma copy_loop_ok get ks m m' :
  copy_loop get ks m = Ok m' ->
  (forall k, k ∈ ks -> exists v, get k = Ok v) /\
  forall k, m' !! k = if bool_decide (k ∈ ks)
                      then match get k with Ok v => Some v | _ => None end else m !! k.
Proof.
  revert m. induction ks as [|k0 ks IH]; intros m; simpl.
  - intros [= <-]. split; [intros k Hk; by apply elem_of_nil in Hk|done].
  - destruct (get k0) as [v| |] eqn:Hg; try done.
    intros H. destruct (IH _ H) as [H1 H2]. split.
    + intros k Hk. apply elem_of_cons in Hk as [->|Hk]; eauto.
    + intros k. rewrite H2. destruct (decide (k ∈ ks)) as [Hin|Hnin].
      * rewrite !bool_decide_true by (done || by right). done.
      * rewrite (bool_decide_false (k ∈ ks)) by done.
        destruct (decide (k = k0)) as [->|Hne].
        -- rewrite bool_decide_true by left. by rewrite lookup_insert, Hg.
        -- rewrite bool_decide_false, lookup_insert_ne; [done|done|].
           intros [?|?]%elem_of_cons; done.
Qed.

Lemma copy_loop_total get ks m :
  (forall k, k ∈ ks -> exists v, get k = Ok v) -> exists m', copy_loop get ks m = Ok m'.
Proof.
  revert m. induction ks as [|k0 ks IH]; intros m Hall; simpl; [eauto|].
  destruct (Hall k0) as [v ->]; [left|]. apply IH. intros k Hk. apply Hall. by right.
Qed.

(** the first failing key decides the error *)
Lemma copy_loop_err get ks m :
  match copy_loop get ks m with
  | Ok _ => forall k, k ∈ ks -> exists v, get k = Ok v
  | Err e => exists pre k post, ks = pre ++ k :: post /\ get k = Err e /\
                                forall k', k' ∈ pre -> exists v, get k' = Ok v
  | Panic p => exists pre k post, ks = pre ++ k :: post /\ get k = Panic p /\
                                  forall k', k' ∈ pre -> exists v, get k' = Ok v
  end.
Proof.
  revert m. induction ks as [|k0 ks IH]; intros m; simpl.
  - intros k Hk. by apply elem_of_nil in Hk.
  - destruct (get k0) as [v| |] eqn:Hg.
    + specialize (IH (<[k0:=v]> m)). destruct (copy_loop get ks (<[k0:=v]> m)).
      * intros k [->|Hk]%elem_of_cons; eauto.
      * destruct IH as (pre&k&post&->&?&Hp). exists (k0 :: pre), k, post.
        split; [done|]. split; [done|]. intros k' [->|Hk]%elem_of_cons; eauto.
      * destruct IH as (pre&k&post&->&?&Hp). exists (k0 :: pre), k, post.
        split; [done|]. split; [done|]. intros k' [->|Hk]%elem_of_cons; eauto.
    + exists [], k0, ks. split; [done|]. split; [done|].
      intros k Hk. by apply elem_of_nil in Hk.
    + exists [], k0, ks. split; [done|]. split; [done|].
      intros k Hk. by apply elem_of_nil in Hk.
Qed.

Lemma attrs_keys_in o st w a k :
  k ∈ (map_range o st (attrs_map w a)).*1 <-> attrs_map w a !! k <> None.
Proof.
  rewrite elem_of_list_fmap. split.
  - intros ([k' v]&->&Hin). apply elem_of_map_range in Hin. simpl. by rewrite Hin.
  - intros Hk. destruct (attrs_map w a !! k) as [v|] eqn:E; [|done].
    exists (k, v). split; [done|]. by apply elem_of_map_range.
Qed.

Lemma copy_mem o st w a :
  copy_loop (attrs_get w a) (map_range o st (attrs_map w a)).*1 ∅ = Ok (attrs_map w a).
Proof.
  destruct (copy_loop_total (attrs_get w a) (map_range o st (attrs_map w a)).*1 ∅) as [m Hm].
  { intros k _. unfold attrs_get. eauto. }
  rewrite Hm. f_equal. apply map_eq. intros k.
  destruct (copy_loop_ok _ _ _ _ Hm) as [_ Hl]. rewrite Hl. unfold attrs_get.
  case_bool_decide as Hk.
  - apply attrs_keys_in in Hk. by destruct (attrs_map w a !! k).
  - rewrite attrs_keys_in in Hk. rewrite lookup_empty.
    destruct (attrs_map w a !! k); [|done]. exfalso. by apply Hk.
Qed.

Lemma new_copy_mem o st w a :
  new_copy_from w (Some (mem_iface o st w a)) = Ok (attrs_alloc w (attrs_map w a)).
Proof.
  unfold new_copy_from, mem_iface, attrs_keys; simpl.
  by rewrite copy_mem.
Qed.

Lemma to_map_mem o st w a :
  to_map (Some (mem_iface o st w a)) = Ok (attrs_map w a).
Proof.
  unfold to_map, mem_iface, attrs_keys; simpl. apply copy_mem.
Qed.

Lemma attrs_map_alloc w m a :
  attrs_map (attrs_alloc w m).2 a = if bool_decide (w_next w = a) then m else attrs_map w a.
Proof.
  unfold attrs_map, attrs_alloc; simpl. case_bool_decide as E.
  - subst. by rewrite lookup_insert.
  - by rewrite lookup_insert_ne.
Qed.

Lemma attrs_map_set w a k v a' :
  attrs_map (attrs_set w a k v) a' = if bool_decide (a = a') then <[k:=v]> (attrs_map w a) else attrs_map w a'.
Proof.
  unfold attrs_set. unfold attrs_map at 1; simpl. case_bool_decide as E.
  - subst. by rewrite lookup_insert.
  - by rewrite lookup_insert_ne.
Qed.


(** the invariant of a run: the world holds exactly what the history says *)
Definition attrs_agree (init : aref -> string -> option string) (h : list (aop * aret)) (w : world) : Prop :=
  forall a k, attrs_map w a !! k = spec_val init h a k.
Definition attrs_fresh (old : aref -> Prop) (h : list (aop * aret)) (w : world) : Prop :=
  (forall a, old a -> (a < w_next w)%N) /\ (forall op a, (op, ARRef (Ok a)) ∈ h -> (a < w_next w)%N).

Lemma astep_spec init old o st w h op :
  attrs_agree init h w -> attrs_fresh old h w -> spec_answers init old h ->
  let '(r, w1) := astep o st w op in
  attrs_agree init ((op, r) :: h) w1 /\ attrs_fresh old ((op, r) :: h) w1 /\ spec_answers init old ((op, r) :: h).
Proof.
  intros Ha [Ho Hf] Hs.
  assert (Halloc : forall op' m, astep o st w op' = (ARRef (Ok (w_next w)), (attrs_alloc w m).2) ->
     (forall k, spec_val init ((op', ARRef (Ok (w_next w))) :: h) (w_next w) k = m !! k) ->
     (forall a k, a <> w_next w ->
         spec_val init ((op', ARRef (Ok (w_next w))) :: h) a k = spec_val init h a k) ->
     attrs_agree init ((op', ARRef (Ok (w_next w))) :: h) (attrs_alloc w m).2 /\ attrs_fresh old ((op', ARRef (Ok (w_next w))) :: h) (attrs_alloc w m).2).
  { intros op' m _ H1 H2. split.
    - intros a k. rewrite attrs_map_alloc. case_bool_decide as E.
      + subst. symmetry. by apply H1.
      + rewrite H2 by congruence. apply Ha.
    - split; simpl.
      + intros a Hx. specialize (Ho a Hx). lia.
      + intros op0 a Hin. apply elem_of_cons in Hin as [[= -> ->]|Hin]; [lia|].
        specialize (Hf _ _ Hin). lia. }
  assert (Hans : exists a, ARRef (Ok (w_next w)) = ARRef (Ok a) /\ ~ old a /\ forall op' a', (op', ARRef (Ok a')) ∈ h -> a' <> a).
  { exists (w_next w). split; [done|]. split.
    - intros Hx. specialize (Ho _ Hx). lia.
    - intros op' a' Hin. specialize (Hf _ _ Hin). lia. }
  destruct op as [a k v|a k|a| |b|m]; [simpl|simpl|simpl|simpl|simpl|unfold astep].
  - split.
    + intros a' k'. rewrite attrs_map_set. simpl.
      destruct (decide (a = a')) as [->|Hne].
      * rewrite (bool_decide_true (a' = a')) by done.
        destruct (decide (k = k')) as [->|Hk].
        -- rewrite lookup_insert. by rewrite bool_decide_true.
        -- rewrite lookup_insert_ne by done. rewrite bool_decide_false by tauto. apply Ha.
      * rewrite (bool_decide_false (a = a')) by done.
        rewrite bool_decide_false by tauto. apply Ha.
    + split; [|done]. split; simpl; [done|].
      intros op0 a0 Hin. apply elem_of_cons in Hin as [[=]|Hin]. eauto.
  - split; [done|]. split; [|split; [done|]].
    + split; [done|]. intros op0 a0 Hin. apply elem_of_cons in Hin as [[=]|Hin]. eauto.
    + unfold attrs_get. by rewrite Ha.
  - split; [done|]. split; [|split; [done|]].
    + split; [done|]. intros op0 a0 Hin. apply elem_of_cons in Hin as [[=]|Hin]. eauto.
    + eexists. split; [done|]. split.
      * apply map_range_keys_nodup.
      * intros k. rewrite <- Ha. apply attrs_keys_in.
  - destruct (Halloc ANew ∅) as [H1 H2].
    + done.
    + intros k. simpl. rewrite bool_decide_true by done. by rewrite lookup_empty.
    + intros a k Hne. simpl. by rewrite bool_decide_false.
    + split; [apply H1|]. split; [apply H2|]. split; [done|apply Hans].
  - pose proof (new_copy_mem o st w b) as Hc. unfold attrs_alloc in Hc.
    destruct (Halloc (ACopy b) (attrs_map w b)) as [H1 H2].
    + simpl. by rewrite Hc.
    + intros k. simpl. rewrite bool_decide_true by done. symmetry. apply Ha.
    + intros a k Hne. simpl. by rewrite bool_decide_false.
    + rewrite Hc. split; [apply H1|]. split; [apply H2|]. split; [done|apply Hans].
  - pose proof (new_from_map_content o st w m) as Hc. rewrite Hc. simpl.
    destruct (Halloc (AFromMap m) m) as [H1 H2].
    + unfold astep. by rewrite Hc.
    + intros k. simpl. by rewrite bool_decide_true.
    + intros a k Hne. simpl. by rewrite bool_decide_false.
    + split; [apply H1|]. split; [apply H2|]. split; [done|apply Hans].
Qed.

Lemma arun_spec init old o i w h ops :
  attrs_agree init h w -> attrs_fresh old h w -> spec_answers init old h ->
  let '(h1, w1) := arun o i w h ops in
  attrs_agree init h1 w1 /\ attrs_fresh old h1 w1 /\ spec_answers init old h1.
Proof.
  revert i w h. induction ops as [|op ops IH]; intros i w h Ha Hf Hs; simpl; [done|].
  pose proof (astep_spec init old o [i] w h op Ha Hf Hs) as H.
  destruct (astep o [i] w op) as [r w1]. destruct H as (H1&H2&H3). by apply IH.
Qed.

Lemma dot_loop_spec get ks :
  match dot_loop get ks with
  | Some l => l.*1 = ks /\ forall k v, (k, v) ∈ l -> get k = Ok v
  | None => exists k, k ∈ ks /\ forall v, get k <> Ok v
  end.
Proof.
  induction ks as [|k ks IH]; simpl.
  - split; [done|]. intros k v H. by apply elem_of_nil in H.
  - destruct (get k) as [v|e|p] eqn:Hg.
    + destruct (dot_loop get ks) as [l|].
      * destruct IH as [H1 H2]. split; [by rewrite fmap_cons, H1|].
        intros k' v' [[= -> ->]|Hin]%elem_of_cons; eauto.
      * destruct IH as (k'&Hin&Hn). exists k'. split; [by right|done].
    + exists k. split; [by left|]. by rewrite Hg.
    + exists k. split; [by left|]. by rewrite Hg.
Qed.

(** operations that do not write to [x] leave it alone, whatever else they do *)
Definition writes_to (x : aref) (op : aop) : Prop :=
  match op with ASet a _ _ => a = x | _ => False end.

Lemma astep_frame o st w op x :
  (x < w_next w)%N -> ~ writes_to x op ->
  attrs_map (astep o st w op).2 x = attrs_map w x /\ (w_next w <= w_next (astep o st w op).2)%N.
Proof.
  intros Hx Hw.
  assert (Hal : forall m, attrs_map (attrs_alloc w m).2 x = attrs_map w x).
  { intros m. rewrite attrs_map_alloc. rewrite bool_decide_false; [done|lia]. }
  destruct op as [a k v|a k|a| |b|m]; unfold astep.
  - simpl. rewrite attrs_map_set. rewrite bool_decide_false by done. split; [done|lia].
  - simpl. split; [done|lia].
  - simpl. split; [done|lia].
  - split; [apply (Hal ∅)|]. simpl. lia.
  - rewrite new_copy_mem. unfold attrs_alloc at 1. simpl. split; [apply (Hal (attrs_map w b))|].
    unfold attrs_alloc. simpl. lia.
  - rewrite new_from_map_content. split; [apply (Hal m)|]. simpl. lia.
Qed.

Lemma arun_frame o i w h ops x :
  (x < w_next w)%N -> Forall (fun op => ~ writes_to x op) ops ->
  attrs_map (arun o i w h ops).2 x = attrs_map w x.
Proof.
  revert i w h. induction ops as [|op ops IH]; intros i w h Hx Hall; [done|].
  apply Forall_cons in Hall as [Hop Hall]. simpl.
  destruct (astep_frame o [i] w op x Hx Hop) as [H1 H2].
  destruct (astep o [i] w op) as [r w1]; simpl in *. rewrite IH; [done|lia|done].
Qed.
