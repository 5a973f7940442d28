(** Attributes: C35, C36, C37. *)
From Verif.Model Require Import Attrs.
From Verif.Spec Require Import AttrsSpec.
From Verif.Proof Require Import AttrsP.

(** C35.  Along every history of Set, Get, Keys, New, NewCopyFrom and NewFromMap,
    for every map iteration order and every initial heap, each answer is the one a
    map from keys to values gives (Spec/AttrsSpec.v), and so are later Gets. *)
Theorem c35_attributes_are_a_map :
  forall (o : iter_order) (w : world) (ops : list aop),
    world_wf w ->
    let init a k := attrs_map w a !! k in
    let old a := is_Some (w_attrs w !! a) in
    let '(h, w1) := arun o 0 w [] ops in
    spec_answers init old h /\
    forall a k, attrs_get w1 a k = Ok (default ""%string (spec_val init h a k)).
Proof.
  intros o w ops Hwf init old.
  pose proof (arun_spec init old o 0 w [] ops) as H.
  destruct (arun o 0 w [] ops) as [h w1].
  destruct H as (H1&H2&H3).
  - intros a k. done.
  - split.
    + intros a [m Hm]. exact (Hwf a m Hm).
    + intros op a Hin. by apply elem_of_nil in Hin.
  - done.
  - split; [exact H3|]. intros a k. unfold attrs_get. by rewrite H1.
Qed.
Print Assumptions c35_attributes_are_a_map.

(** A world in which the hypothesis holds and the conclusion is not trivial: two
    attribute sets, one overwritten key, a copy taken in between. *)
Definition ex_world : world := World ∅ 0 (fun n => "u"%string) 0.
Example c35_example :
  let '(h, w1) := arun iter_id 0 ex_world []
      [ANew; ASet 0%N "k" "1"; ACopy 0%N; ASet 0%N "k" "2"; ASet 1%N "x" "9"; AGet 0%N "k"; AGet 1%N "k"; AGet 0%N "x"] in
  world_wf ex_world /\
  map snd h = [ARStr (Ok ""); ARStr (Ok "1"); ARStr (Ok "2"); ARUnit; ARUnit;
               ARRef (Ok 1%N); ARUnit; ARRef (Ok 0%N)]%string.
Proof. split; [intros a m H; inversion H|vm_compute; reflexivity]. Qed.

(** C36.  A copy gets an address that was not allocated before, equals its source
    at that moment, and afterwards no sequence of calls that does not Set keys of
    one of the two sets changes what that one holds. *)
Theorem c36_copies_are_independent :
  forall (o : iter_order) (st : site) (w : world) (b : aref) (r : aret) (w1 : world),
    (b < w_next w)%N ->
    astep o st w (ACopy b) = (r, w1) ->
    exists a, r = ARRef (Ok a) /\ (w_next w <= a)%N /\ a <> b /\
      (forall k, attrs_map w1 a !! k = attrs_map w b !! k) /\
      (forall x, (x < w_next w)%N -> attrs_map w1 x = attrs_map w x) /\
      (forall x i h ops, x = a \/ x = b ->
         Forall (fun op => ~ writes_to x op) ops ->
         forall k, attrs_map (arun o i w1 h ops).2 x !! k = attrs_map w b !! k).
Proof.
  intros o st w b r w1 Hb Hs. unfold astep in Hs. rewrite new_copy_mem in Hs.
  unfold attrs_alloc in Hs. injection Hs as <- <-.
  assert (Ha : forall x, attrs_map (attrs_alloc w (attrs_map w b)).2 x =
      if bool_decide (w_next w = x) then attrs_map w b else attrs_map w x)
    by (intros x; apply attrs_map_alloc).
  exists (w_next w). split; [done|]. split; [lia|]. split; [lia|]. split; [|split].
  - intros k. change (attrs_map (attrs_alloc w (attrs_map w b)).2 (w_next w) !! k = attrs_map w b !! k).
    rewrite Ha, bool_decide_true by done. done.
  - intros x Hx. etrans; [apply (Ha x)|]. rewrite bool_decide_false; [done|lia].
  - intros x i h ops Hx Hops k. rewrite arun_frame; [|simpl; destruct Hx; subst; lia|done].
    change (attrs_map (attrs_alloc w (attrs_map w b)).2 x !! k = attrs_map w b !! k).
    rewrite Ha. destruct Hx as [->| ->].
    + by rewrite bool_decide_true.
    + by rewrite bool_decide_false by lia.
Qed.
Print Assumptions c36_copies_are_independent.

(** C36, the other constructor: NewFromMap. *)
Theorem c36_from_map_is_independent :
  forall (o : iter_order) (st : site) (w : world) (m : amap) (r : aret) (w1 : world),
    astep o st w (AFromMap m) = (r, w1) ->
    exists a, r = ARRef (Ok a) /\ (w_next w <= a)%N /\
      (forall k, attrs_map w1 a !! k = m !! k) /\
      (forall x, (x < w_next w)%N -> attrs_map w1 x = attrs_map w x) /\
      (forall i h ops, Forall (fun op => ~ writes_to a op) ops ->
         forall k, attrs_map (arun o i w1 h ops).2 a !! k = m !! k).
Proof.
  intros o st w m r w1 Hs. unfold astep in Hs. rewrite new_from_map_content in Hs.
  unfold attrs_alloc in Hs. injection Hs as <- <-.
  assert (Ha : forall x, attrs_map (attrs_alloc w m).2 x =
      if bool_decide (w_next w = x) then m else attrs_map w x)
    by (intros x; apply attrs_map_alloc).
  exists (w_next w). split; [done|]. split; [lia|]. split; [|split].
  - intros k. change (attrs_map (attrs_alloc w m).2 (w_next w) !! k = m !! k).
    rewrite Ha, bool_decide_true by done. done.
  - intros x Hx. etrans; [apply (Ha x)|]. rewrite bool_decide_false; [done|lia].
  - intros i h ops Hops k. rewrite arun_frame; [|simpl; lia|done].
    change (attrs_map (attrs_alloc w m).2 (w_next w) !! k = m !! k).
    rewrite Ha. by rewrite bool_decide_true.
Qed.
Print Assumptions c36_from_map_is_independent.

Example c36_example :
  let w := attrs_set (attrs_alloc ex_world {["a" := "1"]}).2 0%N "b" "2" in
  (0 < w_next w)%N /\ astep iter_rev [3] w (ACopy 0%N) = (ARRef (Ok 1%N), (attrs_alloc w (attrs_map w 0%N)).2)
  /\ attrs_get (attrs_set (astep iter_rev [3] w (ACopy 0%N)).2 0%N "a" "7") 1%N "a" = Ok "1"%string.
Proof. split; [vm_compute; reflexivity|]. split; vm_compute; reflexivity. Qed.

(** C37, ToMap: success exactly when Keys and every Get succeed, and then the map
    holds exactly the pairs; a failure is the error of Keys or of the first key
    whose Get fails. *)
Theorem c37_to_map_faithful :
  forall a : attrsI,
    match to_map (Some a) with
    | Ok m => exists ks, ai_keys a = Ok ks /\
                (forall k, k ∈ ks -> exists v, ai_get a k = Ok v) /\
                forall k v, m !! k = Some v <-> k ∈ ks /\ ai_get a k = Ok v
    | Err e => ai_keys a = Err e \/
               exists pre k post, ai_keys a = Ok (pre ++ k :: post) /\ ai_get a k = Err e /\
                                  forall k', k' ∈ pre -> exists v, ai_get a k' = Ok v
    | Panic p => ai_keys a = Panic p \/
               exists pre k post, ai_keys a = Ok (pre ++ k :: post) /\ ai_get a k = Panic p /\
                                  forall k', k' ∈ pre -> exists v, ai_get a k' = Ok v
    end.
Proof.
  intros a. unfold to_map. destruct (ai_keys a) as [ks|e|p] eqn:Hk; simpl; [|by left|by left].
  pose proof (copy_loop_err (ai_get a) ks ∅) as He.
  destruct (copy_loop (ai_get a) ks ∅) as [m|e|p] eqn:Hc.
  - exists ks. split; [done|]. destruct (copy_loop_ok _ _ _ _ Hc) as [H1 H2]. split; [done|].
    intros k v. rewrite H2. case_bool_decide as Hin.
    + destruct (H1 k Hin) as [v' ->]. split; [intros [= ->]; done|intros [_ [= ->]]; done].
    + rewrite lookup_empty. split; [done|]. intros [? _]. done.
  - right. destruct He as (pre&k&post&->&?&?). eauto 10.
  - right. destruct He as (pre&k&post&->&?&?). eauto 10.
Qed.
Print Assumptions c37_to_map_faithful.

(** C37, NewCopyFrom reports the same errors and otherwise allocates the map
    ToMap would return. *)
Theorem c37_new_copy_from_errors :
  forall (w : world) (a : attrsI),
    new_copy_from w (Some a) =
    match to_map (Some a) with
    | Ok m => Ok (attrs_alloc w m) | Err e => Err e | Panic p => Panic p
    end.
Proof.
  intros w a. unfold new_copy_from, to_map. destruct (ai_keys a) as [ks| |]; simpl; [|done|done].
  by destruct (copy_loop (ai_get a) ks ∅).
Qed.
Print Assumptions c37_new_copy_from_errors.

(** C37, DOTAttrs (also Node.Attributes, Edge.Attributes, Attrs.Attributes): the
    keys in order, each with its value; nil exactly when Keys or some Get fails. *)
Theorem c37_dot_attrs_faithful :
  forall a : attrsI,
    match dot_attrs a with
    | Some l => exists ks, ai_keys a = Ok ks /\ l.*1 = ks /\ forall k v, (k, v) ∈ l -> ai_get a k = Ok v
    | None => (forall ks, ai_keys a <> Ok ks) \/
              exists ks k, ai_keys a = Ok ks /\ k ∈ ks /\ forall v, ai_get a k <> Ok v
    end.
Proof.
  intros a. unfold dot_attrs. destruct (ai_keys a) as [ks| |] eqn:Hk; [|by left|by left].
  pose proof (dot_loop_spec (ai_get a) ks) as H. destruct (dot_loop (ai_get a) ks).
  - destruct H as [H1 H2]. eauto 10.
  - right. destruct H as (k&?&?). eauto 10.
Qed.
Print Assumptions c37_dot_attrs_faithful.

(** C37 for the in-memory attributes: no error, and for every iteration order
    exactly the stored pairs, each once. *)
Theorem c37_memory_attrs_faithful :
  forall (o : iter_order) (st : site) (w : world) (a : aref),
    to_map (Some (mem_iface o st w a)) = Ok (attrs_map w a) /\
    exists l, attrs_attributes o st w a = Some l /\ NoDup l.*1 /\
      forall k v, (k, v) ∈ l <-> attrs_map w a !! k = Some v.
Proof.
  intros o st w a. split; [apply to_map_mem|].
  unfold attrs_attributes, dot_attrs, mem_iface, attrs_keys; simpl.
  pose proof (dot_loop_spec (attrs_get w a) (map_range o st (attrs_map w a)).*1) as H.
  destruct (dot_loop _ _) as [l|].
  - destruct H as [H1 H2]. exists l. split; [done|]. rewrite H1.
    split; [apply map_range_keys_nodup|]. intros k v. split.
    + intros Hin. pose proof (H2 k v Hin) as Hg. injection Hg as <-.
      assert (Hk : k ∈ (map_range o st (attrs_map w a)).*1).
      { rewrite <- H1. apply elem_of_list_fmap. by exists (k, default ""%string (attrs_map w a !! k)). }
      apply attrs_keys_in in Hk. by destruct (attrs_map w a !! k).
    + intros Hv. assert (Hk : k ∈ l.*1).
      { rewrite H1. apply attrs_keys_in. by rewrite Hv. }
      apply elem_of_list_fmap in Hk as ([k' v']&->&Hin). simpl in *.
      pose proof (H2 _ _ Hin) as Hg. injection Hg as <-. by rewrite Hv in Hin.
  - destruct H as (k&_&Hn). by destruct (Hn _ eq_refl).
Qed.
Print Assumptions c37_memory_attrs_faithful.

Example c37_example :
  to_map (Some (AttrsI (Ok ["a"; "b"]) (fun k => if bool_decide (k = "b"%string) then Err (EForeign 7) else Ok "1"))) = Err (EForeign 7)
  /\ dot_attrs (AttrsI (Ok ["a"; "b"]) (fun k => Ok (k +:+ "!"))) = Some [("a", "a!"); ("b", "b!")]%string.
Proof. split; vm_compute; reflexivity. Qed.
