(** Which kind a value is serialised as: C44 and C78 to C81. *)
From Verif.Model Require Import Marshal.
From Verif.Spec Require Import MarshalSpec.
From Verif.Proof Require Import AttrsP JsonP JsonP2 MarshalP MarshalP2 MarshalP3.

Lemma member_names_marshal m : good m -> member_names (json_marshal m) = Some ((fun kv => of_bytes (cln kv.1)) <$> m).
Proof.
  intros [H1 H2]. unfold member_names, json_marshal. rewrite parse_marshalled; [|by apply no_num_obj|by apply jbytes_obj].
  rewrite clean_obj. unfold clean_members. f_equal. rewrite <- list_fmap_compose. done.
Qed.
Definition has_attrs (a : option amap) : bool := negb (bool_decide (default ∅ a = (∅ : amap))).
Lemma attrs_names a : (fun kv : bytes * json => of_bytes (cln kv.1)) <$> attrs_member a = if has_attrs a then ["attrs"%string] else [].
Proof. unfold attrs_member, has_attrs. by case_bool_decide. Qed.
Lemma e_names e : (fun kv : bytes * json => of_bytes (cln kv.1)) <$> emembers e = ent_names (has_attrs (se_attrs e)).
Proof. unfold emembers. rewrite fmap_app, attrs_names. done. Qed.
Lemma e_shape io n e : entity_shape (json_marshal (entity_members io n e)).
Proof. rewrite entity_members_eq. eexists. rewrite member_names_marshal by apply good_e. by rewrite e_names. Qed.
Lemma r_shape io n e : resource_shape (json_marshal (resource_members io n e)).
Proof. rewrite resource_members_eq. eexists. rewrite member_names_marshal by apply good_r. unfold rmembers. rewrite fmap_app, e_names. done. Qed.
Lemma o_shape io n e : object_shape (json_marshal (object_members io n e)).
Proof.
  rewrite object_members_eq. exists (has_attrs (se_attrs (so_ent e))), (bool_decide (so_resource e <> None)).
  rewrite member_names_marshal by apply good_o. unfold omembers. rewrite !fmap_app, e_names. by destruct (so_resource e).
Qed.
Lemma l_shape io n e : link_shape (json_marshal (link_members io n e)).
Proof. rewrite link_members_eq. eexists. rewrite member_names_marshal by apply good_l. unfold lmembers. rewrite fmap_app, attrs_names. done. Qed.
(** the four shapes exclude each other *)
Lemma shapes_disjoint b :
  (resource_shape b -> ~ object_shape b /\ ~ entity_shape b /\ ~ link_shape b) /\
  (object_shape b -> ~ entity_shape b /\ ~ link_shape b) /\ (entity_shape b -> ~ link_shape b).
Proof.
  unfold resource_shape, object_shape, entity_shape, link_shape.
  split; [|split].
  - intros (a & ->). split; [|split].
    + intros (a' & r & E). by destruct a, a', r. + intros (a' & E). by destruct a, a'. + intros (a' & E). by destruct a, a'.
  - intros (a & r & ->). split.
    + intros (a' & E). by destruct a, a', r. + intros (a' & E). by destruct a, a', r.
  - intros (a & ->). intros (a' & E). by destruct a, a'.
Qed.

(** C44.  The full claim about what Marshal does with a value, by method set. *)
Definition c44_claim : Prop :=
  forall io n x b, marshal io n x = Ok b ->
    (is_resource x -> resource_shape b) /\ (is_object x -> object_shape b) /\ (is_link x -> link_shape b) /\
    (is_entity x -> ~ is_resource x -> ~ is_object x -> ~ is_link x -> entity_shape b) /\
    (is_entity x \/ is_link x).
(** a value with UID, Type, Attrs, From and To *)
Definition typed_link (u f t : UID) (typ : string) (a : attrsI) : dyn :=
  Dyn (Some (Some u)) (Some typ) (Some (Some a)) None None None None None None None (Some (Some f)) (Some (Some t)).
Definition no_attrs : attrsI := AttrsI (Ok []) (fun _ => Ok ""%string).
Theorem c44_dispatch_refuted : ~ c44_claim.
Proof.
  intros H.
  pose (x := typed_link (UVal "l") (UVal "a") (UVal "b") "t" no_attrs).
  assert (E : exists b, marshal iter_id [] x = Ok b /\ entity_shape b).
  { eexists. split; [by vm_compute|]. by exists false. }
  destruct E as (b & E & Hs). destruct (H _ _ _ _ E) as (_ & _ & Hl & _).
  destruct (shapes_disjoint b) as (_ & _ & Hd). by apply (Hd Hs), Hl.
Qed.
Print Assumptions c44_dispatch_refuted.
(** also for a value with the methods of resource and of object *)
Theorem c44_object_refuted : exists x b, is_object x /\ marshal iter_id [] x = Ok b /\ ~ object_shape b.
Proof.
  exists (Dyn (Some (Some (UVal "u"))) (Some "t"%string) (Some (Some no_attrs)) (Some "n"%string) (Some "g"%string)
    (Some "v"%string) (Some "k"%string) (Some true) (Some "ns"%string) (Some None) None None).
  eexists. split; [done|]. split; [by vm_compute|]. 
  match goal with |- ~ object_shape ?b => destruct (shapes_disjoint b) as (Hr & _) end.
  apply Hr. by exists false.
Qed.
Print Assumptions c44_object_refuted.

(** C44.  The order of the cases, and what is in the text: a resource whatever
    other methods it has; an object that is not a resource; an entity that is
    neither; a link that is no entity. *)
Theorem c44_order_partial :
  forall io n x,
  (is_resource x -> forall b, marshal io n x = Ok b -> resource_shape b) /\
  (~ is_resource x -> is_object x -> forall b, marshal io n x = Ok b -> object_shape b) /\
  (~ is_resource x -> ~ is_object x -> is_entity x -> forall b, marshal io n x = Ok b -> entity_shape b) /\
  (~ is_entity x -> is_link x -> forall b, marshal io n x = Ok b -> link_shape b) /\
  (~ is_entity x -> ~ is_link x -> marshal io n x = Err MarshalErrUnsuportedType).
Proof.
  intros io n x. rewrite as_resource_iff, as_object_iff, as_link_iff.
  assert (Hno : ~ is_entity x -> as_resource x = None /\ as_object x = None /\ as_entity x = None).
  { rewrite as_entity_iff. unfold as_resource, as_object. destruct (as_entity x); [intros []; eauto|done]. }
  unfold marshal. split; [|split; [|split; [|split]]].
  - intros [r ->] b. destruct (resource_from_space r); cbn [rbind]; [|done..]. intros [= <-]. apply r_shape.
  - destruct (as_resource x); [intros []; eauto|]. intros _ [o ->] b.
    destruct (object_from_space o); cbn [rbind]; [|done..]. intros [= <-]. apply o_shape.
  - rewrite as_entity_iff. destruct (as_resource x); [intros []; eauto|]. intros _.
    destruct (as_object x); [intros []; eauto|]. intros _ [e ->] b.
    destruct (entity_from_space e); cbn [rbind]; [|done..]. intros [= <-]. apply e_shape.
  - intros Hn [l Hl] b. destruct (Hno Hn) as (-> & -> & ->). rewrite Hl.
    destruct (link_from_space l); cbn [rbind]; [|done..]. intros [= <-]. apply l_shape.
  - intros Hn Hl. destruct (Hno Hn) as (-> & -> & ->). destruct (as_link x); [|done]. by destruct Hl; eauto.
Qed.
Print Assumptions c44_order_partial.
(** C44.  The content, for implementations of any origin. *)
Theorem c44_content_partial :
  forall io n io2 n2 w1 x u t a m,
  dy_uid x = Some (Some u) -> dy_attrs x = Some (Some a) -> to_map (Some a) = Ok m ->
  (dy_type x = Some t ->
    (forall nm g v k b, dy_name x = Some nm -> dy_group x = Some g -> dy_version x = Some v -> dy_kind x = Some k ->
       dy_namespaced x = Some b ->
       exists txt r w2, marshal io n x = Ok txt /\ unmarshal io2 n2 w1 txt TResource = Ok (VResource r, w2) /\
         text_cleaned (uid_string u) (uid_string (r_uid r)) /\ text_cleaned t (r_typ r) /\
         map_cleaned m (attrs_map w2 (r_attrs r)) /\ text_cleaned nm (r_name r) /\ text_cleaned g (r_group r) /\
         text_cleaned v (r_version r) /\ text_cleaned k (r_kind r) /\ r_namespaced r = b) /\
    (forall nm ns, dy_name x = Some nm -> dy_namespace x = Some ns -> dy_resource x = Some None -> ~ is_resource x ->
       exists txt o w2, marshal io n x = Ok txt /\ unmarshal io2 n2 w1 txt TObject = Ok (VObject o, w2) /\
         text_cleaned (uid_string u) (uid_string (o_uid o)) /\ text_cleaned t (o_typ o) /\
         map_cleaned m (attrs_map w2 (o_attrs o)) /\ text_cleaned nm (o_name o) /\ text_cleaned ns (o_ns o) /\ o_res o = None) /\
    (~ is_resource x -> ~ is_object x ->
       exists txt e w2, marshal io n x = Ok txt /\ unmarshal io2 n2 w1 txt TEntity = Ok (VEntity e, w2) /\
         text_cleaned (uid_string u) (uid_string (e_uid e)) /\ text_cleaned t (e_typ e) /\
         map_cleaned m (attrs_map w2 (e_attrs e)))) /\
  (forall f d, dy_type x = None -> dy_from x = Some (Some f) -> dy_to x = Some (Some d) ->
     exists txt l w2, marshal io n x = Ok txt /\ unmarshal io2 n2 w1 txt TLink = Ok (VLink l, w2) /\
       text_cleaned (uid_string u) (uid_string (l_uid l)) /\ text_cleaned (uid_string f) (uid_string (l_from l)) /\
       text_cleaned (uid_string d) (uid_string (l_to l)) /\ map_cleaned m (attrs_map w2 (l_attrs l))).
Proof.
  intros io n io2 n2 w1 x u t a m Hu Ha Hm. split.
  - intros Ht.
    assert (He : as_entity x = Some (EntityI (Some u) t (Some a))) by (unfold as_entity; by rewrite Hu, Ht, Ha).
    assert (Hf : entity_from_space (EntityI (Some u) t (Some a)) = Ok (SerEntity (uid_string u) t (Some m)))
      by (unfold entity_from_space, ei_attrs; by rewrite Hm).
    split; [|split].
    + intros nm g v k b H1 H2 H3 H4 H5. unfold marshal.
      assert (Hr : as_resource x = Some (ResourceI (EntityI (Some u) t (Some a)) nm g v k b))
        by (unfold as_resource; by rewrite He, H1, H2, H3, H4, H5).
      rewrite Hr. unfold resource_from_space. cbn [ri_ent ri_name ri_group ri_version ri_kind ri_namespaced]. rewrite Hf. cbn [rbind].
      set (s := SerResource _ _ _ _ _ _).
      destruct (to_resource io2 n2 w1 (cser_resource s)) as (r & w2 & E & G1 & G2 & G3 & G4 & G5 & G6 & G7 & G8 & _).
      eexists _, r, w2. split; [done|]. unfold unmarshal. rewrite json_resource. cbn [rbind]. rewrite E. split; [done|].
      rewrite G1, G2, G3, G4, G5, G6, G7, G8. cbn [cser_resource cser_entity sr_ent se_attrs]. rewrite clean_map_default.
      do 2 (split; [apply text_cleaned_ctext|]). split; [apply cmap_cleaned|]. do 4 (split; [apply text_cleaned_ctext|]). done.
    + intros nm ns H1 H2 H3 Hn. unfold marshal. rewrite as_resource_iff in Hn.
      destruct (as_resource x) as [|]; [destruct Hn; eauto|]. clear Hn.
      assert (Hr : as_object x = Some (ObjectI (EntityI (Some u) t (Some a)) nm ns None))
        by (unfold as_object; by rewrite He, H1, H2, H3).
      rewrite Hr. unfold object_from_space. cbn [oi_ent oi_name oi_namespace oi_resource]. rewrite Hf. cbn [rbind].
      set (s := SerObject _ _ _ _).
      destruct (to_object io2 n2 w1 (cser_object s)) as (o & w2 & E & G1 & G2 & G3 & G4 & G5 & _ & _ & _ & G6).
      eexists _, o, w2. split; [done|]. unfold unmarshal. rewrite json_object. cbn [rbind]. rewrite E. split; [done|].
      rewrite G1, G2, G3, G4, G5. cbn [cser_object cser_entity so_ent se_attrs]. rewrite clean_map_default.
      do 2 (split; [apply text_cleaned_ctext|]). split; [apply cmap_cleaned|]. do 2 (split; [apply text_cleaned_ctext|]).
      cbn in G6. by destruct G6.
    + intros Hn Hn'. unfold marshal. rewrite as_resource_iff in Hn. rewrite as_object_iff in Hn'.
      destruct (as_resource x) as [|]; [destruct Hn; eauto|]. destruct (as_object x) as [|]; [destruct Hn'; eauto|].
      rewrite He, Hf. cbn [rbind]. set (s := SerEntity _ _ _).
      destruct (to_entity io2 n2 w1 (cser_entity s)) as (o & w2 & E & G1 & G2 & G3 & _).
      eexists _, o, w2. split; [done|]. unfold unmarshal. rewrite json_entity. cbn [rbind]. rewrite E. split; [done|].
      rewrite G1, G2, G3. cbn [cser_entity se_attrs]. rewrite clean_map_default.
      do 2 (split; [apply text_cleaned_ctext|]). apply cmap_cleaned.
  - intros f d Ht H1 H2. unfold marshal.
    assert (He : as_entity x = None) by (unfold as_entity; rewrite Ht; by destruct (dy_uid x)).
    assert (as_resource x = None) as -> by (unfold as_resource; by rewrite He).
    assert (as_object x = None) as -> by (unfold as_object; by rewrite He).
    rewrite He. assert (as_link x = Some (LinkI (Some u) (Some f) (Some d) (Some a))) as ->
      by (unfold as_link; by rewrite Hu, H1, H2, Ha).
    unfold link_from_space. cbn [li_attrs li_uid li_from li_to]. rewrite Hm. cbn [rbind uid_text].
    set (s := SerLink _ _ _ _).
    destruct (to_link io2 n2 w1 (cser_link s)) as (o & w2 & E & G1 & G2 & G3 & G4 & _).
    eexists _, o, w2. split; [done|]. unfold unmarshal. rewrite json_link. cbn [rbind]. rewrite E. split; [done|].
    rewrite G1, G2, G3, G4. cbn [cser_link sl_attrs]. rewrite clean_map_default.
    do 3 (split; [apply text_cleaned_ctext|]). apply cmap_cleaned.
Qed.
Print Assumptions c44_content_partial.
(** C44.  Unmarshal: unsupported exactly for the other argument types, whatever
    the text; for the four types no other error than that of encoding/json. *)
Theorem c44_unmarshal_targets_partial :
  forall io n w b,
  unmarshal io n w b TOther = Err MarshalErrUnsuportedType /\
  forall t, t <> TOther -> (exists v w2, unmarshal io n w b t = Ok (v, w2) /\ world_grown w w2 /\
      match t, v with
      | TResource, VResource _ | TObject, VObject _ | TEntity, VEntity _ | TLink, VLink _ => True
      | _, _ => False
      end) \/ unmarshal io n w b t = Err ESyntax.
Proof.
  intros io n w b. split; [done|]. intros t Ht.
  assert (HJ : forall S (fs : fields S) z, (exists s, json_unmarshal fs b z = Ok s) \/ json_unmarshal fs b z = Err ESyntax).
  { intros S fs z. unfold json_unmarshal. destruct (parse (to_bytes b)); [|by right]. destruct (decode_struct fs j z); eauto. }
  destruct t; [| | | |done]; unfold unmarshal.
  - destruct (HJ _ resource_fields resource_zero) as [[s ->]| ->]; [|by right]. left. cbn [rbind].
    destruct (to_resource io n w s) as (r & w2 & -> & H). exists (VResource r), w2. split; [done|]. split; [|done]. apply H.
  - destruct (HJ _ object_fields object_zero) as [[s ->]| ->]; [|by right]. left. cbn [rbind].
    destruct (to_object io n w s) as (r & w2 & -> & H). exists (VObject r), w2. split; [done|]. split; [|done]. apply H.
  - destruct (HJ _ entity_fields entity_zero) as [[s ->]| ->]; [|by right]. left. cbn [rbind].
    destruct (to_entity io n w s) as (r & w2 & -> & H). exists (VEntity r), w2. split; [done|]. split; [|done]. apply H.
  - destruct (HJ _ link_fields link_zero) as [[s ->]| ->]; [|by right]. left. cbn [rbind].
    destruct (to_link io n w s) as (r & w2 & -> & H). exists (VLink r), w2. split; [done|]. split; [|done]. apply H.
Qed.
Print Assumptions c44_unmarshal_targets_partial.
(** the types of the repository *)
Example c44_example :
  (forall e, is_entity (dyn_of_entity e) /\ ~ is_resource (dyn_of_entity e) /\ ~ is_object (dyn_of_entity e) /\ ~ is_link (dyn_of_entity e)) /\
  (forall r, is_resource (dyn_of_resource r) /\ ~ is_object (dyn_of_resource r)) /\
  (forall o, is_object (dyn_of_object o) /\ ~ is_resource (dyn_of_object o)) /\
  (forall l, is_link (dyn_of_link l) /\ ~ is_entity (dyn_of_link l)) /\
  (forall io n e, marshal io n (dyn_of_entity_value e) = Err MarshalErrUnsuportedType) /\
  (forall io n o, marshal io n (dyn_of_object_value o) = Err MarshalErrUnsuportedType) /\
  (forall io n io' n' w e, marshal io n (dyn_of_edge io' n' w e) = Err MarshalErrUnsuportedType).
Proof.
  unfold is_link, is_object, is_resource, is_entity, has. simpl. repeat split; try done; try naive_solver.
Qed.

(** C78.  Marshaling a stored node: the full claim, that the text is that of the
    resource the node was made of. *)
Definition c78_claim : Prop :=
  forall io n io' n' w r nd b, n_ent nd = gent_of_resource r ->
    marshal io n (dyn_of_node io' n' w nd) = Ok b ->
    marshal io n (dyn_of_resource (resource_iface io' n' w r)) = Ok b.
(** C78.  The text is that of an entity with the UID and type of what the node
    holds and the attributes of the node. *)
Theorem c78_node_as_entity_partial : forall io n io' n' io2 n2 w w1 nd,
  exists b e w2, marshal io n (dyn_of_node io' n' w nd) = Ok b /\ entity_shape b /\
    unmarshal io2 n2 w1 b TEntity = Ok (VEntity e, w2) /\
    text_cleaned (uid_string (ge_uid (n_ent nd))) (uid_string (e_uid e)) /\
    text_cleaned (ge_type (n_ent nd)) (e_typ e) /\
    map_cleaned (attrs_map w (n_attrs nd)) (attrs_map w2 (e_attrs e)).
Proof.
  intros io n io' n' io2 n2 w w1 nd.
  destruct (c44_content_partial io n io2 n2 w1 (dyn_of_node io' n' w nd) (n_uid nd) (n_type nd)
    (mem_iface io' n' w (n_attrs nd)) (attrs_map w (n_attrs nd)) eq_refl eq_refl (to_map_mem _ _ _ _)) as [H _].
  destruct (H eq_refl) as (_ & _ & H').
  assert (Hr : ~ is_resource (dyn_of_node io' n' w nd)) by (intros (_ & Hr & _); by apply Hr).
  assert (Ho : ~ is_object (dyn_of_node io' n' w nd)) by (intros (_ & Hq & _); by apply Hq).
  destruct (H' Hr Ho) as (b & e & w2 & H1 & H2 & H3 & H4 & H5). exists b, e, w2. split; [done|].
  split; [|done]. destruct (c44_order_partial io n (dyn_of_node io' n' w nd)) as (_ & _ & Hs & _). by apply Hs.
Qed.
Print Assumptions c78_node_as_entity_partial.
Theorem c78_node_keeps_kind_refuted : ~ c78_claim.
Proof.
  intros H. set (w := World ∅ 5 (fun _ => "u"%string) 0).
  set (r := Resource (UVal "r") "t" "pods" "g" "v1" "Pod" true "d" 2%N).
  destruct (c78_node_as_entity_partial iter_id [] iter_id [] iter_id [] w w (Node (gent_of_resource r) 0 "d" 2%N))
    as (b & e & w2 & H1 & Hs & _).
  pose proof (H iter_id [] iter_id [] w r (Node (gent_of_resource r) 0 "d" 2%N) b eq_refl H1) as H2.
  destruct (shapes_disjoint b) as ((_ & Hd & _) & _); [|by apply Hd].
  rewrite marshal_resource in H2. injection H2 as <-. apply r_shape.
Qed.
Print Assumptions c78_node_keeps_kind_refuted.

(** C79.  Unmarshal only accepts a text with a UID: the full claim. *)
Definition c79_claim : Prop :=
  forall io n w b t v w2, unmarshal io n w b t = Ok (v, w2) -> exists l, member_names b = Some l /\ "uid"%string ∈ l.
Theorem c79_requires_uid_refuted : ~ c79_claim.
Proof.
  intros H. set (w := World ∅ 5 (fun _ => "u"%string) 0).
  destruct (c44_unmarshal_targets_partial iter_id [] w "{}") as [_ HT].
  destruct (HT TEntity) as [(v & w2 & E & _)|E]; [done| |by vm_compute in E].
  destruct (H _ _ _ _ _ _ _ E) as (l & Hl & Hin). vm_compute in Hl. injection Hl as <-. by apply elem_of_nil in Hin.
Qed.
Print Assumptions c79_requires_uid_refuted.
(** C79.  A text is accepted only if it is a JSON object or null, and null and the
    empty object give the value with empty UID, type and attributes. *)
Theorem c79_accepted_partial :
  (forall io n w b t v w2, unmarshal io n w b t = Ok (v, w2) ->
     (exists l, member_names b = Some l) \/ parse (to_bytes b) = Some JNull) /\
  (forall io n w b, parse (to_bytes b) = Some JNull \/ member_names b = Some [] ->
     (exists e w2, unmarshal io n w b TEntity = Ok (VEntity e, w2) /\ uid_string (e_uid e) = ""%string /\ e_typ e = ""%string /\
        attrs_map w2 (e_attrs e) = ∅) /\
     (exists r w2, unmarshal io n w b TResource = Ok (VResource r, w2) /\ uid_string (r_uid r) = ""%string /\ r_typ r = ""%string /\
        attrs_map w2 (r_attrs r) = ∅ /\ r_name r = ""%string /\ r_group r = ""%string /\ r_version r = ""%string /\
        r_kind r = ""%string /\ r_namespaced r = false /\ r_dotid r = "//"%string) /\
     (exists o w2, unmarshal io n w b TObject = Ok (VObject o, w2) /\ uid_string (o_uid o) = ""%string /\ o_typ o = ""%string /\
        attrs_map w2 (o_attrs o) = ∅ /\ o_name o = ""%string /\ o_ns o = ""%string /\ o_res o = None) /\
     (exists l w2, unmarshal io n w b TLink = Ok (VLink l, w2) /\ uid_string (l_uid l) = ""%string /\
        uid_string (l_from l) = ""%string /\ uid_string (l_to l) = ""%string /\ attrs_map w2 (l_attrs l) = ∅)).
Proof.
  split.
  - intros io n w b t v w2 H.
    assert (HJ : forall S (fs : fields S) z s, json_unmarshal fs b z = Ok s ->
      (exists l, member_names b = Some l) \/ parse (to_bytes b) = Some JNull).
    { intros S fs z s. unfold json_unmarshal, member_names. destruct (parse (to_bytes b)) as [[]|]; simpl; eauto; done. }
    destruct t; [| | | |done]; unfold unmarshal in H.
    + destruct (json_unmarshal resource_fields b resource_zero) eqn:E; [by eapply HJ|done..].
    + destruct (json_unmarshal object_fields b object_zero) eqn:E; [by eapply HJ|done..].
    + destruct (json_unmarshal entity_fields b entity_zero) eqn:E; [by eapply HJ|done..].
    + destruct (json_unmarshal link_fields b link_zero) eqn:E; [by eapply HJ|done..].
  - intros io n w b Hb.
    assert (HZ : forall S (fs : fields S) z, json_unmarshal fs b z = Ok z).
    { intros S fs z. unfold json_unmarshal. destruct Hb as [->|Hb]; [done|]. unfold member_names in Hb.
      destruct (parse (to_bytes b)) as [[| | | | |[|kv l]]|]; done. }
    unfold unmarshal. rewrite !HZ. cbn [rbind]. split; [|split; [|split]].
    + destruct (to_entity io n w entity_zero) as (x & w2 & -> & H1 & H2 & H3 & _). exists x, w2. done.
    + destruct (to_resource io n w resource_zero) as (x & w2 & -> & H1 & H2 & H3 & H4 & H5 & H6 & H7 & H8 & H9 & _). exists x, w2.
      split; [done|]. split; [done|]. split; [done|]. split; [done|]. done.
    + destruct (to_object io n w object_zero) as (x & w2 & -> & H1 & H2 & H3 & H4 & H5 & _ & _ & _ & H6). exists x, w2. destruct H6.
      done.
    + destruct (to_link io n w link_zero) as (x & w2 & -> & H1 & H2 & H3 & H4 & _). exists x, w2. done.
Qed.
Print Assumptions c79_accepted_partial.
Example c79_example :
  (exists l, member_names "{""UID"":""a"",""Type"":null}" = Some l /\ l = ["UID"; "Type"]%string) /\
  parse (to_bytes " null ") = Some JNull /\ parse (to_bytes "{""uid"":}") = None /\
  json_unmarshal entity_fields "{""UID"":""a"",""x"":[1.5e3,{}],""Type"":null}" entity_zero = Ok (SerEntity "a" "" None) /\
  json_unmarshal entity_fields "{""uid"":1}" entity_zero = Err ESyntax.
Proof. split; [eexists; split; by vm_compute|]. split; [by vm_compute|]. split; [by vm_compute|]. split; by vm_compute. Qed.

(** C80.  Marshal never panics: the full claim. *)
Definition c80_claim : Prop := forall io n x p, marshal io n x <> Panic p.
Theorem c80_no_panic_refuted : ~ c80_claim.
Proof. intros H. apply (H iter_id [] (dyn_of_entity (EntityI (Some (UVal "u")) "t" None)) PNilDeref). done. Qed.
Print Assumptions c80_no_panic_refuted.
(** C80.  It panics only if the value, or the resource of an object, returns a
    nil UID or nil attributes, or a method of the attributes panics. *)
Definition sound_ids (u : option (option UID)) : Prop := u <> Some None.
Definition sound_attrs (a : option (option attrsI)) : Prop :=
  match a with Some a => forall p, to_map a <> Panic p | None => True end.
Theorem c80_no_panic_partial :
  (forall a, (forall p, ai_keys a <> Panic p) -> (forall k p, ai_get a k <> Panic p) -> sound_attrs (Some (Some a))) /\
  forall io n x p, sound_ids (dy_uid x) -> sound_ids (dy_from x) -> sound_ids (dy_to x) -> sound_attrs (dy_attrs x) ->
    (forall r, dy_resource x = Some (Some r) ->
       sound_ids (Some (ei_uid (ri_ent r))) /\ sound_attrs (Some (ei_attrs (ri_ent r)))) ->
    marshal io n x <> Panic p.
Proof.
  split.
  - intros a Hk Hg p. unfold to_map. destruct (ai_keys a) as [ks| |q] eqn:E; cbn [rbind]; [|done|by destruct (Hk q)].
    pose proof (copy_loop_err (ai_get a) ks ∅) as H. destruct (copy_loop (ai_get a) ks ∅); [done..|].
    destruct H as (pre & k & post & _ & H & _). by apply Hg in H.
  - intros io n x p Hu Hf Ht Ha Hr.
    assert (HE : forall u t a q, sound_ids (Some u) -> sound_attrs (Some a) -> entity_from_space (EntityI u t a) <> Panic q).
    { intros u t a q H1 H2. unfold entity_from_space, ei_attrs. simpl in H2. destruct (to_map a) eqn:E; cbn [rbind]; [|done|].
      - unfold ei_uid. destruct u; [done|]. by destruct H1.
      - intros [= ->]. by apply (H2 q). }
    assert (Hent : forall e q, as_entity x = Some e -> entity_from_space e <> Panic q).
    { intros [u t a] q. unfold as_entity. destruct (dy_uid x), (dy_type x), (dy_attrs x); try done. intros [= -> -> ->]. by apply HE. }
    unfold marshal. destruct (as_resource x) as [r|] eqn:E1.
    { unfold resource_from_space. assert (He : as_entity x = Some (ri_ent r)).
      { unfold as_resource in E1. destruct (as_entity x), (dy_name x), (dy_group x), (dy_version x), (dy_kind x), (dy_namespaced x); try done.
        by injection E1 as <-. }
      specialize (Hent _ p He). destruct (entity_from_space (ri_ent r)); cbn [rbind]; [done|done|]. congruence. }
    destruct (as_object x) as [o|] eqn:E2.
    { unfold object_from_space. assert (He : as_entity x = Some (oi_ent o) /\ dy_resource x = Some (oi_resource o)).
      { unfold as_object in E2. destruct (as_entity x), (dy_name x), (dy_namespace x), (dy_resource x); try done.
        by injection E2 as <-. }
      destruct He as [He Hres]. specialize (Hent _ p He). destruct (entity_from_space (oi_ent o)); cbn [rbind]; [|done|congruence].
      destruct (oi_resource o) as [r|]; [|done]. destruct (Hr _ Hres) as [G1 G2].
      unfold resource_from_space. pose proof (HE (ei_uid (ri_ent r)) (ei_type (ri_ent r)) (ei_attrs (ri_ent r)) p G1 G2) as G.
      destruct (ri_ent r) as [ru rt ra]. cbn [ei_uid ei_type ei_attrs] in G.
      destruct (entity_from_space (EntityI ru rt ra)); cbn [rbind]; [done|done|congruence]. }
    destruct (as_entity x) as [e|] eqn:E3.
    { specialize (Hent _ p eq_refl). destruct (entity_from_space e); cbn [rbind]; [done|done|congruence]. }
    destruct (as_link x) as [l|] eqn:E4; [|done].
    unfold as_link in E4. destruct (dy_uid x) as [u|], (dy_from x) as [f|], (dy_to x) as [t|], (dy_attrs x) as [a|]; try done.
    injection E4 as <-. unfold link_from_space. cbn [li_attrs li_uid li_from li_to]. simpl in Ha.
    destruct (to_map a) eqn:E; cbn [rbind]; [|done|intros [= ->]; by apply (Ha p)].
    destruct u; [|by destruct Hu]. destruct f; [|by destruct Hf]. destruct t; [|by destruct Ht]. done.
Qed.
Print Assumptions c80_no_panic_partial.
Example c80_example : sound_attrs (Some (Some (mem_iface iter_id [] (World ∅ 5 (fun _ => "u"%string) 0) 2%N))).
Proof. apply c80_no_panic_partial; done. Qed.

(** C81.  The text of a resource or object read as an entity gives its UID, type
    and attributes. *)
Theorem c81_read_as_entity :
  forall io n io' n' io2 n2 w w1,
  (forall r, exists b e w2, marshal io n (dyn_of_resource (resource_iface io' n' w r)) = Ok b /\
     unmarshal io2 n2 w1 b TEntity = Ok (VEntity e, w2) /\
     text_cleaned (uid_string (r_uid r)) (uid_string (e_uid e)) /\ text_cleaned (r_typ r) (e_typ e) /\
     map_cleaned (attrs_map w (r_attrs r)) (attrs_map w2 (e_attrs e))) /\
  (forall o, exists b e w2, marshal io n (dyn_of_object (object_iface io' n' w o)) = Ok b /\
     unmarshal io2 n2 w1 b TEntity = Ok (VEntity e, w2) /\
     text_cleaned (uid_string (o_uid o)) (uid_string (e_uid e)) /\ text_cleaned (o_typ o) (e_typ e) /\
     map_cleaned (attrs_map w (o_attrs o)) (attrs_map w2 (e_attrs e))).
Proof.
  intros io n io' n' io2 n2 w w1. split; intros x.
  - rewrite marshal_resource. destruct (to_entity io2 n2 w1 (cser_entity (sr_ent (ser_r w x)))) as (e & w2 & E & G1 & G2 & G3 & _).
    eexists _, e, w2. split; [done|]. unfold unmarshal. rewrite json_resource_as_entity. cbn [rbind]. rewrite E. split; [done|].
    rewrite G1, G2, G3. cbn [cser_entity se_attrs]. rewrite clean_map_default.
    do 2 (split; [apply text_cleaned_ctext|]). apply cmap_cleaned.
  - rewrite marshal_object. destruct (to_entity io2 n2 w1 (cser_entity (so_ent (ser_o w x)))) as (e & w2 & E & G1 & G2 & G3 & _).
    eexists _, e, w2. split; [done|]. unfold unmarshal. rewrite json_object_as_entity. cbn [rbind]. rewrite E. split; [done|].
    rewrite G1, G2, G3. cbn [cser_entity se_attrs]. rewrite clean_map_default.
    do 2 (split; [apply text_cleaned_ctext|]). apply cmap_cleaned.
Qed.
Print Assumptions c81_read_as_entity.
Example c81_example :
  json_unmarshal entity_fields
    (json_marshal (resource_members iter_id [] (SerResource (SerEntity "u" "t" None) "n" "g" "v" "k" true))) entity_zero
  = Ok (SerEntity "u" "t" None).
Proof. by vm_compute. Qed.
