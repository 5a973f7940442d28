(** Round trips. *)
From Verif.Model Require Import Marshal.
From Verif.Spec Require Import MarshalSpec.
From Verif.Proof Require Import AttrsP JsonP JsonP2 MarshalP MarshalP2.

(** ** Serialisable form of a value *)
Definition ser_e (w : world) (e : entity) : ser_entity := SerEntity (uid_string (e_uid e)) (e_typ e) (Some (attrs_map w (e_attrs e))).
Definition ser_r (w : world) (r : resource) : ser_resource :=
  SerResource (SerEntity (uid_string (r_uid r)) (r_typ r) (Some (attrs_map w (r_attrs r)))) (r_name r) (r_group r) (r_version r) (r_kind r) (r_namespaced r).
Definition ser_o (w : world) (o : object) : ser_object :=
  SerObject (SerEntity (uid_string (o_uid o)) (o_typ o) (Some (attrs_map w (o_attrs o)))) (o_name o) (o_ns o) (ser_r w <$> o_res o).
Definition ser_l (w : world) (l : link) : ser_link :=
  SerLink (uid_string (l_uid l)) (uid_string (l_from l)) (uid_string (l_to l)) (Some (attrs_map w (l_attrs l))).
Lemma from_entity io n w e : entity_from_space (entity_iface io n w e) = Ok (ser_e w e).
Proof. unfold entity_from_space, entity_iface, ei_attrs. rewrite to_map_mem. done. Qed.
Lemma from_resource io n w r : resource_from_space (resource_iface io n w r) = Ok (ser_r w r).
Proof. unfold resource_from_space, entity_from_space, resource_iface, ri_ent, ei_attrs. rewrite to_map_mem. done. Qed.
Lemma from_object io n w o : object_from_space (object_iface io n w o) = Ok (ser_o w o).
Proof.
  unfold object_from_space, entity_from_space. unfold object_iface at 1. unfold oi_ent at 1, ei_attrs. rewrite to_map_mem.
  unfold object_iface, ser_o. cbn. destruct (o_res o) as [r|]; [|done]. cbn [fmap option_fmap option_map].
  change (resource_from_space (resource_iface io (n ++ [0]) w r)) with (resource_from_space (resource_iface io (n ++ [0]) w r)).
  by rewrite from_resource.
Qed.
Lemma from_link io n w l : link_from_space (link_iface io n w l) = Ok (ser_l w l).
Proof. unfold link_from_space, link_iface, li_attrs. rewrite to_map_mem. done. Qed.

(** ** A value made from a serialisable form *)
Lemma to_entity io n w s : exists e w', entity_to_space io n w s = (e, w') /\
  uid_string (e_uid e) = se_uid s /\ e_typ e = se_type s /\ attrs_map w' (e_attrs e) = default ∅ (se_attrs s) /\
  e_dotid e = se_uid s /\ new_uid w w' (e_uid e) /\ new_ref w w' (e_attrs e) /\ world_grown w w'.
Proof.
  rewrite entity_to_space_eq. unfold attrs_alloc. cbn [uid_from_string snd]. eexists _, _. split; [done|]. cbn.
  split; [done|]. split; [done|]. split; [unfold attrs_map; simpl; by rewrite lookup_insert|]. split; [done|].
  unfold new_ref, world_grown. simpl. split; [lia|]. split; [lia|]. split; [|split; [lia|done]].
  intros x Hx. unfold attrs_map. simpl. rewrite lookup_insert_ne; [done|lia].
Qed.
Lemma to_resource io n w s : exists r w', resource_to_space io n w s = (r, w') /\
  uid_string (r_uid r) = se_uid (sr_ent s) /\ r_typ r = se_type (sr_ent s) /\
  attrs_map w' (r_attrs r) = default ∅ (se_attrs (sr_ent s)) /\
  r_name r = sr_name s /\ r_group r = sr_group s /\ r_version r = sr_version s /\ r_kind r = sr_kind s /\
  r_namespaced r = sr_namespaced s /\ r_dotid r = String.concat "/" [sr_group s; sr_version s; sr_kind s] /\
  new_uid w w' (r_uid r) /\ new_ref w w' (r_attrs r) /\ world_grown w w'.
Proof.
  rewrite resource_to_space_eq. unfold attrs_alloc. cbn [uid_from_string snd]. eexists _, _. split; [done|]. cbn [r_uid r_typ r_attrs r_name r_group r_version r_kind r_namespaced r_dotid].
  split; [done|]. split; [done|]. split; [unfold attrs_map; simpl; by rewrite lookup_insert|]. do 6 (split; [done|]).
  unfold new_ref, world_grown. simpl. split; [lia|]. split; [lia|]. split; [|split; [lia|done]].
  intros x Hx. unfold attrs_map. simpl. rewrite lookup_insert_ne; [done|lia].
Qed.
Lemma grown_trans w1 w2 w3 : world_grown w1 w2 -> world_grown w2 w3 -> world_grown w1 w3.
Proof.
  intros (A1 & A2 & A3 & A4) (B1 & B2 & B3 & B4). split; [|split; [lia|split; congruence]].
  intros x Hx. rewrite B1 by lia. by apply A1.
Qed.
(** new values keep their content when the world grows *)
Lemma new_ref_grown w w1 w2 a : new_ref w w1 a -> world_grown w1 w2 -> attrs_map w2 a = attrs_map w1 a /\ new_ref w w2 a.
Proof. intros [H1 H2] (B1 & B2 & _). split; [by apply B1|]. split; [done|lia]. Qed.
Lemma new_uid_grown w w1 w2 u : new_uid w w1 u -> world_grown w1 w2 -> new_uid w w2 u.
Proof. destruct u; simpl; [|done]. intros [H1 H2] (B1 & B2 & _). lia. Qed.
Lemma to_object io n w s : exists o w', object_to_space io n w s = (o, w') /\
  uid_string (o_uid o) = se_uid (so_ent s) /\ o_typ o = se_type (so_ent s) /\
  attrs_map w' (o_attrs o) = default ∅ (se_attrs (so_ent s)) /\
  o_name o = so_name s /\ o_ns o = so_namespace s /\
  new_uid w w' (o_uid o) /\ new_ref w w' (o_attrs o) /\ world_grown w w' /\
  match so_resource s with
  | None => o_res o = None /\ o_dotid o = se_uid (so_ent s)
  | Some t => exists r, o_res o = Some r /\
      o_dotid o = String.concat "/" [sr_group t; sr_version t; sr_kind t; so_namespace s; so_name s] /\
      uid_string (r_uid r) = se_uid (sr_ent t) /\ r_typ r = se_type (sr_ent t) /\
      attrs_map w' (r_attrs r) = default ∅ (se_attrs (sr_ent t)) /\
      r_name r = sr_name t /\ r_group r = sr_group t /\ r_version r = sr_version t /\ r_kind r = sr_kind t /\
      r_namespaced r = sr_namespaced t /\ r_dotid r = String.concat "/" [sr_group t; sr_version t; sr_kind t] /\
      new_uid w w' (r_uid r) /\ new_ref w w' (r_attrs r) /\ r_attrs r <> o_attrs o
  end.
Proof.
  rewrite object_to_space_eq. destruct (so_resource s) as [t|].
  - destruct (to_resource io (n ++ [0]) w t) as (r & w1 & -> & R1 & R2 & R3 & R4 & R5 & R6 & R7 & R8 & R9 & R10 & R11 & R12).
    cbn iota beta. unfold attrs_alloc. cbn [uid_from_string snd].
    cbn [w_next w_attrs w_uuid w_cnt]. set (w2 := World _ _ _ _). assert (G : world_grown w1 w2).
    { split; [|split; [simpl; lia|done]]. intros x Hx. unfold attrs_map, w2. simpl. rewrite lookup_insert_ne; [done|lia]. }
    destruct (new_ref_grown _ _ _ _ R11 G) as [R11' R11'']. pose proof (new_uid_grown _ _ _ _ R10 G) as R10'.
    pose proof (grown_trans _ _ _ R12 G) as G'.
    eexists _, _. split; [done|]. cbn [o_uid o_typ o_attrs o_name o_ns o_res o_dotid].
    split; [done|]. split; [done|]. split; [unfold attrs_map; cbn; by rewrite lookup_insert|]. split; [done|]. split; [done|].
    pose proof R12 as (_ & K & _).
    split; [simpl; lia|]. split; [unfold new_ref; simpl; lia|]. split; [done|].
    exists r. split; [done|]. split; [by rewrite R5, R6, R7|].
    split; [done|]. split; [done|]. split; [congruence|]. do 6 (split; [done|]). split; [done|]. split; [done|].
    destruct R11 as [_ R11]. simpl. lia.
  - cbn iota beta. unfold attrs_alloc. cbn [uid_from_string snd]. eexists _, _. split; [done|]. cbn [o_uid o_typ o_attrs o_name o_ns o_res o_dotid].
    split; [done|]. split; [done|]. split; [unfold attrs_map; cbn; by rewrite lookup_insert|]. split; [done|]. split; [done|].
    split; [simpl; lia|]. split; [unfold new_ref; simpl; lia|]. split; [|done].
    split; [|split; [simpl; lia|done]]. intros x Hx. unfold attrs_map. simpl. rewrite lookup_insert_ne; [done|lia].
Qed.
Lemma to_link io n w s : exists l w', link_to_space io n w s = (l, w') /\
  uid_string (l_uid l) = sl_uid s /\ uid_string (l_from l) = sl_from s /\ uid_string (l_to l) = sl_to s /\
  attrs_map w' (l_attrs l) = default ∅ (sl_attrs s) /\
  new_uid w w' (l_uid l) /\ new_uid w w' (l_from l) /\ new_uid w w' (l_to l) /\ new_ref w w' (l_attrs l) /\ world_grown w w'.
Proof.
  rewrite link_to_space_eq. unfold attrs_alloc. cbn [uid_from_string snd]. eexists _, _. split; [done|]. cbn [l_uid l_from l_to l_attrs].
  do 3 (split; [done|]). split; [unfold attrs_map; simpl; by rewrite lookup_insert|].
  unfold new_ref, world_grown. simpl. do 4 (split; [lia|]). split; [|split; [lia|done]].
  intros x Hx. unfold attrs_map. simpl. rewrite lookup_insert_ne; [done|lia].
Qed.

(** ** Dispatch *)
Lemma as_entity_iff x : is_entity x <-> is_Some (as_entity x).
Proof.
  unfold is_entity, has, as_entity. destruct (dy_uid x), (dy_type x), (dy_attrs x); split;
    try (intros [? ?]; done); try (intros (? & ? & ?); done); try (intros _; eauto); done.
Qed.
Lemma as_resource_iff x : is_resource x <-> is_Some (as_resource x).
Proof.
  unfold is_resource, as_resource. rewrite as_entity_iff. unfold has.
  destruct (as_entity x), (dy_name x), (dy_group x), (dy_version x), (dy_kind x), (dy_namespaced x); split;
    try (intros [? ?]; done); try (intros ([? ?] & ? & ? & ? & ? & ?); done); try (intros _; eauto);
    repeat split; eauto.
Qed.
Lemma as_object_iff x : is_object x <-> is_Some (as_object x).
Proof.
  unfold is_object, as_object. rewrite as_entity_iff. unfold has.
  destruct (as_entity x), (dy_name x), (dy_namespace x), (dy_resource x); split;
    try (intros [? ?]; done); try (intros ([? ?] & ? & ? & ?); done); try (intros _; eauto);
    repeat split; eauto.
Qed.
Lemma as_link_iff x : is_link x <-> is_Some (as_link x).
Proof.
  unfold is_link, has, as_link. destruct (dy_uid x), (dy_from x), (dy_to x), (dy_attrs x); split;
    try (intros [? ?]; done); try (intros (? & ? & ? & ?); done); try (intros _; eauto); done.
Qed.

Lemma marshal_entity io n io' n' w e :
  marshal io n (dyn_of_entity (entity_iface io' n' w e)) = Ok (json_marshal (entity_members io n (ser_e w e))).
Proof.
  unfold marshal. change (as_resource (dyn_of_entity (entity_iface io' n' w e))) with (@None resourceI).
  change (as_object (dyn_of_entity (entity_iface io' n' w e))) with (@None objectI).
  change (as_entity (dyn_of_entity (entity_iface io' n' w e))) with (Some (entity_iface io' n' w e)).
  cbn iota. by rewrite from_entity.
Qed.
Lemma marshal_resource io n io' n' w r :
  marshal io n (dyn_of_resource (resource_iface io' n' w r)) = Ok (json_marshal (resource_members io n (ser_r w r))).
Proof.
  unfold marshal. change (as_resource (dyn_of_resource (resource_iface io' n' w r))) with (Some (resource_iface io' n' w r)).
  cbn iota. by rewrite from_resource.
Qed.
Lemma marshal_object io n io' n' w o :
  marshal io n (dyn_of_object (object_iface io' n' w o)) = Ok (json_marshal (object_members io n (ser_o w o))).
Proof.
  unfold marshal. change (as_resource (dyn_of_object (object_iface io' n' w o))) with (@None resourceI).
  change (as_object (dyn_of_object (object_iface io' n' w o))) with (Some (object_iface io' n' w o)).
  cbn iota. by rewrite from_object.
Qed.
Lemma marshal_link io n io' n' w l :
  marshal io n (dyn_of_link (link_iface io' n' w l)) = Ok (json_marshal (link_members io n (ser_l w l))).
Proof.
  unfold marshal. change (as_resource (dyn_of_link (link_iface io' n' w l))) with (@None resourceI).
  change (as_object (dyn_of_link (link_iface io' n' w l))) with (@None objectI).
  change (as_entity (dyn_of_link (link_iface io' n' w l))) with (@None entityI).
  change (as_link (dyn_of_link (link_iface io' n' w l))) with (Some (link_iface io' n' w l)).
  cbn iota. by rewrite from_link.
Qed.

(** ** Content after replacement *)
Lemma text_cleaned_ctext s : text_cleaned s (ctext s).
Proof. apply ctext_cleaned. Qed.
Lemma text_cleaned_iff s t : text_cleaned s t <-> ctext s = t.
Proof. split; [|intros <-; apply ctext_cleaned]. intros H. symmetry. by apply cleaned_ctext. Qed.
Lemma cmap_cleaned m : map_cleaned m (cmap m).
Proof.
  intros k' v'. rewrite cmap_lookup. split; intros (k & v & H1 & H2 & H3 & H4); exists k, v; split; try done.
  - split; [by apply text_cleaned_iff|]. split; [by apply text_cleaned_iff|]. intros k2 Hk2 Hc. apply H4; [done|by apply text_cleaned_iff].
  - split; [by apply text_cleaned_iff|]. split; [by apply text_cleaned_iff|]. intros k2 Hk2 Hc. apply H4; [done|by apply text_cleaned_iff].
Qed.
Lemma clean_map_default a : default ∅ (clean_map a) = cmap (default ∅ a).
Proof. unfold clean_map. case_bool_decide as E; [|done]. rewrite E. simpl. done. Qed.
Lemma map_cleaned_valid m m' : valid_map m -> map_cleaned m m' -> m' = m.
Proof.
  intros Hv H. rewrite <- (cmap_valid m Hv). apply map_eq. intros k. apply option_eq. intros v. rewrite (H k v).
  symmetry. apply cmap_cleaned.
Qed.
Lemma text_cleaned_valid s t : valid_text s -> text_cleaned s t -> t = s.
Proof. intros Hv H. apply text_cleaned_iff in H. by rewrite ctext_valid in H. Qed.
Lemma clean_same_entity w e w' e' : valid_entity w e -> clean_entity w e w' e' -> same_entity w e w' e'.
Proof.
  intros (V1 & V2 & V3) (H1 & H2 & H3). apply (text_cleaned_valid _ _ V1) in H1. apply (text_cleaned_valid _ _ V2) in H2.
  apply (map_cleaned_valid _ _ V3) in H3. done.
Qed.
Lemma clean_same_resource w e w' e' : valid_resource w e -> clean_resource w e w' e' -> same_resource w e w' e'.
Proof.
  intros (V1 & V2 & V3 & V4 & V5 & V6 & V7) (H1 & H2 & H3 & H4 & H5 & H6 & H7 & H8).
  apply (text_cleaned_valid _ _ V1) in H1. apply (text_cleaned_valid _ _ V2) in H2.
  apply (map_cleaned_valid _ _ V3) in H3. apply (text_cleaned_valid _ _ V4) in H4. apply (text_cleaned_valid _ _ V5) in H5.
  apply (text_cleaned_valid _ _ V6) in H6. apply (text_cleaned_valid _ _ V7) in H7. done.
Qed.
Lemma clean_same_object w e w' e' : valid_object w e -> clean_object w e w' e' -> same_object w e w' e'.
Proof.
  intros (V1 & V2 & V3 & V4 & V5 & V6) (H1 & H2 & H3 & H4 & H5 & H6).
  apply (text_cleaned_valid _ _ V1) in H1. apply (text_cleaned_valid _ _ V2) in H2.
  apply (map_cleaned_valid _ _ V3) in H3. apply (text_cleaned_valid _ _ V4) in H4. apply (text_cleaned_valid _ _ V5) in H5.
  do 5 (split; [done|]). destruct (o_res e) as [r|], (o_res e') as [r'|]; try done. apply clean_same_resource; [|done]. by apply V6.
Qed.
Lemma clean_same_link w e w' e' : valid_link w e -> clean_link w e w' e' -> same_link w e w' e'.
Proof.
  intros (V1 & V2 & V3 & V4) (H1 & H2 & H3 & H4).
  apply (text_cleaned_valid _ _ V1) in H1. apply (text_cleaned_valid _ _ V2) in H2. apply (text_cleaned_valid _ _ V3) in H3.
  apply (map_cleaned_valid _ _ V4) in H4. done.
Qed.

(** ** Marshal, then Unmarshal: the value read *)
Lemma roundtrip_entity io n io' n' io2 n2 w e w1 :
  exists b e' w2, marshal io n (dyn_of_entity (entity_iface io' n' w e)) = Ok b /\
    unmarshal io2 n2 w1 b TEntity = Ok (VEntity e', w2) /\ clean_entity w e w2 e' /\
    new_uid w1 w2 (e_uid e') /\ new_ref w1 w2 (e_attrs e') /\ world_grown w1 w2 /\ e_dotid e' = uid_string (e_uid e').
Proof.
  rewrite marshal_entity. unfold unmarshal.
  destruct (to_entity io2 n2 w1 (cser_entity (ser_e w e))) as (e' & w2 & E & H1 & H2 & H3 & H4 & H5 & H6 & H7).
  eexists _, e', w2. split; [done|]. rewrite json_entity. cbn [rbind]. rewrite E. split; [done|].
  split; [|split; [done|split; [done|split; [done|congruence]]]].
  split; [rewrite H1; apply text_cleaned_ctext|]. split; [rewrite H2; apply text_cleaned_ctext|].
  rewrite H3. cbn [cser_entity se_attrs]. rewrite clean_map_default. apply cmap_cleaned.
Qed.
Lemma roundtrip_resource io n io' n' io2 n2 w r w1 :
  exists b r' w2, marshal io n (dyn_of_resource (resource_iface io' n' w r)) = Ok b /\
    unmarshal io2 n2 w1 b TResource = Ok (VResource r', w2) /\ clean_resource w r w2 r' /\
    new_uid w1 w2 (r_uid r') /\ new_ref w1 w2 (r_attrs r') /\ world_grown w1 w2 /\
    r_dotid r' = String.concat "/" [r_group r'; r_version r'; r_kind r'].
Proof.
  rewrite marshal_resource. unfold unmarshal.
  destruct (to_resource io2 n2 w1 (cser_resource (ser_r w r)))
    as (r' & w2 & E & H1 & H2 & H3 & H4 & H5 & H6 & H7 & H8 & H9 & H10 & H11 & H12).
  eexists _, r', w2. split; [done|]. rewrite json_resource. cbn [rbind]. rewrite E. split; [done|].
  split; [|split; [done|split; [done|split; [done|congruence]]]].
  split; [rewrite H1; apply text_cleaned_ctext|]. split; [rewrite H2; apply text_cleaned_ctext|].
  split; [rewrite H3; cbn [cser_resource cser_entity sr_ent se_attrs]; rewrite clean_map_default; apply cmap_cleaned|].
  rewrite H4, H5, H6, H7, H8. repeat split; apply text_cleaned_ctext.
Qed.
Lemma roundtrip_object io n io' n' io2 n2 w o w1 :
  exists b o' w2, marshal io n (dyn_of_object (object_iface io' n' w o)) = Ok b /\
    unmarshal io2 n2 w1 b TObject = Ok (VObject o', w2) /\ clean_object w o w2 o' /\
    new_uid w1 w2 (o_uid o') /\ new_ref w1 w2 (o_attrs o') /\ world_grown w1 w2 /\
    match o_res o' with
    | None => o_dotid o' = uid_string (o_uid o')
    | Some r' => o_dotid o' = String.concat "/" [r_group r'; r_version r'; r_kind r'; o_ns o'; o_name o'] /\
        r_dotid r' = String.concat "/" [r_group r'; r_version r'; r_kind r'] /\
        new_uid w1 w2 (r_uid r') /\ new_ref w1 w2 (r_attrs r') /\ r_attrs r' <> o_attrs o'
    end.
Proof.
  rewrite marshal_object. unfold unmarshal.
  destruct (to_object io2 n2 w1 (cser_object (ser_o w o)))
    as (o' & w2 & E & H1 & H2 & H3 & H4 & H5 & H6 & H7 & H8 & H9).
  eexists _, o', w2. split; [done|]. rewrite json_object. cbn [rbind]. rewrite E. split; [done|].
  cbn [cser_object ser_o so_ent so_name so_namespace so_resource] in *.
  assert (T : text_cleaned (uid_string (o_uid o)) (uid_string (o_uid o')) /\ text_cleaned (o_typ o) (o_typ o') /\
    map_cleaned (attrs_map w (o_attrs o)) (attrs_map w2 (o_attrs o')) /\
    text_cleaned (o_name o) (o_name o') /\ text_cleaned (o_ns o) (o_ns o')).
  { rewrite H1, H2, H3, H4, H5. cbn [cser_entity se_attrs]. rewrite clean_map_default.
    split; [apply text_cleaned_ctext|]. split; [apply text_cleaned_ctext|]. split; [apply cmap_cleaned|].
    split; apply text_cleaned_ctext. }
  destruct T as (T1 & T2 & T3 & T4 & T5). unfold clean_object.
  destruct (o_res o) as [r|]; cbn [fmap option_fmap option_map] in H9.
  - destruct H9 as (r' & -> & D & R1 & R2 & R3 & R4 & R5 & R6 & R7 & R8 & R9 & R10 & R11 & R12).
    split; [|split; [done|split; [done|split; [done|]]]].
    2:{ split; [by rewrite D, R5, R6, R7, H4, H5|]. split; [by rewrite R9, R5, R6, R7|]. done. }
    do 5 (split; [done|]). unfold clean_resource. rewrite R1, R2, R3, R4, R5, R6, R7, R8.
    cbn [cser_resource cser_entity ser_r sr_ent se_attrs sr_name sr_group sr_version sr_kind sr_namespaced se_uid se_type].
    rewrite clean_map_default. split; [apply text_cleaned_ctext|]. split; [apply text_cleaned_ctext|]. split; [apply cmap_cleaned|].
    repeat split; apply text_cleaned_ctext.
  - destruct H9 as [-> D]. split; [done|]. do 3 (split; [done|]). congruence.
Qed.
Lemma roundtrip_link io n io' n' io2 n2 w l w1 :
  exists b l' w2, marshal io n (dyn_of_link (link_iface io' n' w l)) = Ok b /\
    unmarshal io2 n2 w1 b TLink = Ok (VLink l', w2) /\ clean_link w l w2 l' /\
    new_uid w1 w2 (l_uid l') /\ new_uid w1 w2 (l_from l') /\ new_uid w1 w2 (l_to l') /\ new_ref w1 w2 (l_attrs l') /\ world_grown w1 w2.
Proof.
  rewrite marshal_link. unfold unmarshal.
  destruct (to_link io2 n2 w1 (cser_link (ser_l w l))) as (l' & w2 & E & H1 & H2 & H3 & H4 & H5 & H6 & H7 & H8 & H9).
  eexists _, l', w2. split; [done|]. rewrite json_link. cbn [rbind]. rewrite E. split; [done|].
  split; [|done]. unfold clean_link. rewrite H1, H2, H3, H4.
  cbn [cser_link sl_attrs]. rewrite clean_map_default.
  split; [apply text_cleaned_ctext|]. split; [apply text_cleaned_ctext|]. split; [apply text_cleaned_ctext|]. apply cmap_cleaned.
Qed.
