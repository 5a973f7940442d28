(** Serialisation: C42, C43, C45 and the round trip claims C76, C77. *)
From Verif.Model Require Import Marshal.
From Verif.Spec Require Import MarshalSpec.
From Verif.Proof Require Import AttrsP JsonP JsonP2 MarshalP MarshalP2 MarshalP3.

(** C42.  Space to serialisable form and back, in any later or other world. *)
Theorem c42_from_to :
  forall io n io2 n2 w w1,
  (forall e, exists s e' w2, entity_from_space (entity_iface io n w e) = Ok s /\
     entity_to_space io2 n2 w1 s = (e', w2) /\ same_entity w e w2 e' /\
     new_uid w1 w2 (e_uid e') /\ new_ref w1 w2 (e_attrs e') /\ world_grown w1 w2) /\
  (forall r, exists s r' w2, resource_from_space (resource_iface io n w r) = Ok s /\
     resource_to_space io2 n2 w1 s = (r', w2) /\ same_resource w r w2 r' /\
     new_uid w1 w2 (r_uid r') /\ new_ref w1 w2 (r_attrs r') /\ world_grown w1 w2) /\
  (forall o, exists s o' w2, object_from_space (object_iface io n w o) = Ok s /\
     object_to_space io2 n2 w1 s = (o', w2) /\ same_object w o w2 o' /\
     new_uid w1 w2 (o_uid o') /\ new_ref w1 w2 (o_attrs o') /\ world_grown w1 w2) /\
  (forall l, exists s l' w2, link_from_space (link_iface io n w l) = Ok s /\
     link_to_space io2 n2 w1 s = (l', w2) /\ same_link w l w2 l' /\
     new_uid w1 w2 (l_uid l') /\ new_uid w1 w2 (l_from l') /\ new_uid w1 w2 (l_to l') /\
     new_ref w1 w2 (l_attrs l') /\ world_grown w1 w2).
Proof.
  intros io n io2 n2 w w1. split; [|split; [|split]].
  - intros e. destruct (to_entity io2 n2 w1 (ser_e w e)) as (e' & w2 & E & H1 & H2 & H3 & H4 & H5 & H6 & H7).
    exists (ser_e w e), e', w2. split; [apply from_entity|]. split; [done|]. split; [|done]. unfold same_entity. by rewrite H1, H2, H3.
  - intros r. destruct (to_resource io2 n2 w1 (ser_r w r))
      as (r' & w2 & E & H1 & H2 & H3 & H4 & H5 & H6 & H7 & H8 & H9 & H10 & H11 & H12).
    exists (ser_r w r), r', w2. split; [apply from_resource|]. split; [done|]. split; [|done].
    unfold same_resource. by rewrite H1, H2, H3, H4, H5, H6, H7, H8.
  - intros o. destruct (to_object io2 n2 w1 (ser_o w o)) as (o' & w2 & E & H1 & H2 & H3 & H4 & H5 & H6 & H7 & H8 & H9).
    exists (ser_o w o), o', w2. split; [apply from_object|]. split; [done|]. split; [|done].
    unfold same_object. rewrite H1, H2, H3, H4, H5. do 5 (split; [done|]). cbn [ser_o so_resource] in H9.
    destruct (o_res o) as [r|]; cbn [fmap option_fmap option_map] in H9.
    + destruct H9 as (r' & -> & _ & R1 & R2 & R3 & R4 & R5 & R6 & R7 & R8 & _).
      unfold same_resource. by rewrite R1, R2, R3, R4, R5, R6, R7, R8.
    + by destruct H9 as [-> _].
  - intros l. destruct (to_link io2 n2 w1 (ser_l w l)) as (l' & w2 & E & H1 & H2 & H3 & H4 & H5 & H6 & H7 & H8 & H9).
    exists (ser_l w l), l', w2. split; [apply from_link|]. split; [done|]. split; [|done].
    unfold same_link. by rewrite H1, H2, H3, H4.
Qed.
Print Assumptions c42_from_to.
(** C42.  Serialisable form to space and back; nil attributes come back empty. *)
Theorem c42_to_from :
  forall io n io2 n2 w,
  (forall s, exists e w2 s', entity_to_space io n w s = (e, w2) /\
     entity_from_space (entity_iface io2 n2 w2 e) = Ok s' /\ same_ser_entity s s' /\ se_attrs s' <> None) /\
  (forall s, exists r w2 s', resource_to_space io n w s = (r, w2) /\
     resource_from_space (resource_iface io2 n2 w2 r) = Ok s' /\ same_ser_resource s s' /\ se_attrs (sr_ent s') <> None) /\
  (forall s, exists o w2 s', object_to_space io n w s = (o, w2) /\
     object_from_space (object_iface io2 n2 w2 o) = Ok s' /\ same_ser_object s s' /\ se_attrs (so_ent s') <> None) /\
  (forall s, exists l w2 s', link_to_space io n w s = (l, w2) /\
     link_from_space (link_iface io2 n2 w2 l) = Ok s' /\ same_ser_link s s' /\ sl_attrs s' <> None).
Proof.
  intros io n io2 n2 w. split; [|split; [|split]]; intros s.
  - destruct (to_entity io n w s) as (e & w2 & E & H1 & H2 & H3 & _). eexists _, _, _. split; [done|].
    rewrite from_entity. split; [done|]. split; [|done]. unfold same_ser_entity. simpl. by rewrite H1, H2, H3.
  - destruct (to_resource io n w s) as (r & w2 & E & H1 & H2 & H3 & H4 & H5 & H6 & H7 & H8 & _). eexists _, _, _. split; [done|].
    rewrite from_resource. split; [done|]. split; [|done]. unfold same_ser_resource, same_ser_entity. simpl. by rewrite H1, H2, H3, H4, H5, H6, H7, H8.
  - destruct (to_object io n w s) as (o & w2 & E & H1 & H2 & H3 & H4 & H5 & _ & _ & _ & H9). eexists _, _, _. split; [done|].
    rewrite from_object. split; [done|]. split; [|done]. unfold same_ser_object, same_ser_entity. simpl. rewrite H1, H2, H3, H4, H5.
    do 3 (split; [done|]). destruct (so_resource s) as [t|].
    + destruct H9 as (r' & -> & _ & R1 & R2 & R3 & R4 & R5 & R6 & R7 & R8 & _). simpl.
      unfold same_ser_resource, same_ser_entity. simpl. by rewrite R1, R2, R3, R4, R5, R6, R7, R8.
    + by destruct H9 as [-> _].
  - destruct (to_link io n w s) as (l & w2 & E & H1 & H2 & H3 & H4 & _). eexists _, _, _. split; [done|].
    rewrite from_link. split; [done|]. split; [|done]. unfold same_ser_link. simpl. by rewrite H1, H2, H3, H4.
Qed.
Print Assumptions c42_to_from.
(** C42.  With attributes of any implementation the conversion succeeds exactly
    when they can be read, and returns their error otherwise. *)
Theorem c42_errors :
  forall u t a,
  (forall m, to_map (Some a) = Ok m -> entity_from_space (EntityI (Some u) t (Some a)) = Ok (SerEntity (uid_string u) t (Some m))) /\
  (forall err, to_map (Some a) = Err err ->
     entity_from_space (EntityI (Some u) t (Some a)) = Err err /\
     (forall nm g v k b, resource_from_space (ResourceI (EntityI (Some u) t (Some a)) nm g v k b) = Err err) /\
     (forall nm ns r, object_from_space (ObjectI (EntityI (Some u) t (Some a)) nm ns r) = Err err) /\
     (forall u2 t2 m nm ns nm' g v k b, to_map (Some m) = Ok ∅ ->
        object_from_space (ObjectI (EntityI (Some u2) t2 (Some m)) nm ns
          (Some (ResourceI (EntityI (Some u) t (Some a)) nm' g v k b))) = Err err) /\
     (forall f to, link_from_space (LinkI (Some u) f to (Some a)) = Err err)).
Proof.
  intros u t a. split.
  - intros m H. unfold entity_from_space, ei_attrs. by rewrite H.
  - intros err H. assert (He : entity_from_space (EntityI (Some u) t (Some a)) = Err err) by (unfold entity_from_space, ei_attrs; by rewrite H).
    split; [done|]. split; [intros; unfold resource_from_space, ri_ent; by rewrite He|].
    split; [intros; unfold object_from_space, oi_ent; by rewrite He|]. split.
    + intros u2 t2 m nm ns nm' g v k b Hm. unfold object_from_space, oi_ent, oi_resource.
      unfold entity_from_space at 1. unfold ei_attrs at 1. rewrite Hm. cbn [rbind uid_text ei_uid].
      unfold resource_from_space, ri_ent. by rewrite He.
    + intros. unfold link_from_space, li_attrs. by rewrite H.
Qed.
Print Assumptions c42_errors.

(** values for the examples: a resource, an object with it, a link *)
Definition ex_w : world := World {[1%N := {["a" := "1"; "b" := "<x>"]}; 2%N := ∅]} 5 (fun _ => "u")%string 0.
Definition ex_r : resource := Resource (UPtr 3%N "r-1") "res" "pods" "g" "v1" "Pod" true "custom" 1%N.
Definition ex_o : object := Object (UVal "o-1") "obj" "web" "default" (Some ex_r) "dot" 2%N.
Definition ex_e : entity := Entity (UVal "e-1") "ent" "mine" 1%N.
Definition ex_l : link := Link (UPtr 4%N "l-1") (UVal "o-1") (UVal "e-1") 1%N.
Example c42_example :
  let '(o, w2) := object_to_space iter_rev [] ex_w (ser_o ex_w ex_o) in
  object_from_space (object_iface iter_id [] ex_w ex_o) = Ok (ser_o ex_w ex_o) /\
  (uid_string (o_uid o), o_name o, o_ns o, r_namespaced <$> o_res o) = ("o-1", "web", "default", Some true)%string /\
  ((fun r => attrs_map w2 (r_attrs r) !! "b"%string) <$> o_res o) = Some (Some "<x>"%string).
Proof. split; [apply from_object|]. split; by vm_compute. Qed.

(** C43.  Unmarshal(Marshal(x)) for valid UTF-8. *)
Theorem c43_json_roundtrip :
  forall io n io' n' io2 n2 w w1,
  (forall e, valid_entity w e -> exists b e' w2, marshal io n (dyn_of_entity (entity_iface io' n' w e)) = Ok b /\
     unmarshal io2 n2 w1 b TEntity = Ok (VEntity e', w2) /\ same_entity w e w2 e' /\
     new_uid w1 w2 (e_uid e') /\ new_ref w1 w2 (e_attrs e') /\ world_grown w1 w2) /\
  (forall r, valid_resource w r -> exists b r' w2, marshal io n (dyn_of_resource (resource_iface io' n' w r)) = Ok b /\
     unmarshal io2 n2 w1 b TResource = Ok (VResource r', w2) /\ same_resource w r w2 r' /\
     new_uid w1 w2 (r_uid r') /\ new_ref w1 w2 (r_attrs r') /\ world_grown w1 w2) /\
  (forall o, valid_object w o -> exists b o' w2, marshal io n (dyn_of_object (object_iface io' n' w o)) = Ok b /\
     unmarshal io2 n2 w1 b TObject = Ok (VObject o', w2) /\ same_object w o w2 o' /\
     new_uid w1 w2 (o_uid o') /\ new_ref w1 w2 (o_attrs o') /\ world_grown w1 w2) /\
  (forall l, valid_link w l -> exists b l' w2, marshal io n (dyn_of_link (link_iface io' n' w l)) = Ok b /\
     unmarshal io2 n2 w1 b TLink = Ok (VLink l', w2) /\ same_link w l w2 l' /\
     new_uid w1 w2 (l_uid l') /\ new_uid w1 w2 (l_from l') /\ new_uid w1 w2 (l_to l') /\
     new_ref w1 w2 (l_attrs l') /\ world_grown w1 w2).
Proof.
  intros io n io' n' io2 n2 w w1. split; [|split; [|split]].
  - intros e V. destruct (roundtrip_entity io n io' n' io2 n2 w e w1) as (b & e' & w2 & H1 & H2 & H3 & H4 & H5 & H6 & _).
    exists b, e', w2. split; [done|]. split; [done|]. split; [by apply clean_same_entity|done].
  - intros e V. destruct (roundtrip_resource io n io' n' io2 n2 w e w1) as (b & e' & w2 & H1 & H2 & H3 & H4 & H5 & H6 & _).
    exists b, e', w2. split; [done|]. split; [done|]. split; [by apply clean_same_resource|done].
  - intros e V. destruct (roundtrip_object io n io' n' io2 n2 w e w1) as (b & e' & w2 & H1 & H2 & H3 & H4 & H5 & H6 & _).
    exists b, e', w2. split; [done|]. split; [done|]. split; [by apply clean_same_object|done].
  - intros e V. destruct (roundtrip_link io n io' n' io2 n2 w e w1) as (b & e' & w2 & H1 & H2 & H3 & H4 & H5 & H6 & H7 & H8).
    exists b, e', w2. split; [done|]. split; [done|]. split; [by apply clean_same_link|done].
Qed.
Print Assumptions c43_json_roundtrip.
Example c43_example_text :
  marshal iter_rev [] (dyn_of_object (object_iface iter_id [] ex_w ex_o)) = Ok
  "{""uid"":""o-1"",""type"":""obj"",""name"":""web"",""namespace"":""default"",""resource"":{""uid"":""r-1"",""type"":""res"",""attrs"":{""a"":""1"",""b"":""\u003cx\u003e""},""name"":""pods"",""group"":""g"",""version"":""v1"",""kind"":""Pod"",""namespaced"":true}}"%string.
Proof. by vm_compute. Qed.
Lemma ascii_valid s : forallb (fun b => N.ltb b 128) (bytes_of s) = true -> valid_text s.
Proof.
  intros H. exists (bytes_of s). assert (HF : Forall (fun b => N.lt b 128) (bytes_of s)).
  { apply Forall_forall. intros b Hb. apply elem_of_list_In in Hb. rewrite forallb_forall in H. apply N.ltb_lt. by apply H. }
  split; [apply (Forall_impl _ _ _ HF); intros b Hb; cbv beta in Hb; left; lia|].
  induction HF as [|b l Hb _ IH]; [done|]. rewrite fmap_cons. cbn [concat]. rewrite <- IH. 2:{ simpl in H. by apply andb_true_iff in H as [_ H]. }
  unfold utf8. by rewrite (proj2 (N.ltb_lt b 128) Hb).
Qed.
Lemma ex_no_attrs : valid_map (attrs_map ex_w 2%N).
Proof. intros k v Hk. change ((∅ : amap) !! k = Some v) in Hk. by rewrite lookup_empty in Hk. Qed.
Example c43_example_valid : valid_object ex_w ex_o.
Proof.
  assert (Hm : valid_map (attrs_map ex_w 1%N)).
  { change (attrs_map ex_w 1%N) with ({["a" := "1"; "b" := "<x>"]} : amap). apply map_Forall_insert_2; [split; by apply ascii_valid|].
    apply map_Forall_singleton. split; by apply ascii_valid. }
  split; [by apply ascii_valid|]. split; [by apply ascii_valid|]. split; [apply ex_no_attrs|].
  split; [by apply ascii_valid|]. split; [by apply ascii_valid|]. intros r Hr. injection Hr as <-.
  split; [by apply ascii_valid|]. split; [by apply ascii_valid|]. split; [apply Hm|].
  do 3 (split; [by apply ascii_valid|]). by apply ascii_valid.
Qed.

(** C45.  The full claim. *)
Definition c45_claim : Prop :=
  forall io n io' n' io2 n2 w w1 e, valid_entity w e -> exists b e' w2,
    marshal io n (dyn_of_entity (entity_iface io' n' w e)) = Ok b /\
    unmarshal io2 n2 w1 b TEntity = Ok (VEntity e', w2) /\ e_dotid e' = e_dotid e.
Theorem c45_dotid_survives_refuted : ~ c45_claim.
Proof.
  intros H. destruct (H iter_id [] iter_id [] iter_id [] ex_w ex_w (Entity (UVal "e") "t" "mine" 2%N)) as (b & e' & w2 & H1 & H2 & H3).
  { split; [by apply ascii_valid|]. split; [by apply ascii_valid|]. apply ex_no_attrs. }
  vm_compute in H1. injection H1 as <-. vm_compute in H2. injection H2 as <- <-. done.
Qed.
Print Assumptions c45_dotid_survives_refuted.
(** C45.  What the DOT id becomes: the default of the constructors. *)
Theorem c45_dotid_becomes_default_partial :
  forall io n io' n' io2 n2 w w1,
  (forall e, valid_entity w e -> exists b e' w2, marshal io n (dyn_of_entity (entity_iface io' n' w e)) = Ok b /\
     unmarshal io2 n2 w1 b TEntity = Ok (VEntity e', w2) /\ e_dotid e' = uid_string (e_uid e) /\
     (e_dotid e' = e_dotid e <-> e_dotid e = uid_string (e_uid e))) /\
  (forall r, valid_resource w r -> exists b r' w2, marshal io n (dyn_of_resource (resource_iface io' n' w r)) = Ok b /\
     unmarshal io2 n2 w1 b TResource = Ok (VResource r', w2) /\
     r_dotid r' = (r_group r ++ "/" ++ r_version r ++ "/" ++ r_kind r)%string) /\
  (forall o, valid_object w o -> exists b o' w2, marshal io n (dyn_of_object (object_iface io' n' w o)) = Ok b /\
     unmarshal io2 n2 w1 b TObject = Ok (VObject o', w2) /\
     match o_res o with
     | None => o_dotid o' = uid_string (o_uid o) /\ o_res o' = None
     | Some r => o_dotid o' = (r_group r ++ "/" ++ r_version r ++ "/" ++ r_kind r ++ "/" ++ o_ns o ++ "/" ++ o_name o)%string /\
         (r_dotid <$> o_res o') = Some (r_group r ++ "/" ++ r_version r ++ "/" ++ r_kind r)%string
     end).
Proof.
  intros io n io' n' io2 n2 w w1. split; [|split].
  - intros e V. destruct (roundtrip_entity io n io' n' io2 n2 w e w1) as (b & e' & w2 & H1 & H2 & H3 & _ & _ & _ & H7).
    exists b, e', w2. split; [done|]. split; [done|]. destruct (clean_same_entity _ _ _ _ V H3) as (E & _).
    rewrite H7, <- E. split; [done|]. split; congruence.
  - intros r V. destruct (roundtrip_resource io n io' n' io2 n2 w r w1) as (b & e' & w2 & H1 & H2 & H3 & _ & _ & _ & H7).
    exists b, e', w2. split; [done|]. split; [done|].
    destruct (clean_same_resource _ _ _ _ V H3) as (_ & _ & _ & _ & E1 & E2 & E3 & _). rewrite H7, <- E1, <- E2, <- E3. done.
  - intros o V. destruct (roundtrip_object io n io' n' io2 n2 w o w1) as (b & e' & w2 & H1 & H2 & H3 & _ & _ & _ & H7).
    exists b, e', w2. split; [done|]. split; [done|].
    destruct (clean_same_object _ _ _ _ V H3) as (E0 & _ & _ & E4 & E5 & E6).
    destruct (o_res o) as [r|], (o_res e') as [r'|]; try done.
    + destruct E6 as (_ & _ & _ & _ & E1 & E2 & E3 & _). destruct H7 as (H7 & H8 & _).
      rewrite H7. simpl. rewrite H8, <- E1, <- E2, <- E3, <- E4, <- E5. done.
    + by rewrite H7, E0.
Qed.
Print Assumptions c45_dotid_becomes_default_partial.

(** C76.  The text does not depend on the iteration order of maps. *)
Theorem c76_marshal_deterministic :
  forall io n io2 n2 x, marshal io n x = marshal io2 n2 x.
Proof.
  intros io n io2 n2 x. unfold marshal.
  destruct (as_resource x) as [r|]; [destruct (resource_from_space r); cbn [rbind]; [|done..]; by rewrite !resource_members_eq|].
  destruct (as_object x) as [r|]; [destruct (object_from_space r); cbn [rbind]; [|done..]; by rewrite !object_members_eq|].
  destruct (as_entity x) as [r|]; [destruct (entity_from_space r); cbn [rbind]; [|done..]; by rewrite !entity_members_eq|].
  destruct (as_link x) as [r|]; [destruct (link_from_space r); cbn [rbind]; [|done..]; by rewrite !link_members_eq|].
  done.
Qed.
Print Assumptions c76_marshal_deterministic.
(** C76.  Values with the same text have the same content. *)
Theorem c76_marshal_injective :
  forall io n io' n' io2 n2 w w',
  (forall e e', valid_entity w e -> valid_entity w' e' ->
     marshal io n (dyn_of_entity (entity_iface io' n' w e)) = marshal io2 n2 (dyn_of_entity (entity_iface io' n' w' e')) ->
     same_entity w e w' e') /\
  (forall e e', valid_resource w e -> valid_resource w' e' ->
     marshal io n (dyn_of_resource (resource_iface io' n' w e)) = marshal io2 n2 (dyn_of_resource (resource_iface io' n' w' e')) ->
     same_resource w e w' e') /\
  (forall e e', valid_object w e -> valid_object w' e' ->
     marshal io n (dyn_of_object (object_iface io' n' w e)) = marshal io2 n2 (dyn_of_object (object_iface io' n' w' e')) ->
     same_object w e w' e') /\
  (forall e e', valid_link w e -> valid_link w' e' ->
     marshal io n (dyn_of_link (link_iface io' n' w e)) = marshal io2 n2 (dyn_of_link (link_iface io' n' w' e')) ->
     same_link w e w' e').
Proof.
  intros io n io' n' io2 n2 w w'.
  split; [|split; [|split]]; intros e e' V V' HE.
  - destruct (roundtrip_entity io n io' n' io2 n2 w e w) as (b & f & w2 & H1 & H2 & H3 & _).
    destruct (roundtrip_entity io2 n2 io' n' io2 n2 w' e' w) as (b' & f' & w2' & H1' & H2' & H3' & _).
    rewrite HE, H1' in H1. injection H1 as <-. rewrite H2' in H2. injection H2 as <- <-.
    apply clean_same_entity in H3 as (A1 & A2 & A3); [|done]. apply clean_same_entity in H3' as (B1 & B2 & B3); [|done].
    unfold same_entity. by rewrite A1, A2, A3, B1, B2, B3.
  - destruct (roundtrip_resource io n io' n' io2 n2 w e w) as (b & f & w2 & H1 & H2 & H3 & _).
    destruct (roundtrip_resource io2 n2 io' n' io2 n2 w' e' w) as (b' & f' & w2' & H1' & H2' & H3' & _).
    rewrite HE, H1' in H1. injection H1 as <-. rewrite H2' in H2. injection H2 as <- <-.
    apply clean_same_resource in H3 as (A1 & A2 & A3 & A4 & A5 & A6 & A7 & A8); [|done].
    apply clean_same_resource in H3' as (B1 & B2 & B3 & B4 & B5 & B6 & B7 & B8); [|done].
    unfold same_resource. by rewrite A1, A2, A3, A4, A5, A6, A7, A8, B1, B2, B3, B4, B5, B6, B7, B8.
  - destruct (roundtrip_object io n io' n' io2 n2 w e w) as (b & f & w2 & H1 & H2 & H3 & _).
    destruct (roundtrip_object io2 n2 io' n' io2 n2 w' e' w) as (b' & f' & w2' & H1' & H2' & H3' & _).
    rewrite HE, H1' in H1. injection H1 as <-. rewrite H2' in H2. injection H2 as <- <-.
    apply clean_same_object in H3 as (A1 & A2 & A3 & A4 & A5 & A6); [|done].
    apply clean_same_object in H3' as (B1 & B2 & B3 & B4 & B5 & B6); [|done].
    unfold same_object. rewrite A1, A2, A3, A4, A5, B1, B2, B3, B4, B5. do 5 (split; [done|]).
    destruct (o_res e) as [r|], (o_res f') as [r2|], (o_res e') as [r3|]; try done.
    destruct A6 as (C1 & C2 & C3 & C4 & C5 & C6 & C7 & C8). destruct B6 as (D1 & D2 & D3 & D4 & D5 & D6 & D7 & D8).
    unfold same_resource. by rewrite C1, C2, C3, C4, C5, C6, C7, C8, D1, D2, D3, D4, D5, D6, D7, D8.
  - destruct (roundtrip_link io n io' n' io2 n2 w e w) as (b & f & w2 & H1 & H2 & H3 & _).
    destruct (roundtrip_link io2 n2 io' n' io2 n2 w' e' w) as (b' & f' & w2' & H1' & H2' & H3' & _).
    rewrite HE, H1' in H1. injection H1 as <-. rewrite H2' in H2. injection H2 as <- <-.
    apply clean_same_link in H3 as (A1 & A2 & A3 & A4); [|done]. apply clean_same_link in H3' as (B1 & B2 & B3 & B4); [|done].
    unfold same_link. by rewrite A1, A2, A3, A4, B1, B2, B3, B4.
Qed.
Print Assumptions c76_marshal_injective.
Example c76_example :
  marshal iter_id [] (dyn_of_resource (resource_iface iter_rev [] ex_w ex_r)) =
  marshal iter_rev [3] (dyn_of_resource (resource_iface iter_id [] ex_w ex_r)) /\
  map_range iter_id [] (attrs_map ex_w 1%N) <> map_range iter_rev [] (attrs_map ex_w 1%N).
Proof. split; [by vm_compute|]. vm_compute. congruence. Qed.

(** C77.  Lossless for all strings: the full claim, false for invalid UTF-8. *)
Definition c77_claim : Prop :=
  forall io n io' n' io2 n2 w w1 e, exists b e' w2,
    marshal io n (dyn_of_entity (entity_iface io' n' w e)) = Ok b /\
    unmarshal io2 n2 w1 b TEntity = Ok (VEntity e', w2) /\ same_entity w e w2 e'.
Definition bad (n : N) : string := String (ascii_of_N n) "".
Theorem c77_lossless_refuted : ~ c77_claim.
Proof.
  intros H. destruct (H iter_id [] iter_id [] iter_id [] ex_w ex_w (Entity (UVal "e") (bad 255) "" 2%N)) as (b & e' & w2 & H1 & H2 & H3).
  vm_compute in H1. injection H1 as <-. vm_compute in H2. injection H2 as <- <-. destruct H3 as (_ & H3 & _). done.
Qed.
Print Assumptions c77_lossless_refuted.
(** C77.  For all strings the value read is the given one with every byte outside
    a valid character replaced by U+FFFD; of the keys that become equal the
    greatest one gives the value. *)
Theorem c77_exact_loss_partial :
  forall io n io' n' io2 n2 w w1,
  (forall e, exists b e' w2, marshal io n (dyn_of_entity (entity_iface io' n' w e)) = Ok b /\
     unmarshal io2 n2 w1 b TEntity = Ok (VEntity e', w2) /\ clean_entity w e w2 e') /\
  (forall r, exists b r' w2, marshal io n (dyn_of_resource (resource_iface io' n' w r)) = Ok b /\
     unmarshal io2 n2 w1 b TResource = Ok (VResource r', w2) /\ clean_resource w r w2 r') /\
  (forall o, exists b o' w2, marshal io n (dyn_of_object (object_iface io' n' w o)) = Ok b /\
     unmarshal io2 n2 w1 b TObject = Ok (VObject o', w2) /\ clean_object w o w2 o') /\
  (forall l, exists b l' w2, marshal io n (dyn_of_link (link_iface io' n' w l)) = Ok b /\
     unmarshal io2 n2 w1 b TLink = Ok (VLink l', w2) /\ clean_link w l w2 l').
Proof.
  intros io n io' n' io2 n2 w w1. split; [|split; [|split]]; intros x.
  - destruct (roundtrip_entity io n io' n' io2 n2 w x w1) as (b & e' & w2 & H1 & H2 & H3 & _). by exists b, e', w2.
  - destruct (roundtrip_resource io n io' n' io2 n2 w x w1) as (b & e' & w2 & H1 & H2 & H3 & _). by exists b, e', w2.
  - destruct (roundtrip_object io n io' n' io2 n2 w x w1) as (b & e' & w2 & H1 & H2 & H3 & _). by exists b, e', w2.
  - destruct (roundtrip_link io n io' n' io2 n2 w x w1) as (b & e' & w2 & H1 & H2 & H3 & _). by exists b, e', w2.
Qed.
Print Assumptions c77_exact_loss_partial.
(** the relation is a function, and leaves exactly the valid texts alone *)
Theorem c77_cleaned_functional :
  (forall s, exists t, text_cleaned s t) /\ (forall s t t', text_cleaned s t -> text_cleaned s t' -> t = t') /\
  (forall s, text_cleaned s s <-> valid_text s).
Proof.
  split; [intros s; exists (ctext s); apply text_cleaned_ctext|].
  split; [intros s t t'; rewrite !text_cleaned_iff; congruence|].
  intros s. split; [|intros H; apply text_cleaned_iff; by apply ctext_valid].
  intros H. assert (G : forall l l', cleaned l l' -> l' = cln l /\ exists rs, Forall scalar rs /\ l' = concat (utf8 <$> rs)).
  { clear. intros l l' H. split; [by apply cleaned_iff|]. induction H as [|r l l' Hr _ (rs & HF & ->)|b l l' _ _ (rs & HF & ->)].
    - by exists []. - exists (r :: rs). split; [by constructor|done].
    - exists (65533%N :: rs). split; [|done]. constructor; [right; lia|done]. }
  destruct (G _ _ H) as [_ (rs & HF & E)]. by exists rs.
Qed.
Print Assumptions c77_cleaned_functional.
(** two keys that become one *)
Example c77_example :
  let w := World {[1%N := {[bad 200 := "x"%string; bad 201 := "y"%string]}]} 5 (fun _ => "u")%string 0 in
  match marshal iter_id [] (dyn_of_entity (entity_iface iter_id [] w (Entity (UVal "e") "t" "" 1%N))) with
  | Ok b =>
      match unmarshal iter_id [] w b TEntity with
      | Ok (VEntity e', w2) => (size (attrs_map w2 (e_attrs e')), (map_to_list (attrs_map w2 (e_attrs e'))).*2) = (1, ["y"%string])
      | _ => False
      end
  | _ => False
  end.
Proof. by vm_compute. Qed.
