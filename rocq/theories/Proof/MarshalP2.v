(** Serialisable structs through JSON. *)
From Verif.Model Require Import Marshal.
From Verif.Spec Require Import MarshalSpec.
From Verif.Proof Require Import AttrsP JsonP JsonP2 MarshalP.

Definition good (m : list (bytes * json)) : Prop :=
  Forall (fun kv => no_num kv.2) m /\ Forall (fun kv => Forall byte kv.1 /\ jbytes kv.2) m.
Lemma good_nil : good [].
Proof. by split. Qed.
Lemma good_cons k j m : Forall byte k -> no_num j -> jbytes j -> good m -> good ((k, j) :: m).
Proof. intros H1 H2 H3 [H4 H5]. split; by constructor. Qed.
Lemma good_app m1 m2 : good m1 -> good m2 -> good (m1 ++ m2).
Proof. intros [H1 H2] [H3 H4]. split; by apply Forall_app. Qed.
Lemma good_str k s m : good m -> good (field_str k s :: m).
Proof. intros H. apply good_cons; [apply to_bytes_byte|done|apply to_bytes_byte|done]. Qed.
Lemma good_map m : no_num (map_json m) /\ jbytes (map_json m).
Proof.
  unfold map_json. split.
  - apply no_num_obj. apply Forall_fmap, Forall_true. done.
  - apply jbytes_obj. apply Forall_fmap, Forall_true. intros kv. split; apply to_bytes_byte.
Qed.
Lemma good_attrs a : good (attrs_member a).
Proof.
  unfold attrs_member. case_bool_decide; [apply good_nil|]. destruct (good_map (default ∅ a)).
  apply good_cons; [apply to_bytes_byte|done..|apply good_nil].
Qed.
Lemma unmarshal_members {S} (fs : fields S) m z :
  good m -> json_unmarshal fs (json_marshal m) z =
    match set_fields fs (clean_members m) z with Some s => Ok s | None => Err ESyntax end.
Proof.
  intros [H1 H2]. unfold json_unmarshal, json_marshal. rewrite parse_marshalled; [|by apply no_num_obj|by apply jbytes_obj].
  by rewrite clean_obj.
Qed.
Lemma set_fields_app {S} (fs : fields S) l1 l2 s :
  set_fields fs (l1 ++ l2) s = match set_fields fs l1 s with Some s => set_fields fs l2 s | None => None end.
Proof.
  revert s. induction l1 as [|[k v] l1 IH]; intros s; [done|]. cbn [app set_fields].
  destruct (find_field fs k) as [f|]; [|apply IH]. destruct (f v s); [apply IH|done].
Qed.
Lemma set_fields_cons {S} (fs : fields S) k v l s f :
  find_field fs k = Some f -> set_fields fs ((k, v) :: l) s = match f v s with Some s => set_fields fs l s | None => None end.
Proof. intros H. cbn [set_fields]. by rewrite H. Qed.
Lemma set_fields_skip {S} (fs : fields S) k v l s :
  find_field fs k = None -> set_fields fs ((k, v) :: l) s = set_fields fs l s.
Proof. intros H. cbn [set_fields]. by rewrite H. Qed.
Lemma clean_cons k v l : clean_members ((k, v) :: l) = (cln k, clean_json v) :: clean_members l.
Proof. done. Qed.
Lemma clean_app l1 l2 : clean_members (l1 ++ l2) = clean_members l1 ++ clean_members l2.
Proof. unfold clean_members. apply fmap_app. Qed.
Lemma clean_str k s l : cln (to_bytes k) = to_bytes k ->
  clean_members (field_str k s :: l) = (to_bytes k, cjson s) :: clean_members l.
Proof. intros H. unfold field_str. rewrite clean_cons, H. done. Qed.
Lemma clean_attrs a : clean_members (attrs_member a) =
  if bool_decide (default ∅ a = (∅ : amap)) then [] else [(to_bytes "attrs", clean_json (map_json (default ∅ a)))].
Proof. unfold attrs_member. by case_bool_decide. Qed.

(** ** The structs with clean texts *)
Definition cser_entity (e : ser_entity) : ser_entity :=
  SerEntity (ctext (se_uid e)) (ctext (se_type e)) (clean_map (se_attrs e)).
Definition cser_resource (r : ser_resource) : ser_resource :=
  SerResource (cser_entity (sr_ent r)) (ctext (sr_name r)) (ctext (sr_group r)) (ctext (sr_version r)) (ctext (sr_kind r))
    (sr_namespaced r).
Definition cser_object (o : ser_object) : ser_object :=
  SerObject (cser_entity (so_ent o)) (ctext (so_name o)) (ctext (so_namespace o)) (cser_resource <$> so_resource o).
Definition cser_link (l : ser_link) : ser_link :=
  SerLink (ctext (sl_uid l)) (ctext (sl_from l)) (ctext (sl_to l)) (clean_map (sl_attrs l)).

(** members with the attributes in key order *)
Definition emembers (e : ser_entity) : list (bytes * json) :=
  [field_str "uid" (se_uid e); field_str "type" (se_type e)] ++ attrs_member (se_attrs e).
Definition rmembers (r : ser_resource) : list (bytes * json) :=
  emembers (sr_ent r) ++
  [field_str "name" (sr_name r); field_str "group" (sr_group r); field_str "version" (sr_version r);
   field_str "kind" (sr_kind r); (to_bytes "namespaced", JBool (sr_namespaced r))].
Definition omembers (o : ser_object) : list (bytes * json) :=
  emembers (so_ent o) ++ [field_str "name" (so_name o); field_str "namespace" (so_namespace o)] ++
  match so_resource o with Some r => [(to_bytes "resource", JObj (rmembers r))] | None => [] end.
Definition lmembers (l : ser_link) : list (bytes * json) :=
  [field_str "uid" (sl_uid l); field_str "from" (sl_from l); field_str "to" (sl_to l)] ++ attrs_member (sl_attrs l).
Lemma entity_members_eq io n e : entity_members io n e = emembers e.
Proof. unfold entity_members. by rewrite field_attrs_eq. Qed.
Lemma resource_members_eq io n r : resource_members io n r = rmembers r.
Proof. unfold resource_members. by rewrite entity_members_eq. Qed.
Lemma object_members_eq io n o : object_members io n o = omembers o.
Proof. unfold object_members. rewrite entity_members_eq. destruct (so_resource o) eqn:E; unfold omembers; rewrite E; [|done]. by rewrite resource_members_eq. Qed.
Lemma link_members_eq io n l : link_members io n l = lmembers l.
Proof. unfold link_members. by rewrite field_attrs_eq. Qed.
Lemma good_e e : good (emembers e).
Proof. apply good_app; [apply good_str, good_str, good_nil|apply good_attrs]. Qed.
Lemma good_r r : good (rmembers r).
Proof.
  apply good_app; [apply good_e|]. do 4 apply good_str. apply good_cons; [apply to_bytes_byte|done|done|apply good_nil].
Qed.
Lemma good_o o : good (omembers o).
Proof.
  apply good_app; [apply good_e|]. apply good_app; [apply good_str, good_str, good_nil|].
  destruct (so_resource o) as [r|]; [|apply good_nil]. destruct (good_r r). apply good_cons; [apply to_bytes_byte| | |apply good_nil].
  - by apply no_num_obj. - by apply jbytes_obj.
Qed.
Lemma good_l l : good (lmembers l).
Proof. apply good_app; [do 3 apply good_str; apply good_nil|apply good_attrs]. Qed.

(** reading the members of an entity into the entity part of a struct *)
Lemma set_entity_part {S} (fs : fields S) (get : S -> ser_entity) (set : S -> ser_entity -> S) f1 f2 f3 e s rest :
  find_field fs (to_bytes "uid") = Some f1 -> find_field fs (to_bytes "type") = Some f2 ->
  find_field fs (to_bytes "attrs") = Some f3 ->
  (forall v s, f1 v s = (fun u => set s (SerEntity u (se_type (get s)) (se_attrs (get s)))) <$> decode_string v (se_uid (get s))) ->
  (forall v s, f2 v s = (fun u => set s (SerEntity (se_uid (get s)) u (se_attrs (get s)))) <$> decode_string v (se_type (get s))) ->
  (forall v s, f3 v s = (fun u => set s (SerEntity (se_uid (get s)) (se_type (get s)) u)) <$> decode_map v (se_attrs (get s))) ->
  (forall s e, get (set s e) = e) -> (forall s e e', set (set s e) e' = set s e') ->
  get s = entity_zero ->
  set_fields fs (clean_members (emembers e) ++ rest) s = set_fields fs rest (set s (cser_entity e)).
Proof.
  intros F1 F2 F3 E1 E2 E3 G1 G2 Hz. rewrite set_fields_app. unfold emembers. rewrite clean_app, set_fields_app.
  rewrite !clean_str by done. rewrite (set_fields_cons _ _ _ _ _ _ F1). rewrite E1, decode_cjson. cbn [fmap option_fmap option_map].
  rewrite (set_fields_cons _ _ _ _ _ _ F2). rewrite E2, decode_cjson. cbn [fmap option_fmap option_map]. rewrite clean_attrs, G1, G2.
  cbn [clean_members fmap list_fmap set_fields]. unfold cser_entity, clean_map. rewrite Hz. cbn [se_attrs se_uid se_type entity_zero].
  case_bool_decide as E; [done|]. rewrite (set_fields_cons _ _ _ _ _ _ F3). rewrite E3, G1. cbn [se_attrs].
  rewrite decode_map_clean. cbn [fmap option_fmap option_map set_fields]. by rewrite G2.
Qed.
(** a promoted field *)
Ltac promoted := intros v s; simpl; match goal with |- context [decode_string ?v ?x] => by destruct (decode_string v x)
  | |- context [decode_map ?v ?x] => by destruct (decode_map v x) end.
Lemma json_entity io n e :
  json_unmarshal entity_fields (json_marshal (entity_members io n e)) entity_zero = Ok (cser_entity e).
Proof.
  rewrite entity_members_eq, unmarshal_members by apply good_e.
  pose proof (set_entity_part entity_fields (fun s => s) (fun _ e => e) _ _ _ e entity_zero [] eq_refl eq_refl eq_refl) as H.
  rewrite app_nil_r in H. rewrite H; done.
Qed.
Lemma json_link io n l :
  json_unmarshal link_fields (json_marshal (link_members io n l)) link_zero = Ok (cser_link l).
Proof.
  rewrite link_members_eq, unmarshal_members by apply good_l. unfold lmembers. rewrite clean_app, set_fields_app.
  rewrite !clean_str by done. change (set_fields link_fields _ link_zero) with
    (Some (SerLink (ctext (sl_uid l)) (ctext (sl_from l)) (ctext (sl_to l)) None)). cbn iota.
  rewrite clean_attrs. unfold cser_link, clean_map. case_bool_decide; [done|].
  remember (clean_json (map_json (default ∅ (sl_attrs l)))) as j eqn:Ej.
  match goal with |- context [set_fields link_fields ?m ?z] => change (set_fields link_fields m z) with
    (match (fun x => SerLink (ctext (sl_uid l)) (ctext (sl_from l)) (ctext (sl_to l)) x) <$> decode_map j None with
     Some s => Some s | None => None end) end. by rewrite Ej, decode_map_clean.
Qed.
Lemma set_resource r : set_fields resource_fields (clean_members (rmembers r)) resource_zero = Some (cser_resource r).
Proof.
  unfold rmembers. rewrite clean_app.
  rewrite (set_entity_part resource_fields sr_ent
    (fun r e => SerResource e (sr_name r) (sr_group r) (sr_version r) (sr_kind r) (sr_namespaced r)) _ _ _ _ _ _ eq_refl eq_refl eq_refl);
    try done; promoted.
Qed.
Lemma json_resource io n r :
  json_unmarshal resource_fields (json_marshal (resource_members io n r)) resource_zero = Ok (cser_resource r).
Proof. rewrite resource_members_eq, unmarshal_members by apply good_r. by rewrite set_resource. Qed.
Lemma json_object io n o :
  json_unmarshal object_fields (json_marshal (object_members io n o)) object_zero = Ok (cser_object o).
Proof.
  rewrite object_members_eq, unmarshal_members by apply good_o. unfold omembers. rewrite clean_app.
  rewrite (set_entity_part object_fields so_ent
    (fun o e => SerObject e (so_name o) (so_namespace o) (so_resource o)) _ _ _ _ _ _ eq_refl eq_refl eq_refl); try done; [|promoted..].
  rewrite clean_app, set_fields_app. rewrite !clean_str by done.
  cbn [so_name so_namespace so_resource object_zero].
  match goal with |- context [set_fields object_fields ((to_bytes "name", _) :: _) ?z] =>
    change (set_fields object_fields ((to_bytes "name", cjson (so_name o)) :: (to_bytes "namespace", cjson (so_namespace o)) :: clean_members []) z)
    with (Some (SerObject (cser_entity (so_ent o)) (ctext (so_name o)) (ctext (so_namespace o)) None)) end. cbn iota.
  unfold cser_object. destruct (so_resource o) as [r|]; [|done].
  rewrite clean_cons, clean_obj. change (cln (to_bytes "resource")) with (to_bytes "resource").
  remember (clean_members (rmembers r)) as m eqn:Em.
  match goal with |- context [set_fields object_fields ?m' ?z] => change (set_fields object_fields m' z) with
    (match (fun x => SerObject (cser_entity (so_ent o)) (ctext (so_name o)) (ctext (so_namespace o)) x) <$>
       decode_resource (JObj m) None with Some s => Some s | None => None end) end.
  unfold decode_resource, decode_struct. rewrite Em. simpl default. by rewrite set_resource.
Qed.
(** what is read from the text of an entity, resource or object as an entity *)
Lemma set_skip_all {S} (fs : fields S) l s : Forall (fun kv => find_field fs kv.1 = None) l -> set_fields fs l s = Some s.
Proof. induction 1 as [|[k v] l H _ IH]; [done|]. by rewrite set_fields_skip. Qed.
Lemma json_resource_as_entity io n r :
  json_unmarshal entity_fields (json_marshal (resource_members io n r)) entity_zero = Ok (cser_entity (sr_ent r)).
Proof.
  rewrite resource_members_eq, unmarshal_members by apply good_r. unfold rmembers. rewrite clean_app.
  rewrite (set_entity_part entity_fields (fun s => s) (fun _ e => e) _ _ _ _ _ _ eq_refl eq_refl eq_refl); try done.
Qed.
Lemma json_object_as_entity io n o :
  json_unmarshal entity_fields (json_marshal (object_members io n o)) entity_zero = Ok (cser_entity (so_ent o)).
Proof.
  rewrite object_members_eq, unmarshal_members by apply good_o. unfold omembers. rewrite clean_app.
  rewrite (set_entity_part entity_fields (fun s => s) (fun _ e => e) _ _ _ _ _ _ eq_refl eq_refl eq_refl); try done.
  rewrite set_skip_all; [done|]. rewrite clean_app. rewrite !clean_str by done. apply Forall_app.
  split; [by repeat constructor|]. destruct (so_resource o); by repeat constructor.
Qed.

(** ** To space *)
Lemma entity_to_space_eq io n w e :
  entity_to_space io n w e =
    let '(a, w') := attrs_alloc (uid_from_string w (se_uid e)).2 (default ∅ (se_attrs e)) in
    (Entity (UPtr (w_next w) (se_uid e)) (se_type e) (se_uid e) a, w').
Proof.
  unfold entity_to_space. unfold uid_from_string. cbv iota beta zeta. rewrite new_from_map_content. unfold attrs_alloc. unfold new_entity, apply_opts. simpl.
  done.
Qed.
Definition resource_dot (r : ser_resource) : string := String.concat "/" [sr_group r; sr_version r; sr_kind r].
Lemma resource_to_space_eq io n w r :
  resource_to_space io n w r =
    let '(a, w') := attrs_alloc (uid_from_string w (se_uid (sr_ent r))).2 (default ∅ (se_attrs (sr_ent r))) in
    (Resource (UPtr (w_next w) (se_uid (sr_ent r))) (se_type (sr_ent r)) (sr_name r) (sr_group r) (sr_version r) (sr_kind r)
       (sr_namespaced r) (resource_dot r) a, w').
Proof.
  unfold resource_to_space. unfold uid_from_string. cbv iota beta zeta. rewrite new_from_map_content. done.
Qed.
Lemma object_to_space_eq io n w o :
  object_to_space io n w o =
    let '(r, w1) := match so_resource o with
                    | Some r => let '(r, w1) := resource_to_space io (n ++ [0]) w r in (Some r, w1)
                    | None => (None, w) end in
    let '(a, w') := attrs_alloc (uid_from_string w1 (se_uid (so_ent o))).2 (default ∅ (se_attrs (so_ent o))) in
    (Object (UPtr (w_next w1) (se_uid (so_ent o))) (se_type (so_ent o)) (so_name o) (so_namespace o) r
       (match r with
        | None => se_uid (so_ent o)
        | Some r => String.concat "/" [r_group r; r_version r; r_kind r; so_namespace o; so_name o] end) a, w').
Proof.
  unfold object_to_space. destruct (so_resource o) as [r|].
  - destruct (resource_to_space _ _ _ r) as [r' w1]. unfold uid_from_string. cbv iota beta zeta. rewrite new_from_map_content. done.
  - unfold uid_from_string. cbv iota beta zeta. rewrite new_from_map_content. done.
Qed.
Lemma link_to_space_eq io n w l :
  link_to_space io n w l =
    let '(a, w1) := attrs_alloc (uid_from_string w (sl_uid l)).2 (default ∅ (sl_attrs l)) in
    (Link (UPtr (w_next w) (sl_uid l)) (UPtr (w_next w1) (sl_from l)) (UPtr (w_next w1 + 1) (sl_to l)) a,
     World (w_attrs w1) (w_next w1 + 2) (w_uuid w1) (w_cnt w1)).
Proof.
  unfold link_to_space. unfold uid_from_string. cbv iota beta zeta. rewrite new_from_map_content. simpl.
  unfold new_link, apply_opts. simpl. do 2 f_equal. lia.
Qed.
