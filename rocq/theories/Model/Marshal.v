(** pkg/space/marshal and pkg/space/marshal/json. *)
From Verif.Model Require Export Json Entity Gonum.

(** Entity, Resource, Object, Link; pkg/space/marshal/types.go:4-34.  A nil map is
    None, the embedded Entity is the first field.  LinkedObject and LinkedEntity
    (:37-46) are used nowhere. *)
Record ser_entity := SerEntity { se_uid : string; se_type : string; se_attrs : option amap }.
Record ser_resource := SerResource {
  sr_ent : ser_entity; sr_name : string; sr_group : string; sr_version : string;
  sr_kind : string; sr_namespaced : bool;
}.
Record ser_object := SerObject {
  so_ent : ser_entity; so_name : string; so_namespace : string; so_resource : option ser_resource;
}.
Record ser_link := SerLink { sl_uid : string; sl_from : string; sl_to : string; sl_attrs : option amap }.

(** ** To space *)
(** EntityToSpace, pkg/space/marshal/marshal.go:16-26 *)
Definition entity_to_space (io : iter_order) (n : site) (w : world) (e : ser_entity) : entity * world :=
  let '(uid, w) := uid_from_string w (se_uid e) in
  let '(a, w) := new_from_map io n w (default ∅ (se_attrs e)) in
  new_entity w (se_type e) [ent_with_uid (Some uid); ent_with_attrs (Some a)].
(** ResourceToSpace, marshal.go:29-39 *)
Definition resource_to_space (io : iter_order) (n : site) (w : world) (r : ser_resource) : resource * world :=
  let '(uid, w) := uid_from_string w (se_uid (sr_ent r)) in
  let '(a, w) := new_from_map io n w (default ∅ (se_attrs (sr_ent r))) in
  new_resource w (se_type (sr_ent r)) (sr_name r) (sr_group r) (sr_version r) (sr_kind r) (sr_namespaced r)
    [ent_with_uid (Some uid); ent_with_attrs (Some a)].
(** ObjectToSpace, marshal.go:42-63 *)
Definition object_to_space (io : iter_order) (n : site) (w : world) (o : ser_object) : object * world :=
  let '(r, w) :=
    match so_resource o with
    | Some r => let '(r, w) := resource_to_space io (n ++ [0]) w r in (Some r, w)
    | None => (None, w)
    end in
  let '(uid, w) := uid_from_string w (se_uid (so_ent o)) in
  let '(a, w) := new_from_map io (n ++ [1]) w (default ∅ (se_attrs (so_ent o))) in
  new_object w (se_type (so_ent o)) (so_name o) (so_namespace o) r
    [ent_with_uid (Some uid); ent_with_attrs (Some a)].
(** LinkToSpace, marshal.go:66-79 *)
Definition link_to_space (io : iter_order) (n : site) (w : world) (l : ser_link) : link * world :=
  let '(uid, w) := uid_from_string w (sl_uid l) in
  let '(a, w) := new_from_map io n w (default ∅ (sl_attrs l)) in
  let '(from, w) := uid_from_string w (sl_from l) in
  let '(to, w) := uid_from_string w (sl_to l) in
  new_link w from to [link_with_uid (Some uid); link_with_attrs (Some a)].

(** ** From space *)
(** space.Entity, Resource, Object, Link (pkg/space/space.go:9-54) as what their
    methods return, so that implementations outside the repository are covered; a
    nil interface is None. *)
Record entityI := EntityI { ei_uid : option UID; ei_type : string; ei_attrs : option attrsI }.
Record resourceI := ResourceI {
  ri_ent : entityI; ri_name : string; ri_group : string; ri_version : string; ri_kind : string; ri_namespaced : bool;
}.
Record objectI := ObjectI {
  oi_ent : entityI; oi_name : string; oi_namespace : string; oi_resource : option resourceI;
}.
Record linkI := LinkI { li_uid : option UID; li_from : option UID; li_to : option UID; li_attrs : option attrsI }.

(** x.String() on a uuid.UID interface *)
Definition uid_text (u : option UID) : res string :=
  match u with Some u => Ok (uid_string u) | None => Panic PNilDeref end.
(** EntityFromSpace, marshal.go:82-93, and the first half of the next two *)
Definition entity_from_space (e : entityI) : res ser_entity :=
  rbind (to_map (ei_attrs e)) (fun a =>
  rbind (uid_text (ei_uid e)) (fun u => Ok (SerEntity u (ei_type e) (Some a)))).
(** ResourceFromSpace, marshal.go:96-114 *)
Definition resource_from_space (r : resourceI) : res ser_resource :=
  rbind (entity_from_space (ri_ent r)) (fun e =>
  Ok (SerResource e (ri_name r) (ri_group r) (ri_version r) (ri_kind r) (ri_namespaced r))).
(** ObjectFromSpace, marshal.go:117-142 *)
Definition object_from_space (o : objectI) : res ser_object :=
  rbind (entity_from_space (oi_ent o)) (fun e =>
  match oi_resource o with
  | Some r => rbind (resource_from_space r) (fun r => Ok (SerObject e (oi_name o) (oi_namespace o) (Some r)))
  | None => Ok (SerObject e (oi_name o) (oi_namespace o) None)
  end).
(** LinkFromSpace, marshal.go:145-156 *)
Definition link_from_space (l : linkI) : res ser_link :=
  rbind (to_map (li_attrs l)) (fun a =>
  rbind (uid_text (li_uid l)) (fun u =>
  rbind (uid_text (li_from l)) (fun f =>
  rbind (uid_text (li_to l)) (fun t => Ok (SerLink u f t (Some a)))))).

(** The values of pkg/space/entity and pkg/space/link as interfaces: the getters
    entity.go:54-71, resource.go:65-107, object.go:67-99, link.go:45-62. *)
Definition entity_iface (io : iter_order) (n : site) (w : world) (e : entity) : entityI :=
  EntityI (Some (e_uid e)) (e_typ e) (Some (mem_iface io n w (e_attrs e))).
Definition resource_iface (io : iter_order) (n : site) (w : world) (r : resource) : resourceI :=
  ResourceI (EntityI (Some (r_uid r)) (r_typ r) (Some (mem_iface io n w (r_attrs r))))
    (r_name r) (r_group r) (r_version r) (r_kind r) (r_namespaced r).
Definition object_iface (io : iter_order) (n : site) (w : world) (o : object) : objectI :=
  ObjectI (EntityI (Some (o_uid o)) (o_typ o) (Some (mem_iface io (n ++ [1]) w (o_attrs o))))
    (o_name o) (o_ns o) (resource_iface io (n ++ [0]) w <$> o_res o).
Definition link_iface (io : iter_order) (n : site) (w : world) (l : link) : linkI :=
  LinkI (Some (l_uid l)) (Some (l_from l)) (Some (l_to l)) (Some (mem_iface io n w (l_attrs l))).

(** ** JSON of the serialisable structs *)
(** json.Marshal: fields in order, attrs and resource left out when empty *)
Definition field_str (k s : string) : bytes * json := (to_bytes k, JStr (to_bytes s)).
Definition field_attrs (io : iter_order) (n : site) (a : option amap) : list (bytes * json) :=
  match map_range io n (default ∅ a) with
  | [] => []
  | l => [(to_bytes "attrs", encode_map l)]
  end.
Definition entity_members (io : iter_order) (n : site) (e : ser_entity) : list (bytes * json) :=
  [field_str "uid" (se_uid e); field_str "type" (se_type e)] ++ field_attrs io n (se_attrs e).
Definition resource_members (io : iter_order) (n : site) (r : ser_resource) : list (bytes * json) :=
  entity_members io n (sr_ent r) ++
  [field_str "name" (sr_name r); field_str "group" (sr_group r); field_str "version" (sr_version r);
   field_str "kind" (sr_kind r); (to_bytes "namespaced", JBool (sr_namespaced r))].
Definition object_members (io : iter_order) (n : site) (o : ser_object) : list (bytes * json) :=
  entity_members io (n ++ [1]) (so_ent o) ++
  [field_str "name" (so_name o); field_str "namespace" (so_namespace o)] ++
  match so_resource o with
  | Some r => [(to_bytes "resource", JObj (resource_members io (n ++ [0]) r))]
  | None => []
  end.
Definition link_members (io : iter_order) (n : site) (l : ser_link) : list (bytes * json) :=
  [field_str "uid" (sl_uid l); field_str "from" (sl_from l); field_str "to" (sl_to l)] ++ field_attrs io n (sl_attrs l).
Definition json_marshal (m : list (bytes * json)) : string := of_bytes (render (JObj m)).

(** json.Unmarshal into the zero struct *)
Definition entity_zero : ser_entity := SerEntity "" "" None.
Definition resource_zero : ser_resource := SerResource entity_zero "" "" "" "" false.
Definition object_zero : ser_object := SerObject entity_zero "" "" None.
Definition link_zero : ser_link := SerLink "" "" "" None.
Definition entity_fields : fields ser_entity :=
  [(to_bytes "uid", fun v e => (fun u => SerEntity u (se_type e) (se_attrs e)) <$> decode_string v (se_uid e));
   (to_bytes "type", fun v e => (fun t => SerEntity (se_uid e) t (se_attrs e)) <$> decode_string v (se_type e));
   (to_bytes "attrs", fun v e => (fun a => SerEntity (se_uid e) (se_type e) a) <$> decode_map v (se_attrs e))].
(** the promoted fields of the embedded Entity *)
Definition embedded {S} (get : S -> ser_entity) (set : S -> ser_entity -> S) : fields S :=
  (fun f : bytes * (json -> ser_entity -> option ser_entity) => (f.1, fun v s => set s <$> f.2 v (get s))) <$> entity_fields.
Definition resource_fields : fields ser_resource :=
  embedded sr_ent (fun r e => SerResource e (sr_name r) (sr_group r) (sr_version r) (sr_kind r) (sr_namespaced r)) ++
  [(to_bytes "name", fun v r => (fun x => SerResource (sr_ent r) x (sr_group r) (sr_version r) (sr_kind r) (sr_namespaced r)) <$> decode_string v (sr_name r));
   (to_bytes "group", fun v r => (fun x => SerResource (sr_ent r) (sr_name r) x (sr_version r) (sr_kind r) (sr_namespaced r)) <$> decode_string v (sr_group r));
   (to_bytes "version", fun v r => (fun x => SerResource (sr_ent r) (sr_name r) (sr_group r) x (sr_kind r) (sr_namespaced r)) <$> decode_string v (sr_version r));
   (to_bytes "kind", fun v r => (fun x => SerResource (sr_ent r) (sr_name r) (sr_group r) (sr_version r) x (sr_namespaced r)) <$> decode_string v (sr_kind r));
   (to_bytes "namespaced", fun v r => (fun x => SerResource (sr_ent r) (sr_name r) (sr_group r) (sr_version r) (sr_kind r) x) <$> decode_bool v (sr_namespaced r))].
(** a pointer field: null is nil, an object is read into what is there or into a
    new struct *)
Definition decode_resource (v : json) (old : option ser_resource) : option (option ser_resource) :=
  match v with
  | JNull => Some None
  | JObj _ => Some <$> decode_struct resource_fields v (default resource_zero old)
  | _ => None
  end.
Definition object_fields : fields ser_object :=
  embedded so_ent (fun o e => SerObject e (so_name o) (so_namespace o) (so_resource o)) ++
  [(to_bytes "name", fun v o => (fun x => SerObject (so_ent o) x (so_namespace o) (so_resource o)) <$> decode_string v (so_name o));
   (to_bytes "namespace", fun v o => (fun x => SerObject (so_ent o) (so_name o) x (so_resource o)) <$> decode_string v (so_namespace o));
   (to_bytes "resource", fun v o => (fun x => SerObject (so_ent o) (so_name o) (so_namespace o) x) <$> decode_resource v (so_resource o))].
Definition link_fields : fields ser_link :=
  [(to_bytes "uid", fun v l => (fun x => SerLink x (sl_from l) (sl_to l) (sl_attrs l)) <$> decode_string v (sl_uid l));
   (to_bytes "from", fun v l => (fun x => SerLink (sl_uid l) x (sl_to l) (sl_attrs l)) <$> decode_string v (sl_from l));
   (to_bytes "to", fun v l => (fun x => SerLink (sl_uid l) (sl_from l) x (sl_attrs l)) <$> decode_string v (sl_to l));
   (to_bytes "attrs", fun v l => (fun x => SerLink (sl_uid l) (sl_from l) (sl_to l) x) <$> decode_map v (sl_attrs l))].
Definition json_unmarshal {S} (fs : fields S) (b : string) (zero : S) : res S :=
  match parse (to_bytes b) with
  | Some j => match decode_struct fs j zero with Some s => Ok s | None => Err ESyntax end
  | None => Err ESyntax
  end.

(** ** Marshaler *)
(** The argument of Marshal, an interface{}: which of the methods of the four
    interfaces its dynamic type has, and what they return. *)
Record dyn := Dyn {
  dy_uid : option (option UID); dy_type : option string; dy_attrs : option (option attrsI);
  dy_name : option string; dy_group : option string; dy_version : option string;
  dy_kind : option string; dy_namespaced : option bool;
  dy_namespace : option string; dy_resource : option (option resourceI);
  dy_from : option (option UID); dy_to : option (option UID);
}.
(** x.(space.Entity) and so on *)
Definition as_entity (x : dyn) : option entityI :=
  match dy_uid x, dy_type x, dy_attrs x with
  | Some u, Some t, Some a => Some (EntityI u t a)
  | _, _, _ => None
  end.
Definition as_resource (x : dyn) : option resourceI :=
  match as_entity x, dy_name x, dy_group x, dy_version x, dy_kind x, dy_namespaced x with
  | Some e, Some n, Some g, Some v, Some k, Some b => Some (ResourceI e n g v k b)
  | _, _, _, _, _, _ => None
  end.
Definition as_object (x : dyn) : option objectI :=
  match as_entity x, dy_name x, dy_namespace x, dy_resource x with
  | Some e, Some n, Some ns, Some r => Some (ObjectI e n ns r)
  | _, _, _, _ => None
  end.
Definition as_link (x : dyn) : option linkI :=
  match dy_uid x, dy_from x, dy_to x, dy_attrs x with
  | Some u, Some f, Some t, Some a => Some (LinkI u f t a)
  | _, _, _, _ => None
  end.

(** Marshaler.Marshal, pkg/space/marshal/json/json.go:19-47.  json.Marshal does not
    fail on these structs.  [io], [n]: iteration order of the maps it encodes. *)
Definition marshal (io : iter_order) (n : site) (x : dyn) : res string :=
  match as_resource x with
  | Some r => rbind (resource_from_space r) (fun r => Ok (json_marshal (resource_members io n r)))
  | None =>
  match as_object x with
  | Some o => rbind (object_from_space o) (fun o => Ok (json_marshal (object_members io n o)))
  | None =>
  match as_entity x with
  | Some e => rbind (entity_from_space e) (fun e => Ok (json_marshal (entity_members io n e)))
  | None =>
  match as_link x with
  | Some l => rbind (link_from_space l) (fun l => Ok (json_marshal (link_members io n l)))
  | None => Err MarshalErrUnsuportedType
  end end end end.

(** Marshaler.Unmarshal, json.go:50-82: the type of its second argument, and the
    value stored through it. *)
Inductive target := TResource | TObject | TEntity | TLink | TOther.
Inductive stored := VResource (r : resource) | VObject (o : object) | VEntity (e : entity) | VLink (l : link).
Definition unmarshal (io : iter_order) (n : site) (w : world) (b : string) (t : target) : res (stored * world) :=
  match t with
  | TResource =>
      rbind (json_unmarshal resource_fields b resource_zero) (fun r =>
      let '(r, w) := resource_to_space io n w r in Ok (VResource r, w))
  | TObject =>
      rbind (json_unmarshal object_fields b object_zero) (fun o =>
      let '(o, w) := object_to_space io n w o in Ok (VObject o, w))
  | TEntity =>
      rbind (json_unmarshal entity_fields b entity_zero) (fun e =>
      let '(e, w) := entity_to_space io n w e in Ok (VEntity e, w))
  | TLink =>
      rbind (json_unmarshal link_fields b link_zero) (fun l =>
      let '(l, w) := link_to_space io n w l in Ok (VLink l, w))
  | TOther => Err MarshalErrUnsuportedType
  end.

(** Method sets of the types of the repository, as arguments of Marshal:
    *entity.Entity, *entity.Resource, *entity.Object and *link.Link.  Entity and
    Object themselves are not entities: Attrs has a pointer receiver
    (entity.go:64, object.go:77). *)
Definition no_methods : dyn := Dyn None None None None None None None None None None None None.
Definition dyn_of_entity (e : entityI) : dyn :=
  Dyn (Some (ei_uid e)) (Some (ei_type e)) (Some (ei_attrs e)) None None None None None None None None None.
Definition dyn_of_resource (r : resourceI) : dyn :=
  Dyn (Some (ei_uid (ri_ent r))) (Some (ei_type (ri_ent r))) (Some (ei_attrs (ri_ent r)))
    (Some (ri_name r)) (Some (ri_group r)) (Some (ri_version r)) (Some (ri_kind r)) (Some (ri_namespaced r))
    None None None None.
Definition dyn_of_object (o : objectI) : dyn :=
  Dyn (Some (ei_uid (oi_ent o))) (Some (ei_type (oi_ent o))) (Some (ei_attrs (oi_ent o)))
    (Some (oi_name o)) None None None None (Some (oi_namespace o)) (Some (oi_resource o)) None None.
Definition dyn_of_link (l : linkI) : dyn :=
  Dyn (Some (li_uid l)) None (Some (li_attrs l)) None None None None None None None (Some (li_from l)) (Some (li_to l)).
(** entity.Entity and entity.Object values: no Attrs *)
Definition dyn_of_entity_value (e : entityI) : dyn :=
  Dyn (Some (ei_uid e)) (Some (ei_type e)) None None None None None None None None None None.
Definition dyn_of_object_value (o : objectI) : dyn :=
  Dyn (Some (ei_uid (oi_ent o))) (Some (ei_type (oi_ent o))) None
    (Some (oi_name o)) None None None None (Some (oi_namespace o)) (Some (oi_resource o)) None None.
(** *memory.Node and memory.Node (pkg/graph/memory/node.go:14-19) embed a
    graph.Entity, so they have UID and Type of the entity whatever else it can do,
    and Attrs is overridden (:69-71).  *memory.Edge has UID and Attrs (edge.go:64-71)
    and From and To of other types (:74-81). *)
Definition dyn_of_node (io : iter_order) (n : site) (w : world) (x : node) : dyn :=
  Dyn (Some (Some (n_uid x))) (Some (n_type x)) (Some (Some (mem_iface io n w (n_attrs x))))
    None None None None None None None None None.
Definition dyn_of_edge (io : iter_order) (n : site) (w : world) (x : edge) : dyn :=
  Dyn (Some (Some (ed_uid x))) None (Some (Some (mem_iface io n w (ed_attrs x))))
    None None None None None None None None None.
