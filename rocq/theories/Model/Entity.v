(** pkg/space/entity and pkg/space/link. *)
From Verif.Model Require Export Attrs.

(** entity.Options, pkg/space/entity/options.go:9-16.  A nil interface is None. *)
Record ent_opts := EntOpts {
  eo_uid : option UID;
  eo_attrs : option aref;
  eo_dotid : string;
}.
Definition ent_opts_zero : ent_opts := EntOpts None None "".
Notation ent_option := (ent_opts -> ent_opts).
(** pkg/space/entity/options.go:22-26 *)
Definition ent_with_uid (u : option UID) : ent_option :=
  fun o => EntOpts u (eo_attrs o) (eo_dotid o).
(** pkg/space/entity/options.go:29-33 *)
Definition ent_with_attrs (a : option aref) : ent_option :=
  fun o => EntOpts (eo_uid o) a (eo_dotid o).
(** pkg/space/entity/options.go:36-40 *)
Definition ent_with_dotid (d : string) : ent_option :=
  fun o => EntOpts (eo_uid o) (eo_attrs o) d.

(** link.Options, pkg/space/link/options.go:9-16 *)
Record link_opts := LinkOpts {
  lo_uid : option UID;
  lo_attrs : option aref;
  lo_merge : bool;
}.
Definition link_opts_zero : link_opts := LinkOpts None None false.
Notation link_option := (link_opts -> link_opts).
(** pkg/space/link/options.go:22-26 *)
Definition link_with_uid (u : option UID) : link_option :=
  fun o => LinkOpts u (lo_attrs o) (lo_merge o).
(** pkg/space/link/options.go:29-33 *)
Definition link_with_attrs (a : option aref) : link_option :=
  fun o => LinkOpts (lo_uid o) a (lo_merge o).
(** pkg/space/link/options.go:36-40 *)
Definition link_with_merge (m : bool) : link_option :=
  fun o => LinkOpts (lo_uid o) (lo_attrs o) m.

(** [uid := opts.UID; if uid == nil { uid = memuid.New() }], e.g.
    pkg/space/entity/entity.go:30-33 *)
Definition uid_or_new (u : option UID) (w : world) : UID * world :=
  match u with Some u => (u, w) | None => uid_new w end.

(** [a := opts.Attrs; if a == nil { a = memattrs.New() }], e.g.
    pkg/space/entity/entity.go:35-38 *)
Definition attrs_or_new (a : option aref) (w : world) : aref * world :=
  match a with Some a => (a, w) | None => attrs_new w end.

(** entity.Entity, pkg/space/entity/entity.go:16-21 *)
Record entity := Entity {
  e_uid : UID; e_typ : string; e_dotid : string; e_attrs : aref;
}.

(** entity.New, pkg/space/entity/entity.go:24-51 *)
Definition new_entity (w : world) (typ : string) (opts : list ent_option) : entity * world :=
  let eopts := apply_opts ent_opts_zero opts in
  let '(uid, w1) := uid_or_new (eo_uid eopts) w in
  let '(a, w2) := attrs_or_new (eo_attrs eopts) w1 in
  let dotid := if bool_decide (eo_dotid eopts = ""%string) then uid_string uid else eo_dotid eopts in
  (Entity uid typ dotid a, w2).

(** Entity.SetDOTID, pkg/space/entity/entity.go:74-76 *)
Definition entity_set_dotid (e : entity) (d : string) : entity :=
  Entity (e_uid e) (e_typ e) d (e_attrs e).

(** entity.Resource, pkg/space/entity/resource.go:14-24 *)
Record resource := Resource {
  r_uid : UID; r_typ : string; r_name : string; r_group : string;
  r_version : string; r_kind : string; r_namespaced : bool;
  r_dotid : string; r_attrs : aref;
}.

(** entity.NewResource, pkg/space/entity/resource.go:27-62; strings.Join is
    [String.concat]. *)
Definition new_resource (w : world) (typ name group version kind : string) (namespaced : bool)
    (opts : list ent_option) : resource * world :=
  let ropts := apply_opts ent_opts_zero opts in
  let '(uid, w1) := uid_or_new (eo_uid ropts) w in
  let '(a, w2) := attrs_or_new (eo_attrs ropts) w1 in
  let dotid := if bool_decide (eo_dotid ropts = ""%string)
               then String.concat "/" [group; version; kind] else eo_dotid ropts in
  (Resource uid typ name group version kind namespaced dotid a, w2).

(** Resource.SetDOTID, pkg/space/entity/resource.go:110-112 *)
Definition resource_set_dotid (r : resource) (d : string) : resource :=
  Resource (r_uid r) (r_typ r) (r_name r) (r_group r) (r_version r) (r_kind r)
           (r_namespaced r) d (r_attrs r).

(** entity.Object, pkg/space/entity/object.go:15-23; the res field is a
    space.Resource interface, nil is None. *)
Record object := Object {
  o_uid : UID; o_typ : string; o_name : string; o_ns : string;
  o_res : option resource; o_dotid : string; o_attrs : aref;
}.

(** entity.NewObject, pkg/space/entity/object.go:26-64 *)
Definition new_object (w : world) (typ name ns : string) (rs : option resource)
    (opts : list ent_option) : object * world :=
  let eopts := apply_opts ent_opts_zero opts in
  let '(uid, w1) := uid_or_new (eo_uid eopts) w in
  let '(a, w2) := attrs_or_new (eo_attrs eopts) w1 in
  let dotid :=
    if bool_decide (eo_dotid eopts = ""%string) then
      match rs with
      | None => uid_string uid
      | Some r => String.concat "/" [r_group r; r_version r; r_kind r; ns; name]
      end
    else eo_dotid eopts in
  (Object uid typ name ns rs dotid a, w2).

(** Object.SetDOTID, pkg/space/entity/object.go:102-104 *)
Definition object_set_dotid (o : object) (d : string) : object :=
  Object (o_uid o) (o_typ o) (o_name o) (o_ns o) (o_res o) d (o_attrs o).

(** link.Link, pkg/space/link/link.go:12-17 *)
Record link := Link {
  l_uid : UID; l_from : UID; l_to : UID; l_attrs : aref;
}.

(** link.New, pkg/space/link/link.go:20-42; the Merge option is not read. *)
Definition new_link (w : world) (from to : UID) (opts : list link_option) : link * world :=
  let lopts := apply_opts link_opts_zero opts in
  let '(uid, w1) := uid_or_new (lo_uid lopts) w in
  let '(a, w2) := attrs_or_new (lo_attrs lopts) w1 in
  (Link uid from to a, w2).
