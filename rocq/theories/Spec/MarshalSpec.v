(** Valid UTF-8 and what it means that two values have the same content. *)
From Verif.Model Require Import Marshal.
Local Open Scope N_scope.

(** Unicode scalar values and their encoding (RFC 3629, section 3) *)
Definition scalar (r : N) : Prop := r < 55296 \/ (57344 <= r /\ r < 1114112).
Definition utf8 (r : N) : list N :=
  if r <? 128 then [r]
  else if r <? 2048 then [192 + r / 64; 128 + r mod 64]
  else if r <? 65536 then [224 + r / 4096; 128 + (r / 64) mod 64; 128 + r mod 64]
  else [240 + r / 262144; 128 + (r / 4096) mod 64; 128 + (r / 64) mod 64; 128 + r mod 64].
(** bytes of a Go string *)
Definition bytes_of (s : string) : list N := N_of_ascii <$> String.list_ascii_of_string s.
(** s is valid UTF-8 *)
Definition valid_text (s : string) : Prop :=
  exists rs, Forall scalar rs /\ bytes_of s = concat (utf8 <$> rs).
(** l' is l with every byte that does not belong to a valid character replaced by
    the encoding of U+FFFD *)
Inductive cleaned : list N -> list N -> Prop :=
| cl_nil : cleaned [] []
| cl_char r l l' : scalar r -> cleaned l l' -> cleaned (utf8 r ++ l) (utf8 r ++ l')
| cl_bad b l l' : (forall r k, scalar r -> b :: l <> utf8 r ++ k) -> cleaned l l' ->
    cleaned (b :: l) (utf8 65533 ++ l').

(** Texts of a value *)
Definition valid_map (m : amap) : Prop := map_Forall (fun k v => valid_text k /\ valid_text v) m.
Definition valid_entity (w : world) (e : entity) : Prop :=
  valid_text (uid_string (e_uid e)) /\ valid_text (e_typ e) /\ valid_map (attrs_map w (e_attrs e)).
Definition valid_resource (w : world) (r : resource) : Prop :=
  valid_text (uid_string (r_uid r)) /\ valid_text (r_typ r) /\ valid_map (attrs_map w (r_attrs r)) /\
  valid_text (r_name r) /\ valid_text (r_group r) /\ valid_text (r_version r) /\ valid_text (r_kind r).
Definition valid_object (w : world) (o : object) : Prop :=
  valid_text (uid_string (o_uid o)) /\ valid_text (o_typ o) /\ valid_map (attrs_map w (o_attrs o)) /\
  valid_text (o_name o) /\ valid_text (o_ns o) /\ (forall r, o_res o = Some r -> valid_resource w r).
Definition valid_link (w : world) (l : link) : Prop :=
  valid_text (uid_string (l_uid l)) /\ valid_text (uid_string (l_from l)) /\ valid_text (uid_string (l_to l)) /\
  valid_map (attrs_map w (l_attrs l)).

(** Same UID text, type, attributes and declared fields, in two worlds.  The DOT id
    is not a declared field. *)
Definition same_entity (w : world) (e : entity) (w' : world) (e' : entity) : Prop :=
  uid_string (e_uid e) = uid_string (e_uid e') /\ e_typ e = e_typ e' /\
  attrs_map w (e_attrs e) = attrs_map w' (e_attrs e').
Definition same_resource (w : world) (r : resource) (w' : world) (r' : resource) : Prop :=
  uid_string (r_uid r) = uid_string (r_uid r') /\ r_typ r = r_typ r' /\
  attrs_map w (r_attrs r) = attrs_map w' (r_attrs r') /\
  r_name r = r_name r' /\ r_group r = r_group r' /\ r_version r = r_version r' /\ r_kind r = r_kind r' /\
  r_namespaced r = r_namespaced r'.
Definition same_object (w : world) (o : object) (w' : world) (o' : object) : Prop :=
  uid_string (o_uid o) = uid_string (o_uid o') /\ o_typ o = o_typ o' /\
  attrs_map w (o_attrs o) = attrs_map w' (o_attrs o') /\
  o_name o = o_name o' /\ o_ns o = o_ns o' /\
  match o_res o, o_res o' with
  | Some r, Some r' => same_resource w r w' r'
  | None, None => True
  | _, _ => False
  end.
Definition same_link (w : world) (l : link) (w' : world) (l' : link) : Prop :=
  uid_string (l_uid l) = uid_string (l_uid l') /\ uid_string (l_from l) = uid_string (l_from l') /\
  uid_string (l_to l) = uid_string (l_to l') /\ attrs_map w (l_attrs l) = attrs_map w' (l_attrs l').

(** Serialisable forms up to nil and empty attributes *)
Definition same_ser_entity (e e' : ser_entity) : Prop :=
  se_uid e = se_uid e' /\ se_type e = se_type e' /\ default ∅ (se_attrs e) = default ∅ (se_attrs e').
Definition same_ser_resource (r r' : ser_resource) : Prop :=
  same_ser_entity (sr_ent r) (sr_ent r') /\ sr_name r = sr_name r' /\ sr_group r = sr_group r' /\
  sr_version r = sr_version r' /\ sr_kind r = sr_kind r' /\ sr_namespaced r = sr_namespaced r'.
Definition same_ser_object (o o' : ser_object) : Prop :=
  same_ser_entity (so_ent o) (so_ent o') /\ so_name o = so_name o' /\ so_namespace o = so_namespace o' /\
  match so_resource o, so_resource o' with
  | Some r, Some r' => same_ser_resource r r'
  | None, None => True
  | _, _ => False
  end.
Definition same_ser_link (l l' : ser_link) : Prop :=
  sl_uid l = sl_uid l' /\ sl_from l = sl_from l' /\ sl_to l = sl_to l' /\
  default ∅ (sl_attrs l) = default ∅ (sl_attrs l').

(** ** Method sets *)
(** x implements space.Entity, Resource, Object, Link (pkg/space/space.go:9-54) *)
Definition has {A} (m : option A) : Prop := m <> None.
Definition is_entity (x : dyn) : Prop := has (dy_uid x) /\ has (dy_type x) /\ has (dy_attrs x).
Definition is_resource (x : dyn) : Prop :=
  is_entity x /\ has (dy_name x) /\ has (dy_group x) /\ has (dy_version x) /\ has (dy_kind x) /\ has (dy_namespaced x).
Definition is_object (x : dyn) : Prop := is_entity x /\ has (dy_name x) /\ has (dy_namespace x) /\ has (dy_resource x).
Definition is_link (x : dyn) : Prop := has (dy_uid x) /\ has (dy_from x) /\ has (dy_to x) /\ has (dy_attrs x).

(** member names of a JSON object *)
Definition member_names (b : string) : option (list string) :=
  match parse (to_bytes b) with Some (JObj m) => Some ((fun kv => of_bytes kv.1) <$> m) | _ => None end.
(** the text has the shape of one of the four kinds *)
Definition ent_names (attrs : bool) : list string := ["uid"; "type"]%string ++ (if attrs then ["attrs"]%string else []).
Definition resource_shape (b : string) : Prop :=
  exists a, member_names b = Some (ent_names a ++ ["name"; "group"; "version"; "kind"; "namespaced"]%string).
Definition object_shape (b : string) : Prop :=
  exists a (r : bool), member_names b = Some (ent_names a ++ ["name"; "namespace"]%string ++ (if r then ["resource"]%string else [])).
Definition entity_shape (b : string) : Prop := exists a, member_names b = Some (ent_names a).
Definition link_shape (b : string) : Prop :=
  exists a : bool, member_names b = Some (["uid"; "from"; "to"]%string ++ (if a then ["attrs"]%string else [])).

(** ** Content after replacement of invalid bytes *)
Definition text_cleaned (s t : string) : Prop := cleaned (bytes_of s) (bytes_of t).
(** every key of m' comes from the greatest key of m that is replaced by it *)
Definition map_cleaned (m m' : amap) : Prop :=
  forall k' v', m' !! k' = Some v' <->
    exists k v, m !! k = Some v /\ text_cleaned k k' /\ text_cleaned v v' /\
      forall k2, is_Some (m !! k2) -> text_cleaned k2 k' -> String.leb k2 k = true.
Definition clean_entity (w : world) (e : entity) (w' : world) (e' : entity) : Prop :=
  text_cleaned (uid_string (e_uid e)) (uid_string (e_uid e')) /\ text_cleaned (e_typ e) (e_typ e') /\
  map_cleaned (attrs_map w (e_attrs e)) (attrs_map w' (e_attrs e')).
Definition clean_resource (w : world) (r : resource) (w' : world) (r' : resource) : Prop :=
  text_cleaned (uid_string (r_uid r)) (uid_string (r_uid r')) /\ text_cleaned (r_typ r) (r_typ r') /\
  map_cleaned (attrs_map w (r_attrs r)) (attrs_map w' (r_attrs r')) /\
  text_cleaned (r_name r) (r_name r') /\ text_cleaned (r_group r) (r_group r') /\
  text_cleaned (r_version r) (r_version r') /\ text_cleaned (r_kind r) (r_kind r') /\
  r_namespaced r = r_namespaced r'.
Definition clean_object (w : world) (o : object) (w' : world) (o' : object) : Prop :=
  text_cleaned (uid_string (o_uid o)) (uid_string (o_uid o')) /\ text_cleaned (o_typ o) (o_typ o') /\
  map_cleaned (attrs_map w (o_attrs o)) (attrs_map w' (o_attrs o')) /\
  text_cleaned (o_name o) (o_name o') /\ text_cleaned (o_ns o) (o_ns o') /\
  match o_res o, o_res o' with
  | Some r, Some r' => clean_resource w r w' r'
  | None, None => True
  | _, _ => False
  end.
Definition clean_link (w : world) (l : link) (w' : world) (l' : link) : Prop :=
  text_cleaned (uid_string (l_uid l)) (uid_string (l_uid l')) /\
  text_cleaned (uid_string (l_from l)) (uid_string (l_from l')) /\
  text_cleaned (uid_string (l_to l)) (uid_string (l_to l')) /\
  map_cleaned (attrs_map w (l_attrs l)) (attrs_map w' (l_attrs l')).

(** the attributes of the new value are new, and so are its UIDs *)
Definition new_ref (w w' : world) (a : aref) : Prop := w_next w <= a /\ a < w_next w'.
Definition new_uid (w w' : world) (u : UID) : Prop :=
  match u with UPtr p _ => w_next w <= p /\ p < w_next w' | UVal _ => False end.
(** nothing that existed changes *)
Definition world_grown (w w' : world) : Prop :=
  (forall x, x < w_next w -> attrs_map w' x = attrs_map w x) /\ w_next w <= w_next w' /\
  w_uuid w' = w_uuid w /\ w_cnt w' = w_cnt w.
