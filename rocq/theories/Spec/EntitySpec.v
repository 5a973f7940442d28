(** What constructors promise about identifiers and attributes. *)
From Coq Require Import Ascii.
From Verif.Model Require Import Store.
From Verif.Spec Require Import OptionsSpec.

(** the requested UID, or a new pointer whose text is the next string of the UUID
    source *)
Definition uid_spec (w w' : world) (req : option UID) (u : UID) : Prop :=
  match req with
  | Some v => u = v
  | None => exists p, u = UPtr p (w_uuid w (w_cnt w)) /\ (w_next w <= p < w_next w')%N
  end.
(** the requested attributes, or a new empty set *)
Definition attrs_spec (w w' : world) (req : option aref) (a : aref) : Prop :=
  match req with
  | Some b => a = b
  | None => (w_next w <= a < w_next w')%N /\ attrs_map w' a = ∅
  end.
(** nothing that existed changes; the UUID source is read at most once *)
Definition world_kept (w w' : world) (used : bool) : Prop :=
  (forall x, (x < w_next w)%N -> attrs_map w' x = attrs_map w x) /\
  (w_next w <= w_next w')%N /\ w_uuid w' = w_uuid w /\
  w_cnt w' = if used then S (w_cnt w) else w_cnt w.

(** "a/b/c": components separated by slashes *)
Definition slash : Ascii.ascii := "/"%char.
Definition slash_free (s : string) : Prop := slash ∉ String.list_ascii_of_string s.

(** A construction: any constructor of the repository that can generate a UID,
    with arbitrary arguments and options. *)
Inductive ctor :=
| KEntity (typ : string) (l : list ent_syn)
| KResource (typ name group version kind : string) (ns : bool) (l : list ent_syn)
| KObject (typ name ns : string) (r : option resource) (l : list ent_syn)
| KLink (f t : UID) (l : list link_syn)
| KEdge (f t : node) (l : list graph_syn)
| KGraph (directed : bool) (l : list graph_syn)
| KStore (l : list mstore_syn).
(** keep [u] when no UID was asked for *)
Definition if_generated (req : option UID) (u : UID) : list UID :=
  match req with None => [u] | Some _ => [] end.
(** Run the constructor; collect the UIDs of the things it built for which the
    caller asked for no UID. *)
Definition ctor_run (w : world) (c : ctor) : list UID * world :=
  match c with
  | KEntity typ l =>
      let '(e, w1) := new_entity w typ (ent_den <$> l) in
      (if_generated (default None (last_set ent_uid_of l)) (e_uid e), w1)
  | KResource typ n g v k ns l =>
      let '(r, w1) := new_resource w typ n g v k ns (ent_den <$> l) in
      (if_generated (default None (last_set ent_uid_of l)) (r_uid r), w1)
  | KObject typ n ns r l =>
      let '(x, w1) := new_object w typ n ns r (ent_den <$> l) in
      (if_generated (default None (last_set ent_uid_of l)) (o_uid x), w1)
  | KLink f t l =>
      let '(x, w1) := new_link w f t (link_den <$> l) in
      (if_generated (default None (last_set link_uid_of l)) (l_uid x), w1)
  | KEdge f t l =>
      let '(e, w1) := new_edge w f t (graph_den <$> l) in
      (if bool_decide (default ""%string (last_set graph_dotid_of l) = ""%string)
       then if_generated (default None (last_set graph_uid_of l)) (ed_uid e) else [], w1)
  | KGraph d l =>
      let '(g, w1) := (if d then new_wdg w (graph_den <$> l) else new_wug w (graph_den <$> l)) in
      (if_generated (default None (last_set graph_uid_of l)) (g_uid g), w1)
  | KStore l =>
      let '(s, w1) := new_store w (mstore_den <$> l) in
      (if_generated (default None (last_set mstore_uid_of l)) (s_uid s) ++
       match default None (last_set mstore_graph_of l) with
       | Some _ => [] | None => [g_uid (s_g s)] end, w1)
  end.
Fixpoint ctors_run (w : world) (cs : list ctor) : list UID * world :=
  match cs with
  | [] => ([], w)
  | c :: cs' => let '(us, w1) := ctor_run w c in
                let '(vs, w2) := ctors_run w1 cs' in (us ++ vs, w2)
  end.
