(** What a Graphviz document should say. *)
From Verif.Model Require Import Graph.
From Verif.Spec Require Import GraphSpec.

(** the attribute list shows the attributes a: every pair once, in any order *)
Definition shows_attrs (w : world) (a : aref) (l : list (string * string)) : Prop :=
  NoDup l.*1 /\ forall k v, (k, v) ∈ l <-> attrs_map w a !! k = Some v.
Definition node_stmt (w : world) (n : node) (s : string * list (string * string)) : Prop :=
  s.1 = n_dotid n /\ shows_attrs w (n_attrs n) s.2.
(** an edge e from n to m *)
Definition edge_stmt (w : world) (x : node * node * edge) (s : string * string * list (string * string)) : Prop :=
  s.1 = (n_dotid x.1.1, n_dotid x.1.2) /\ shows_attrs w (ed_attrs x.2) s.2.
Definition id_lt (x y : node) : Prop := (n_id x < n_id y)%Z.
(** e is the edge a document writes from n to m *)
Definition written (dir : bool) (e : edge) (n m : node) : Prop :=
  if dir then edge_ids e = (n_id n, n_id m)
  else (n_id n < n_id m)%Z /\ (edge_ids e = (n_id n, n_id m) \/ edge_ids e = (n_id m, n_id n)).
Definition pair_lt (x y : node * node * edge) : Prop :=
  (n_id x.1.1 < n_id y.1.1 \/ n_id x.1.1 = n_id y.1.1 /\ n_id x.1.2 < n_id y.1.2)%Z.
