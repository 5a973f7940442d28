(** What a user of the in-memory graph can observe, and which graphs are
    reachable.  Everything is stated through the API: Node, Nodes, Edge, Edges. *)
From Verif.Model Require Import Graph.

(** A graph built by NewWDG ([dir] = true) or NewWUG and any finite history of
    NewNode, AddNode, RemoveNode, Link and Unlink calls, with arbitrary arguments
    and map orders; the world (attribute heap, UUID source) may change in any way
    between calls. *)
Inductive reach (dir : bool) : wg -> Prop :=
| reach_new w opts : reach dir (if dir then (new_wdg w opts).1 else (new_wug w opts).1)
| reach_step o st w g op : reach dir g -> reach dir (gstep o st (w, g) op).2.2.

(** The same, when nodes only enter the way the store adds them: AddNode is given
    what NewNode returned in the same state. *)
Inductive tidy (dir : bool) : wg -> Prop :=
| tidy_new w opts : tidy dir (if dir then (new_wdg w opts).1 else (new_wug w opts).1)
| tidy_put o st w g e nopts aopts n w1 :
    tidy dir g -> wg_new_node o st w g e nopts = Ok (n, w1) ->
    tidy dir (wg_add_node g (MemNode n) aopts).2
| tidy_remove g u : tidy dir g -> tidy dir (wg_remove_node g u).2
| tidy_link w g u v opts : tidy dir g -> tidy dir (wg_link w g u v opts).2.2
| tidy_unlink g u v : tidy dir g -> tidy dir (wg_unlink g u v).2.

(** [n] is among the nodes Nodes() returns, whatever the iteration order *)
Definition listed (g : wg) (n : node) : Prop :=
  forall o st, exists ns, wg_nodes o st g = Ok ns /\ n ∈ ns.
(** [e] is among the edges Edges() returns, whatever the iteration order *)
Definition edge_listed (g : wg) (e : edge) : Prop :=
  forall o st, exists es, wg_edges o st g = Ok es /\ e ∈ es.
Definition same_text (u v : UID) : Prop := uid_string u = uid_string v.
Global Instance same_text_dec u v : Decision (same_text u v).
Proof. unfold same_text. apply _. Defined.

(** Node(u) returns n exactly when n is among Nodes() and has that UID. *)
Definition agree (g : wg) : Prop :=
  forall u n, wg_node g u = Ok n <-> listed g n /\ same_text (n_uid n) u.

(** The same correspondence up to the identity of node objects: UIDs that can be
    looked up and ids that are enumerated match one to one. *)
Definition consistent (g : wg) : Prop :=
  (forall u n, wg_node g u = Ok n ->
     same_text (n_uid n) u /\ exists m, listed g m /\ n_id m = n_id n /\ same_text (n_uid m) u) /\
  (forall m, listed g m -> exists n, wg_node g (n_uid m) = Ok n /\ n_id n = n_id m).

(** (x,y) names the pair (u,v), in either direction if the graph is undirected *)
Definition same_ends (dir : bool) (x y u v : UID) : Prop :=
  (same_text x u /\ same_text y v) \/ (dir = false /\ same_text x v /\ same_text y u).
Global Instance same_ends_dec dir x y u v : Decision (same_ends dir x y u v).
Proof. unfold same_ends. apply _. Defined.

(** the ids an edge joins *)
Definition edge_ids (e : edge) : Z * Z := (n_id (ed_from e), n_id (ed_to e)).
(** no unordered pair of ids occurs twice *)
Definition unordered_once (es : list edge) : Prop :=
  forall i j e1 e2, es !! i = Some e1 -> es !! j = Some e2 ->
    edge_ids e1 = edge_ids e2 \/ edge_ids e1 = ((edge_ids e2).2, (edge_ids e2).1) -> i = j.
