(** gonum v0.9.1 graph/simple weighted graphs and their id allocator, as used
    by pkg/graph/memory.  The library is not in the sandbox: this file states
    the behaviour of its published source (graph/simple/weighted_directed.go,
    weighted_undirected.go, graph/internal/uid/uid.go, graph/iterator) and
    belongs to the trusted base.  Nodes and edges of pkg/graph/memory
    (node.go, edge.go) are defined here because the library stores them. *)
From Verif.Model Require Export Entity.

(** graph.Entity (pkg/graph/graph.go:22-29) as an interface value: what its
    methods return, and whether its dynamic type also has DOTID/SetDOTID
    ([ge_dot]) and Attributes ([ge_dotattrs]). *)
Record gent := GEnt {
  ge_uid : UID; ge_type : string; ge_attrs : aref;
  ge_dot : bool; ge_dotattrs : bool; ge_dotid : string;
}.
(** *entity.Entity, *entity.Resource, *entity.Object as graph.Entity values:
    they have UID, Type, Attrs, DOTID, SetDOTID and no Attributes method
    (pkg/space/entity/entity.go:54-76, resource.go:65-112, object.go:67-104). *)
Definition gent_of_entity (e : entity) : gent :=
  GEnt (e_uid e) (e_typ e) (e_attrs e) true false (e_dotid e).
Definition gent_of_resource (r : resource) : gent :=
  GEnt (r_uid r) (r_typ r) (r_attrs r) true false (r_dotid r).
Definition gent_of_object (x : object) : gent :=
  GEnt (o_uid x) (o_typ x) (o_attrs x) true false (o_dotid x).

(** memory.Node, pkg/graph/memory/node.go:14-19 *)
Record node := Node {
  n_ent : gent; n_id : Z; n_dotid : string; n_attrs : aref;
}.
(** Node.UID and Node.Type are promoted from the embedded Entity,
    pkg/graph/memory/node.go:15 *)
Definition n_uid (n : node) : UID := ge_uid (n_ent n).
Definition n_type (n : node) : string := ge_type (n_ent n).
(** the key under which the graph indexes a node, pkg/graph/memory/wg.go:130 *)
Definition n_key (n : node) : string := uid_string (n_uid n).
(** *memory.Node is itself a graph.Entity with all DOT methods,
    pkg/graph/memory/node.go:54-96; its Attrs are the node's own (line 69-71). *)
Definition gent_of_node (n : node) : gent :=
  GEnt (n_uid n) (n_type n) (n_attrs n) true true (n_dotid n).
(** Node.SetDOTID, pkg/graph/memory/node.go:64-66 *)
Definition node_set_dotid (n : node) (d : string) : node :=
  Node (n_ent n) (n_id n) d (n_attrs n).

(** memory.Edge, pkg/graph/memory/edge.go:17-24 *)
Record edge := Edge {
  ed_uid : UID; ed_attrs : aref; ed_from : node; ed_to : node;
  ed_dotid : string; ed_weight : float64;
}.
(** Edge.ReversedEdge, pkg/graph/memory/edge.go:84-93 *)
Definition edge_reversed (e : edge) : edge :=
  Edge (ed_uid e) (ed_attrs e) (ed_to e) (ed_from e) (ed_dotid e) (ed_weight e).
(** Edge.SetDOTID, pkg/graph/memory/edge.go:116-118 *)
Definition edge_set_dotid (e : edge) (d : string) : edge :=
  Edge (ed_uid e) (ed_attrs e) (ed_from e) (ed_to e) d (ed_weight e).

Definition max_int64 : Z := 9223372036854775807%Z.

(** gonum uid.Set: maximal id ever used, used ids, released ids. *)
Record idset := IdSet { is_max : Z; is_used : gset Z; is_free : gset Z }.
(** uid.NewSet *)
Definition idset_empty : idset := IdSet (-1) ∅ ∅.
(** uid.Set.Use *)
Definition idset_use (s : idset) (id : Z) : idset :=
  IdSet (if bool_decide (is_max s < id)%Z then id else is_max s)
        ({[id]} ∪ is_used s) (is_free s ∖ {[id]}).
(** uid.Set.Release *)
Definition idset_release (s : idset) (id : Z) : idset :=
  IdSet (is_max s) (is_used s ∖ {[id]}) ({[id]} ∪ is_free s).
(** uid.Set.NewID: any released id (the first one a range over the free set
    yields), else maxID+1; once maxID is the largest int64 the fallback loop
    [for id := 0; id <= s.maxID+1; id++] has a wrapped, negative bound and the
    function panics. *)
Definition idset_new_id (o : iter_order) (st : site) (s : idset) : res Z :=
  match shuffle o st (elements (is_free s)) with
  | id :: _ => Ok id
  | [] => if bool_decide (is_max s = max_int64) then Panic PNoSlot
          else Ok (is_max s + 1)%Z
  end.

(** simple.WeightedDirectedGraph ([b_dir] = true: maps from and to) and
    simple.WeightedUndirectedGraph ([b_dir] = false: one map edges, here
    [b_from]; [b_to] stays empty). *)
Record builder := Builder {
  b_dir : bool;
  b_nodes : gmap Z node;
  b_from : gmap Z (gmap Z edge);
  b_to : gmap Z (gmap Z edge);
  b_self : float64; b_absent : float64;
  b_ids : idset;
}.

(** NewWeightedDirectedGraph / NewWeightedUndirectedGraph *)
Definition builder_new (dir : bool) (self absent : float64) : builder :=
  Builder dir ∅ ∅ ∅ self absent idset_empty.

(** m[a][b] on a Go map of maps *)
Definition adj_get (m : gmap Z (gmap Z edge)) (a b : Z) : option edge :=
  m !! a ≫= (.!! b).
(** [if fm, ok := m[a]; ok { fm[b] = e } else { m[a] = map{b: e} }] *)
Definition adj_set (m : gmap Z (gmap Z edge)) (a b : Z) (e : edge) : gmap Z (gmap Z edge) :=
  match m !! a with
  | Some fm => <[a := <[b := e]> fm]> m
  | None => <[a := {[b := e]}]> m
  end.
(** delete(m[a], b): a no-op when m[a] is missing *)
Definition adj_del (m : gmap Z (gmap Z edge)) (a b : Z) : gmap Z (gmap Z edge) :=
  match m !! a with
  | Some fm => <[a := delete b fm]> m
  | None => m
  end.

(** NewNode: id of a node to be added; 0 on an empty graph. *)
Definition b_new_node_id (o : iter_order) (st : site) (b : builder) : res Z :=
  if bool_decide (size (b_nodes b) = 0) then Ok 0%Z
  else if bool_decide (Z.of_nat (size (b_nodes b)) = max_int64) then Panic PNoSlot
  else idset_new_id o st (b_ids b).

(** AddNode: panics on a used id. *)
Definition b_add_node (b : builder) (n : node) : res builder :=
  match b_nodes b !! n_id n with
  | Some _ => Panic PIDCollision
  | None => Ok (Builder (b_dir b) (<[n_id n := n]> (b_nodes b)) (b_from b) (b_to b)
                        (b_self b) (b_absent b) (idset_use (b_ids b) (n_id n)))
  end.

(** RemoveNode.  Directed: drop id from the reverse index of its successors and
    from the forward index of its predecessors; undirected: from the index of
    its neighbours. *)
Definition b_remove_node (b : builder) (id : Z) : builder :=
  match b_nodes b !! id with
  | None => b
  | Some _ =>
      let succs := (map_to_list (default ∅ (b_from b !! id))).*1 in
      if b_dir b then
        let to1 := foldr (fun v m => adj_del m v id) (b_to b) succs in
        let from1 := delete id (b_from b) in
        let preds := (map_to_list (default ∅ (to1 !! id))).*1 in
        let from2 := foldr (fun v m => adj_del m v id) from1 preds in
        Builder (b_dir b) (delete id (b_nodes b)) from2 (delete id to1)
                (b_self b) (b_absent b) (idset_release (b_ids b) id)
      else
        let e1 := foldr (fun v m => adj_del m v id) (b_from b) succs in
        Builder (b_dir b) (delete id (b_nodes b)) (delete id e1) (b_to b)
                (b_self b) (b_absent b) (idset_release (b_ids b) id)
  end.

(** the node part of SetWeightedEdge: add the end point, or overwrite the stored
    node object by the edge's *)
Definition b_put_node (b : builder) (n : node) : builder :=
  match b_nodes b !! n_id n with
  | None => Builder (b_dir b) (<[n_id n := n]> (b_nodes b)) (b_from b) (b_to b)
                    (b_self b) (b_absent b) (idset_use (b_ids b) (n_id n))
  | Some _ => Builder (b_dir b) (<[n_id n := n]> (b_nodes b)) (b_from b) (b_to b)
                      (b_self b) (b_absent b) (b_ids b)
  end.

(** SetWeightedEdge: panics on a self edge before any change. *)
Definition b_set_edge (b : builder) (e : edge) : res builder :=
  let fid := n_id (ed_from e) in
  let tid := n_id (ed_to e) in
  if bool_decide (fid = tid) then Panic PSelfEdge
  else
    let b1 := b_put_node b (ed_from e) in
    let b2 := b_put_node b1 (ed_to e) in
    Ok (if b_dir b2 then
          Builder (b_dir b2) (b_nodes b2) (adj_set (b_from b2) fid tid e)
                  (adj_set (b_to b2) tid fid e) (b_self b2) (b_absent b2) (b_ids b2)
        else
          Builder (b_dir b2) (b_nodes b2)
                  (adj_set (adj_set (b_from b2) fid tid e) tid fid e)
                  (b_to b2) (b_self b2) (b_absent b2) (b_ids b2)).

(** RemoveEdge: only when both nodes exist. *)
Definition b_remove_edge (b : builder) (fid tid : Z) : builder :=
  match b_nodes b !! fid, b_nodes b !! tid with
  | Some _, Some _ =>
      if b_dir b then
        Builder (b_dir b) (b_nodes b) (adj_del (b_from b) fid tid) (adj_del (b_to b) tid fid)
                (b_self b) (b_absent b) (b_ids b)
      else
        Builder (b_dir b) (b_nodes b) (adj_del (adj_del (b_from b) fid tid) tid fid) (b_to b)
                (b_self b) (b_absent b) (b_ids b)
  | _, _ => b
  end.

(** WeightedEdge: directed, the stored edge; undirected, the stored edge turned
    so that it starts at x. *)
Definition b_weighted_edge (b : builder) (x y : Z) : option edge :=
  match adj_get (b_from b) x y with
  | None => None
  | Some e =>
      if b_dir b then Some e
      else if bool_decide (n_id (ed_from e) = x) then Some e
      else Some (edge_reversed e)
  end.

(** From: the node objects stored for the keys of the adjacency row, in map
    order.  A key without a node object yields a nil Node, on which the callers
    panic. *)
Fixpoint nodes_of_keys (b : builder) (ks : list Z) : res (list node) :=
  match ks with
  | [] => Ok []
  | k :: ks' =>
      match b_nodes b !! k with
      | None => Panic PNilDeref
      | Some n => rmap (cons n) (nodes_of_keys b ks')
      end
  end.
Definition b_from_nodes (o : iter_order) (st : site) (b : builder) (id : Z) : res (list node) :=
  nodes_of_keys b (shuffle o st (map_to_list (default ∅ (b_from b !! id))).*1).

(** Nodes, in map order. *)
Definition b_all_nodes (o : iter_order) (st : site) (b : builder) : list node :=
  (map_range o st (b_nodes b)).*2.

(** WeightedEdges.  Directed: for every node object, the edges of the row of its
    ID(). Undirected: for every row, the edges not yet seen under either
    orientation. *)
Fixpoint wedges_directed (o : iter_order) (st : site) (b : builder) (i : nat) (ns : list node) : list edge :=
  match ns with
  | [] => []
  | u :: ns' =>
      (map_range o (st ++ [1; i]) (default ∅ (b_from b !! n_id u))).*2
      ++ wedges_directed o st b (S i) ns'
  end.
Fixpoint dedup_row (seen : gset (Z * Z)) (row : list edge) : list edge * gset (Z * Z) :=
  match row with
  | [] => ([], seen)
  | e :: row' =>
      let u := n_id (ed_from e) in
      let v := n_id (ed_to e) in
      if bool_decide ((u, v) ∈ seen) then dedup_row seen row'
      else let '(l, s) := dedup_row ({[(u, v)]} ∪ ({[(v, u)]} ∪ seen)) row' in (e :: l, s)
  end.
Fixpoint wedges_undirected (o : iter_order) (st : site) (i : nat) (seen : gset (Z * Z))
    (rows : list (gmap Z edge)) : list edge :=
  match rows with
  | [] => []
  | r :: rows' =>
      let '(l, s) := dedup_row seen (map_range o (st ++ [1; i]) r).*2 in
      l ++ wedges_undirected o st (S i) s rows'
  end.
Definition b_weighted_edges (o : iter_order) (st : site) (b : builder) : list edge :=
  if b_dir b then wedges_directed o st b 0 (b_all_nodes o (st ++ [0]) b)
  else wedges_undirected o st 0 ∅ (map_range o (st ++ [0]) (b_from b)).*2.

(** Weight(x, y): self on equal ids, else the weight of the stored edge, else
    absent. *)
Definition b_weight (b : builder) (x y : Z) : float64 * bool :=
  if bool_decide (x = y) then (b_self b, true)
  else match adj_get (b_from b) x y with
       | Some e => (ed_weight e, true)
       | None => (b_absent b, false)
       end.

(** HasEdgeBetween(x, y): directed, an edge in either direction. *)
Definition b_has_edge_between (b : builder) (x y : Z) : bool :=
  bool_decide (is_Some (adj_get (b_from b) x y)) ||
  (b_dir b && bool_decide (is_Some (adj_get (b_from b) y x))).

(** traverse.BreadthFirst.Walk with a Visit callback and an until predicate
    [fun n d => d == depth] (pkg/graph/memory/wg.go:350-357).  The callback does not
    influence the traversal, so the walk returns the nodes in the order in which
    Visit is called; [fuel] bounds the number of dequeues (None = exhausted). *)
Record bfs := Bfs {
  f_queue : list node;        (* FIFO *)
  f_visited : gset Z;
  f_order : list node;        (* visited nodes, in visit order *)
  f_depth : Z;
  f_children : nat;
  f_until_next : Z;
}.
(** inner loop over the successors of the dequeued node *)
Fixpoint bfs_scan (s : bfs) (ns : list node) : bfs :=
  match ns with
  | [] => s
  | n :: ns' =>
      if bool_decide (n_id n ∈ f_visited s) then bfs_scan s ns'
      else bfs_scan (Bfs (f_queue s ++ [n]) ({[n_id n]} ∪ f_visited s) (f_order s ++ [n])
                         (f_depth s) (S (f_children s)) (f_until_next s)) ns'
  end.
Definition bfs_level (s : bfs) : bfs :=
  let u := (f_until_next s - 1)%Z in
  if bool_decide (u = 0)%Z
  then Bfs (f_queue s) (f_visited s) (f_order s) (f_depth s + 1) 0 (Z.of_nat (f_children s))
  else Bfs (f_queue s) (f_visited s) (f_order s) (f_depth s) (f_children s) u.
Fixpoint bfs_loop (o : iter_order) (st : site) (b : builder) (depth : Z) (fuel : nat) (s : bfs)
    : option (res (list node)) :=
  match f_queue s with
  | [] => Some (Ok (f_order s))
  | t :: q =>
      if bool_decide (f_depth s = depth) then Some (Ok (f_order s))
      else match fuel with
      | 0 => None
      | S fuel' =>
          match b_from_nodes o (st ++ [fuel]) b (n_id t) with
          | Ok ns =>
              let s1 := Bfs q (f_visited s) (f_order s) (f_depth s) (f_children s) (f_until_next s) in
              bfs_loop o st b depth fuel' (bfs_level (bfs_scan s1 ns))
          | Err e => Some (Err e)
          | Panic p => Some (Panic p)
          end
      end
  end.
Definition bfs_walk (o : iter_order) (st : site) (b : builder) (root : node) (depth : Z)
    : option (res (list node)) :=
  bfs_loop o st b depth (S (S (size (b_nodes b))))
    (Bfs [root] {[n_id root]} [root] 0 0 1).
