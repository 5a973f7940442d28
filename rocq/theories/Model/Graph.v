(** pkg/graph/options.go and pkg/graph/memory: node.go, edge.go, wg.go, wdg.go,
    wug.go, run by one goroutine.  Mutex operations are dropped here; the
    functions are cut at the lock boundaries ([…_check]/[…_commit] pairs) so that
    Model/Conc.v can put the locks back around the same code. *)
From Verif.Model Require Export Gonum.

(** graph.DOTOptions, pkg/graph/options.go:14-18 *)
Record dot_opts := DotOpts { do_graph : option aref; do_node : option aref; do_edge : option aref }.
Definition dot_opts_zero : dot_opts := DotOpts None None None.

(** graph.Options, pkg/graph/options.go:24-33 *)
Record graph_opts := GraphOpts {
  go_uid : option UID; go_dotid : string; go_attrs : option aref; go_weight : float64;
  go_name : string; go_nocache : bool; go_upsert : bool; go_dot : dot_opts;
}.
Definition graph_opts_zero : graph_opts :=
  GraphOpts None "" None f64_zero "" false false dot_opts_zero.
Notation graph_option := (graph_opts -> graph_opts).
(** pkg/graph/options.go:39-43 *)
Definition graph_with_uid (u : option UID) : graph_option := fun o =>
  GraphOpts u (go_dotid o) (go_attrs o) (go_weight o) (go_name o) (go_nocache o) (go_upsert o) (go_dot o).
(** pkg/graph/options.go:46-50 *)
Definition graph_with_dotid (d : string) : graph_option := fun o =>
  GraphOpts (go_uid o) d (go_attrs o) (go_weight o) (go_name o) (go_nocache o) (go_upsert o) (go_dot o).
(** pkg/graph/options.go:53-57 *)
Definition graph_with_name (s : string) : graph_option := fun o =>
  GraphOpts (go_uid o) (go_dotid o) (go_attrs o) (go_weight o) s (go_nocache o) (go_upsert o) (go_dot o).
(** pkg/graph/options.go:60-64 *)
Definition graph_with_attrs (a : option aref) : graph_option := fun o =>
  GraphOpts (go_uid o) (go_dotid o) a (go_weight o) (go_name o) (go_nocache o) (go_upsert o) (go_dot o).
(** pkg/graph/options.go:67-71 *)
Definition graph_with_weight (x : float64) : graph_option := fun o =>
  GraphOpts (go_uid o) (go_dotid o) (go_attrs o) x (go_name o) (go_nocache o) (go_upsert o) (go_dot o).
(** pkg/graph/options.go:74-78 *)
Definition graph_with_upsert : graph_option := fun o =>
  GraphOpts (go_uid o) (go_dotid o) (go_attrs o) (go_weight o) (go_name o) (go_nocache o) true (go_dot o).
(** pkg/graph/options.go:81-85 *)
Definition graph_with_nocache : graph_option := fun o =>
  GraphOpts (go_uid o) (go_dotid o) (go_attrs o) (go_weight o) (go_name o) true (go_upsert o) (go_dot o).
(** pkg/graph/options.go:88-92 *)
Definition graph_with_dot (d : dot_opts) : graph_option := fun o =>
  GraphOpts (go_uid o) (go_dotid o) (go_attrs o) (go_weight o) (go_name o) (go_nocache o) (go_upsert o) d.

(** graph.DefaultWeight, pkg/graph/options.go:8-11; no code reads it. *)
Definition default_weight : float64 := f64_one.

(** memory.NewNode, pkg/graph/memory/node.go:22-51.  The inner DOTer branch
    (lines 34-36) is kept although an Entity with the DOTer methods is always a
    DOTEntity. *)
Definition mem_new_node (w : world) (id : Z) (e : gent) (opts : list graph_option) : node * world :=
  let nopts := apply_opts graph_opts_zero opts in
  let dotid :=
    if bool_decide (go_dotid nopts = ""%string) then
      if ge_dot e then ge_dotid e
      else if ge_dot e && ge_dotattrs e then ge_dotid e
      else uid_string (ge_uid e)
    else go_dotid nopts in
  let '(a, w1) := attrs_or_new (go_attrs nopts) w in
  (Node e id dotid a, w1).

(** memory.NewEdge, pkg/graph/memory/edge.go:30-61: a DOTID option replaces the
    UID (line 45), after one has been generated. *)
Definition new_edge (w : world) (from to : node) (opts : list graph_option) : edge * world :=
  let eopts := apply_opts graph_opts_zero opts in
  let '(uid0, w1) := uid_or_new (go_uid eopts) w in
  let '(uid, dotid, w2) :=
    if bool_decide (go_dotid eopts = ""%string) then (uid0, uid_string uid0, w1)
    else let '(u, w') := uid_from_string w1 (go_dotid eopts) in (u, go_dotid eopts, w') in
  let '(a, w3) := attrs_or_new (go_attrs eopts) w2 in
  (Edge uid a from to dotid (go_weight eopts), w3).

(** memory.WG, pkg/graph/memory/wg.go:21-33.  The values of g.nodes are graph.Node
    interfaces holding *Node: AddNode is the only writer and checks the type. *)
Record wg := WG {
  g_b : builder; g_uid : UID; g_dotid : string;
  g_nodes : gmap string node; g_dot : dot_opts;
}.
Definition wg_set_b (g : wg) (b : builder) : wg := WG b (g_uid g) (g_dotid g) (g_nodes g) (g_dot g).
Definition wg_set_nodes (g : wg) (m : gmap string node) : wg := WG (g_b g) (g_uid g) (g_dotid g) m (g_dot g).

(** memory.NewWG, pkg/graph/memory/wg.go:36-60 *)
Definition new_wg (w : world) (b : builder) (opts : list graph_option) : wg * world :=
  let gopts := apply_opts graph_opts_zero opts in
  let '(uid, w1) := uid_or_new (go_uid gopts) w in
  let dotid := if bool_decide (go_dotid gopts = ""%string) then uid_string uid else go_dotid gopts in
  (WG b uid dotid ∅ (go_dot gopts), w1).

(** memory.NewWDG, pkg/graph/memory/wdg.go:15-29 *)
Definition new_wdg (w : world) (opts : list graph_option) : wg * world :=
  let x := go_weight (apply_opts graph_opts_zero opts) in
  new_wg w (builder_new true x x) opts.
(** memory.NewWUG, pkg/graph/memory/wug.go:15-29 *)
Definition new_wug (w : world) (opts : list graph_option) : wg * world :=
  let x := go_weight (apply_opts graph_opts_zero opts) in
  new_wg w (builder_new false x x) opts.

(** ** WG.NewNode, pkg/graph/memory/wg.go:71-94 *)
(** critical section lines 77-79 *)
Definition newnode_id (o : iter_order) (st : site) (g : wg) : res Z := b_new_node_id o st (g_b g).
(** critical section lines 86-93 *)
Definition newnode_lookup (g : wg) (n : node) : node := default n (g_nodes g !! n_key n).
Definition wg_new_node (o : iter_order) (st : site) (w : world) (g : wg) (ent : gent)
    (opts : list graph_option) : res (node * world) :=
  rbind (newnode_id o st g) (fun id =>
  let '(n, w1) := mem_new_node w id ent opts in
  Ok (newnode_lookup g n, w1)).

(** graph.Node arguments of AddNode: a *memory.Node, or any other
    implementation of the interface. *)
Inductive gnode_arg := MemNode (n : node) | OtherNode (u : UID).

(** ** WG.AddNode, pkg/graph/memory/wg.go:102-133 *)
(** critical section lines 113-132 *)
Definition addnode_commit (g : wg) (n : node) (upsert : bool) : res unit * wg :=
  match b_nodes (g_b g) !! n_id n with
  | Some _ =>
      match g_nodes g !! n_key n with
      | Some _ =>
          if upsert then (Ok (), wg_set_nodes g (<[n_key n := n]> (<[n_key n := n]> (g_nodes g))))
          else (Err GraphErrDuplicateNode, g)
      | None => (Ok (), wg_set_nodes g (<[n_key n := n]> (g_nodes g)))
      end
  | None =>
      match b_add_node (g_b g) n with
      | Ok b => (Ok (), wg_set_nodes (wg_set_b g b) (<[n_key n := n]> (g_nodes g)))
      | Err e => (Err e, g)
      | Panic p => (Panic p, g)
      end
  end.
Definition wg_add_node (g : wg) (n : gnode_arg) (opts : list graph_option) : res unit * wg :=
  match n with
  | OtherNode _ => (Err GraphErrInvalidNode, g)
  | MemNode n => addnode_commit g n (go_upsert (apply_opts graph_opts_zero opts))
  end.

(** WG.Node, pkg/graph/memory/wg.go:137-146 *)
Definition wg_node (g : wg) (u : UID) : res node :=
  match g_nodes g !! uid_string u with
  | Some n => Ok n
  | None => Err GraphErrNodeNotFound
  end.

(** WG.Nodes, pkg/graph/memory/wg.go:149-161 *)
Definition wg_nodes (o : iter_order) (st : site) (g : wg) : res (list node) :=
  Ok (b_all_nodes o st (g_b g)).

(** ** WG.RemoveNode, pkg/graph/memory/wg.go:164-186 *)
(** lines 178-183 *)
Definition removenode_commit (g : wg) (u : UID) (n : node) : wg :=
  wg_set_nodes (wg_set_b g (b_remove_node (g_b g) (n_id n))) (delete (uid_string u) (g_nodes g)).
Definition wg_remove_node (g : wg) (u : UID) : res unit * wg :=
  match g_nodes g !! uid_string u with
  | None => (Ok (), g)
  | Some n => (Ok (), removenode_commit g u n)
  end.

(** WG.Edge, pkg/graph/memory/wg.go:230-252 *)
Definition wg_edge (g : wg) (u v : UID) : res edge :=
  match g_nodes g !! uid_string u with
  | None => Err GraphErrNodeNotFound
  | Some from =>
      match g_nodes g !! uid_string v with
      | None => Err GraphErrNodeNotFound
      | Some to =>
          match b_weighted_edge (g_b g) (n_id from) (n_id to) with
          | Some e => Ok e
          | None => Err GraphErrEdgeNotExist
          end
      end
  end.

(** ** WG.Link, pkg/graph/memory/wg.go:190-227 *)
(** read section lines 191-214: an existing edge, or the two nodes *)
Definition link_check (g : wg) (u v : UID) : res (edge + node * node) :=
  match wg_edge g u v with
  | Ok e => Ok (inl e)
  | Panic p => Panic p
  | Err e =>
      if bool_decide (e = GraphErrEdgeNotExist) then
        match g_nodes g !! uid_string u with
        | None => Err GraphErrNodeNotFound
        | Some f =>
            match g_nodes g !! uid_string v with
            | None => Err GraphErrNodeNotFound
            | Some t => Ok (inr (f, t))
            end
        end
      else Err e
  end.
(** write section lines 216-226 *)
Definition link_commit (w : world) (g : wg) (f t : node) (opts : list graph_option)
    : res edge * (world * wg) :=
  let '(e, w1) := new_edge w f t opts in
  match b_set_edge (g_b g) e with
  | Ok b => (Ok e, (w1, wg_set_b g b))
  | Err x => (Err x, (w1, g))
  | Panic p => (Panic p, (w1, g))
  end.
Definition wg_link (w : world) (g : wg) (u v : UID) (opts : list graph_option)
    : res edge * (world * wg) :=
  match link_check g u v with
  | Ok (inl e) => (Ok e, (w, g))
  | Ok (inr (f, t)) => link_commit w g f t opts
  | Err x => (Err x, (w, g))
  | Panic p => (Panic p, (w, g))
  end.

(** WG.Edges, pkg/graph/memory/wg.go:255-268 *)
Definition wg_edges (o : iter_order) (st : site) (g : wg) : res (list edge) :=
  Ok (b_weighted_edges o st (g_b g)).

(** WG.From, pkg/graph/memory/wg.go:271-291 *)
Definition wg_from (o : iter_order) (st : site) (g : wg) (u : UID) : res (list node) :=
  match g_nodes g !! uid_string u with
  | None => Ok []
  | Some n => b_from_nodes o st (g_b g) (n_id n)
  end.

(** ** WG.Unlink, pkg/graph/memory/wg.go:295-318 *)
(** lines 313-315 *)
Definition unlink_commit (g : wg) (f t : node) : wg :=
  wg_set_b g (b_remove_edge (g_b g) (n_id f) (n_id t)).
Definition wg_unlink (g : wg) (u v : UID) : res unit * wg :=
  match g_nodes g !! uid_string u with
  | None => (Ok (), g)
  | Some f =>
      match g_nodes g !! uid_string v with
      | None => (Ok (), g)
      | Some t => (Ok (), unlink_commit g f t)
      end
  end.

(** ** WG.SubGraph, pkg/graph/memory/wg.go:321-395 *)
(** the visit callback, lines 339-348, over the nodes in visit order; sgErr keeps
    the last error *)
Definition sub_visit (acc : wg * gmap Z node * option goerr) (n : node) : wg * gmap Z node * option goerr :=
  let '(sg, sgn, err) := acc in
  match wg_add_node sg (MemNode n) [] with
  | (Ok _, sg') => (sg', <[n_id n := n]> sgn, err)
  | (Err e, sg') => (sg', sgn, Some e)
  | (Panic _, sg') => (sg', sgn, err)   (* AddNode on a *Node cannot panic: the id was looked up *)
  end.
(** innermost loop, lines 371-388: for every edge of the source graph *)
Fixpoint sub_link_edges (o : iter_order) (st : site) (w : world) (sg : wg) (from to : node)
    (es : list edge) : res unit * (world * wg) :=
  match es with
  | [] => (Ok (), (w, sg))
  | e :: es' =>
      match new_copy_from w (Some (mem_iface o (st ++ [length es']) w (ed_attrs e))) with
      | Err _ => (Err GraphErrSubGraph, (w, sg))
      | Panic p => (Panic p, (w, sg))
      | Ok (a, w1) =>
          match wg_link w1 sg (n_uid from) (n_uid to)
                  [graph_with_attrs (Some a); graph_with_weight (ed_weight e)] with
          | (Ok _, (w2, sg')) => sub_link_edges o st w2 sg' from to es'
          | (Err _, s) => (Err GraphErrSubGraph, s)
          | (Panic p, s) => (Panic p, s)
          end
      end
  end.
(** lines 366-391: for every successor that is in the subgraph *)
Fixpoint sub_link_peers (o : iter_order) (st : site) (w : world) (src : builder) (sgn : gmap Z node)
    (sg : wg) (from : node) (peers : list node) : res unit * (world * wg) :=
  match peers with
  | [] => (Ok (), (w, sg))
  | peer :: peers' =>
      match sgn !! n_id peer with
      | None => sub_link_peers o st w src sgn sg from peers'
      | Some to =>
          let st' := st ++ [length peers'] in
          match sub_link_edges o (st' ++ [1]) w sg from to (b_weighted_edges o (st' ++ [0]) src) with
          | (Ok _, (w1, sg1)) => sub_link_peers o st w1 src sgn sg1 from peers'
          | r => r
          end
      end
  end.
(** lines 364-392: for every node of the subgraph *)
Fixpoint sub_link_nodes (o : iter_order) (st : site) (w : world) (src : builder) (sgn : gmap Z node)
    (sg : wg) (todo : list (Z * node)) : res unit * (world * wg) :=
  match todo with
  | [] => (Ok (), (w, sg))
  | (id, from) :: todo' =>
      let st' := st ++ [length todo'] in
      match b_from_nodes o (st' ++ [0]) src id with
      | Ok peers =>
          match sub_link_peers o (st' ++ [1]) w src sgn sg from peers with
          | (Ok _, (w1, sg1)) => sub_link_nodes o st w1 src sgn sg1 todo'
          | r => r
          end
      | Err e => (Err e, (w, sg))
      | Panic p => (Panic p, (w, sg))
      end
  end.
(** None only if the bounded walk ran out of fuel, which Proof/Bfs.v excludes. *)
Definition wg_subgraph (o : iter_order) (st : site) (w : world) (g : wg) (u : UID) (depth : Z)
    (opts : list graph_option) : option (res wg * world) :=
  match g_nodes g !! uid_string u with
  | None => Some (Err GraphErrNodeNotFound, w)
  | Some root =>
      let '(sg, w1) := new_wdg w opts in
      match bfs_walk o (st ++ [0]) (g_b g) root depth with
      | None => None
      | Some (Err e) => Some (Err e, w1)
      | Some (Panic p) => Some (Panic p, w1)
      | Some (Ok order) =>
          let '(sg1, sgn, err) := fold_left sub_visit order (sg, ∅, None) in
          match err with
          | Some e => Some (Err e, w1)
          | None =>
              match sub_link_nodes o (st ++ [2]) w1 (g_b g) sgn sg1 (map_range o (st ++ [1]) sgn) with
              | (Ok _, (w2, sg2)) => Some (Ok sg2, w2)
              | (Err e, (w2, _)) => Some (Err e, w2)
              | (Panic p, (w2, _)) => Some (Panic p, w2)
              end
          end
      end
  end.

(** WG.DOTID and WG.DOTAttributers, pkg/graph/memory/wg.go:398-409 *)
Definition wg_dotid (g : wg) : string := g_dotid g.
Definition wg_dot_attributers (g : wg) : option aref * option aref * option aref :=
  (do_graph (g_dot g), do_node (g_dot g), do_edge (g_dot g)).

(** The mutating API of the graph as one step function, used to state
    properties of all histories. *)
Inductive gop :=
| GNewNode (ent : gent) (opts : list graph_option)
| GAddNode (n : gnode_arg) (opts : list graph_option)
| GRemoveNode (u : UID)
| GLink (u v : UID) (opts : list graph_option)
| GUnlink (u v : UID).
Inductive gret :=
| RNode (r : res node) | RUnit (r : res unit) | REdge (r : res edge).
Definition gstep (o : iter_order) (st : site) (s : world * wg) (op : gop) : gret * (world * wg) :=
  let '(w, g) := s in
  match op with
  | GNewNode e opts =>
      match wg_new_node o st w g e opts with
      | Ok (n, w1) => (RNode (Ok n), (w1, g))
      | Err x => (RNode (Err x), (w, g))
      | Panic p => (RNode (Panic p), (w, g))
      end
  | GAddNode n opts => let '(r, g1) := wg_add_node g n opts in (RUnit r, (w, g1))
  | GRemoveNode u => let '(r, g1) := wg_remove_node g u in (RUnit r, (w, g1))
  | GLink u v opts => let '(r, s1) := wg_link w g u v opts in (REdge r, s1)
  | GUnlink u v => let '(r, g1) := wg_unlink g u v in (RUnit r, (w, g1))
  end.
(** A history: the i-th operation iterates maps at sites starting with i. *)
Fixpoint grun (o : iter_order) (i : nat) (s : world * wg) (ops : list gop) : world * wg :=
  match ops with
  | [] => s
  | op :: ops' => grun o (S i) (gstep o [i] s op).2 ops'
  end.
