(** The lock protected objects as programs of Model/Lock.v: plan, link cache,
    graph and store.  Every method is written with its mutex calls; reads and
    writes of maps are separate steps. *)
From Verif.Model Require Export Lock Store Cache.

(** read the object, then write a changed one: a map update *)
Definition rmw {S R} (f : S -> R * S) : prog S R :=
  pbind load (fun s => pbind (save (fun _ => (f s).2)) (fun _ => Ret (f s).1)).

(** ** simple.Simple, pkg/plan/simple/simple.go; mutex 0 is p.mu.  A call carries
    the site of its map iteration. *)
Notation pcall := (site * pop)%type.
Definition plan_prog (o : iter_order) (c : pcall) : prog plan pret :=
  match c.2 with
  | PAdd r => (* lines 38-42 *)
      locked 0 (pmap PRUnit (rmw (fun p => plan_add p r)))
  | PGet u => (* lines 72-76 *)
      rlocked 0 (pbind load (fun p => Ret (PRRes (plan_get p u))))
  | PGetAll => (* lines 44-61: len(p.index), then the range loop *)
      rlocked 0 (pbind load (fun p1 => pbind load (fun p2 =>
        Ret (PRAll (Ok (fill_slots (replicate (size (p_index p1)) None) 0 (map_range o c.1 (p_index p2)).*2))))))
  | PDelete u => (* lines 84-88 *)
      locked 0 (pmap PRUnit (rmw (fun p => plan_delete p u)))
  end.
Definition plan_call (o : iter_order) (c : pcall) (p : plan) : pret * plan := pstep o c.1 p c.2.

(** ** memory.Links, pkg/cache/memory/links.go; mutex 0 is c.mu *)
Inductive lop :=
| LMut (op : cop) | LGetFrom (u : UID) | LGetTo (u : UID) | LBulkGetFrom (us : list UID) | LBulkGetTo (us : list UID).
Inductive lret :=
| LRUnit (r : res unit) | LRLinks (r : res (list (option link))) | LRMap (r : res (gmap UID (list (option link)))).
Notation lcall := (site * lop)%type.
(** the sequential object *)
Definition cache_call (o : iter_order) (x : lcall) (c : cache) : lret * cache :=
  match x.2 with
  | LMut op => let '(r, c1) := cstep c op in (LRUnit r, c1)
  | LGetFrom u => (LRLinks (cache_get_from o x.1 c u), c)
  | LGetTo u => (LRLinks (cache_get_to o x.1 c u), c)
  | LBulkGetFrom us => (LRMap (cache_bulk_get_from o x.1 c us), c)
  | LBulkGetTo us => (LRMap (cache_bulk_get_to o x.1 c us), c)
  end.
Definition set_from (f : link_index -> link_index) : prog cache unit :=
  rmw (fun c => ((), Cache (f (c_from c)) (c_to c))).
Definition set_to (f : link_index -> link_index) : prog cache unit :=
  rmw (fun c => ((), Cache (c_from c) (f (c_to c)))).
(** Links.put, lines 30-60 *)
Definition put_prog (l : link) (opts : list cache_option) : prog cache (res unit) :=
  let f := l_from l in
  let t := l_to l in
  pbind (set_from (fun m => idx_make m f t)) (fun _ =>
  pbind (set_to (fun m => idx_make m t f)) (fun _ =>
  if co_upsert (apply_opts cache_opts_zero opts) then
    pbind (set_from (fun m => idx_set m f t l)) (fun _ =>
    pbind (set_to (fun m => idx_set m t f l)) (fun _ => Ret (Ok ())))
  else
    pbind load (fun c1 =>
    pbind (match idx_get (c_from c1) f t with None => set_from (fun m => idx_set m f t l) | Some _ => Ret () end) (fun _ =>
    pbind load (fun c2 =>
    pbind (match idx_get (c_to c2) t f with None => set_to (fun m => idx_set m t f l) | Some _ => Ret () end) (fun _ =>
    Ret (Ok ()))))))).
(** Links.delete, lines 105-109 *)
Definition del_prog (u : UID) : prog cache (res unit) :=
  pbind (set_to (delete u)) (fun _ => pbind (set_from (delete u)) (fun _ => Ret (Ok ()))).
(** a loop that stops at the first error *)
Fixpoint each_prog {S A} (f : A -> prog S (res unit)) (l : list A) : prog S (res unit) :=
  match l with
  | [] => Ret (Ok ())
  | x :: l' => pbind (f x) (fun r => match r with Ok _ => each_prog f l' | _ => Ret r end)
  end.
(** Links.get on the row of [u]: len(index), then the range loop, lines 69-79 *)
Definition row_prog (o : iter_order) (st : site) (sel : cache -> link_index) (u : UID)
    : prog cache (list (option link)) :=
  pbind load (fun c1 => pbind load (fun c2 =>
    Ret (fill_slots (replicate (size (default ∅ (sel c1 !! u))) None) 0
                    (map_range o st (default ∅ (sel c2 !! u))).*2))).
Definition get_prog (o : iter_order) (st : site) (sel : cache -> link_index) (u : UID)
    : prog cache (res (list (option link))) :=
  pbind load (fun c =>
  match sel c !! u with
  | None => Ret (Ok [])
  | Some _ => pmap Ok (row_prog o st sel u)
  end).
Fixpoint bulk_get_prog (o : iter_order) (st : site) (sel : cache -> link_index) (us : list UID)
    (acc : gmap UID (list (option link))) : prog cache (res (gmap UID (list (option link)))) :=
  match us with
  | [] => Ret (Ok acc)
  | u :: us' =>
      pbind load (fun c =>
      match sel c !! u with
      | None => bulk_get_prog o st sel us' acc
      | Some _ => pbind (row_prog o (st ++ [length us']) sel u) (fun lx =>
                  bulk_get_prog o st sel us' (<[u := [] ++ lx]> acc))
      end)
  end.
Definition cache_prog (o : iter_order) (x : lcall) : prog cache lret :=
  match x.2 with
  | LMut (CPut l opts) => locked 0 (pmap LRUnit (put_prog l opts))               (* lines 62-66 *)
  | LMut (CDelete u) => locked 0 (pmap LRUnit (del_prog u))                      (* lines 111-116 *)
  | LMut CClear => (* lines 119-127 *)
      locked 0 (pbind (set_from (fun _ => ∅)) (fun _ => pbind (set_to (fun _ => ∅)) (fun _ => Ret (LRUnit (Ok ())))))
  | LMut (CBulkPut ls opts) => locked 0 (pmap LRUnit (each_prog (fun l => put_prog l opts) ls))  (* lines 130-140 *)
  | LMut (CBulkDelete us) => locked 0 (pmap LRUnit (each_prog del_prog us))      (* lines 189-199 *)
  | LGetFrom u => rlocked 0 (pmap LRLinks (get_prog o x.1 c_from u))             (* lines 82-91 *)
  | LGetTo u => rlocked 0 (pmap LRLinks (get_prog o x.1 c_to u))                 (* lines 94-103 *)
  | LBulkGetFrom us => rlocked 0 (pmap LRMap (bulk_get_prog o x.1 c_from us ∅))  (* lines 143-163 *)
  | LBulkGetTo us => rlocked 0 (pmap LRMap (bulk_get_prog o x.1 c_to us ∅))      (* lines 166-186 *)
  end.

(** ** memory.WG, pkg/graph/memory/wg.go; mutex 1 is g.mu.  The state holds the
    world because nodes and edges allocate attributes and UIDs. *)
Notation gstate := (world * wg)%type.
Definition gload : prog gstate wg := Act id (fun x => Ret x.2).
Definition gsave (f : wg -> wg) : prog gstate unit := Act (fun x => (x.1, f x.2)) (fun _ => Ret ()).
(** allocation: one step *)
Definition galloc {A} (f : world -> A * world) : prog gstate A :=
  Act (fun x => ((f x.1).2, x.2)) (fun x => Ret (f x.1).1).
(** updates of the gonum graph and of g.nodes *)
Definition gset_b (f : builder -> builder) : prog gstate unit :=
  pbind gload (fun g => gsave (fun g' => wg_set_b g' (f (g_b g)))).
Definition gset_nodes (f : gmap string node -> gmap string node) : prog gstate unit :=
  pbind gload (fun g => gsave (fun g' => wg_set_nodes g' (f (g_nodes g)))).

(** WG.NewNode, lines 71-94.  A panic of the id allocator leaves g.mu locked. *)
Definition new_node_prog (o : iter_order) (st : site) (e : gent) (opts : list graph_option)
    : prog gstate (res node) :=
  Lock 1 (pbind gload (fun g =>
  match newnode_id o st g with
  | Panic p => Ret (Panic p)
  | Err x => Unlock 1 (Ret (Err x))
  | Ok id =>
      Unlock 1 (
      pbind (galloc (fun w => mem_new_node w id e opts)) (fun n =>
      Lock 1 (pbind gload (fun g' =>
      Unlock 1 (Ret (Ok (newnode_lookup g' n)))))))
  end)).
(** WG.AddNode, lines 102-133 *)
Definition add_node_prog (a : gnode_arg) (opts : list graph_option) : prog gstate (res unit) :=
  match a with
  | OtherNode _ => Ret (Err GraphErrInvalidNode)
  | MemNode n =>
      locked 1 (pbind gload (fun g =>
      match b_nodes (g_b g) !! n_id n with
      | Some _ =>
          pbind gload (fun g1 =>
          match g_nodes g1 !! n_key n with
          | Some _ =>
              if go_upsert (apply_opts graph_opts_zero opts) then
                pbind (gset_nodes (fun m => <[n_key n := n]> m)) (fun _ =>
                pbind (gset_nodes (fun m => <[n_key n := n]> m)) (fun _ => Ret (Ok ())))
              else Ret (Err GraphErrDuplicateNode)
          | None => pbind (gset_nodes (fun m => <[n_key n := n]> m)) (fun _ => Ret (Ok ()))
          end)
      | None =>
          pbind gload (fun g1 =>
          match b_add_node (g_b g1) n with
          | Ok b => pbind (gsave (fun g' => wg_set_b g' b)) (fun _ =>
                    pbind (gset_nodes (fun m => <[n_key n := n]> m)) (fun _ => Ret (Ok ())))
          | Err e => Ret (Err e)
          | Panic p => Ret (Panic p)
          end)
      end))
  end.
(** WG.Node, lines 137-146 *)
Definition node_prog (u : UID) : prog gstate (res node) := rlocked 1 (pbind gload (fun g => Ret (wg_node g u))).
(** WG.Nodes, lines 149-161 *)
Definition nodes_prog (o : iter_order) (st : site) : prog gstate (res (list node)) :=
  rlocked 1 (pbind gload (fun g => Ret (wg_nodes o st g))).
(** WG.RemoveNode, lines 164-186 *)
Definition remove_node_prog (u : UID) : prog gstate (res unit) :=
  RLock 1 (pbind gload (fun g =>
  match g_nodes g !! uid_string u with
  | None => RUnlock 1 (Ret (Ok ()))
  | Some n =>
      RUnlock 1 (locked 1 (
      pbind (gset_b (fun b => b_remove_node b (n_id n))) (fun _ =>
      pbind (gset_nodes (delete (uid_string u))) (fun _ => Ret (Ok ())))))
  end)).
(** WG.Edge, lines 230-252 *)
Definition edge_prog (u v : UID) : prog gstate (res edge) := rlocked 1 (pbind gload (fun g => Ret (wg_edge g u v))).
(** WG.Link, lines 190-227: Edge is called with the read lock held *)
Definition link_prog (u v : UID) (opts : list graph_option) : prog gstate (res edge) :=
  RLock 1 (pbind (edge_prog u v) (fun r =>
  match r with
  | Ok e => RUnlock 1 (Ret (Ok e))
  | Panic p => Ret (Panic p)
  | Err x =>
      if bool_decide (x = GraphErrEdgeNotExist) then
        pbind gload (fun g =>
        match g_nodes g !! uid_string u with
        | None => RUnlock 1 (Ret (Err GraphErrNodeNotFound))
        | Some f =>
            pbind gload (fun g1 =>
            match g_nodes g1 !! uid_string v with
            | None => RUnlock 1 (Ret (Err GraphErrNodeNotFound))
            | Some t =>
                RUnlock 1 (locked 1 (
                pbind (galloc (fun w => new_edge w f t opts)) (fun e =>
                pbind gload (fun g2 =>
                match b_set_edge (g_b g2) e with
                | Ok b => pbind (gsave (fun g' => wg_set_b g' b)) (fun _ => Ret (Ok e))
                | Err x => Ret (Err x)
                | Panic p => Ret (Panic p)
                end))))
            end)
        end)
      else RUnlock 1 (Ret (Err x))
  end)).
(** WG.Edges, lines 255-268 *)
Definition edges_prog (o : iter_order) (st : site) : prog gstate (res (list edge)) :=
  rlocked 1 (pbind gload (fun g => Ret (wg_edges o st g))).
(** WG.From, lines 271-291 *)
Definition from_prog (o : iter_order) (st : site) (u : UID) : prog gstate (res (list node)) :=
  rlocked 1 (pbind gload (fun g => Ret (wg_from o st g u))).
(** WG.Unlink, lines 295-318 *)
Definition unlink_prog (u v : UID) : prog gstate (res unit) :=
  RLock 1 (pbind gload (fun g =>
  match g_nodes g !! uid_string u with
  | None => RUnlock 1 (Ret (Ok ()))
  | Some f =>
      pbind gload (fun g1 =>
      match g_nodes g1 !! uid_string v with
      | None => RUnlock 1 (Ret (Ok ()))
      | Some t =>
          RUnlock 1 (locked 1 (
          pbind (gset_b (fun b => b_remove_edge b (n_id f) (n_id t))) (fun _ => Ret (Ok ()))))
      end)
  end)).
(** WG.DOT, lines 412-422: the deferred call is RLock, not RUnlock.  The text made
    by gonum is not modelled. *)
Definition dot_prog : prog gstate unit := RLock 1 (pbind gload (fun _ => RLock 1 (Ret ()))).

(** WG.SubGraph, lines 321-395: the root lookup and the walk are read locked, the
    loops that copy the edges read the graph with no lock.  The new graph is
    private. *)
Fixpoint sub_peers_prog (o : iter_order) (st : site) (sgn : gmap Z node) (sg : wg) (from : node)
    (peers : list node) : prog gstate (res wg) :=
  match peers with
  | [] => Ret (Ok sg)
  | peer :: peers' =>
      match sgn !! n_id peer with
      | None => sub_peers_prog o st sgn sg from peers'
      | Some to =>
          let st' := st ++ [length peers'] in
          pbind gload (fun g =>
          let es := b_weighted_edges o (st' ++ [0]) (g_b g) in
          pbind (galloc (fun w => let '(r, (w1, sg1)) := sub_link_edges o (st' ++ [1]) w sg from to es in ((r, sg1), w1)))
            (fun '(r, sg1) =>
            match r with
            | Ok _ => sub_peers_prog o st sgn sg1 from peers'
            | Err x => Ret (Err x)
            | Panic p => Ret (Panic p)
            end))
      end
  end.
Fixpoint sub_nodes_prog (o : iter_order) (st : site) (sgn : gmap Z node) (sg : wg)
    (todo : list (Z * node)) : prog gstate (res wg) :=
  match todo with
  | [] => Ret (Ok sg)
  | (id, from) :: todo' =>
      let st' := st ++ [length todo'] in
      pbind gload (fun g =>
      match b_from_nodes o (st' ++ [0]) (g_b g) id with
      | Ok peers =>
          pbind (sub_peers_prog o (st' ++ [1]) sgn sg from peers) (fun r =>
          match r with
          | Ok sg1 => sub_nodes_prog o st sgn sg1 todo'
          | r => Ret r
          end)
      | Err e => Ret (Err e)
      | Panic p => Ret (Panic p)
      end)
  end.
(** None as in [wg_subgraph] *)
Definition subgraph_prog (o : iter_order) (st : site) (u : UID) (depth : Z) (opts : list graph_option)
    : prog gstate (option (res wg)) :=
  RLock 1 (pbind gload (fun g =>
  match g_nodes g !! uid_string u with
  | None => RUnlock 1 (Ret (Some (Err GraphErrNodeNotFound)))
  | Some root =>
      RUnlock 1 (
      pbind (galloc (fun w => new_wdg w opts)) (fun sg =>
      RLock 1 (pbind gload (fun g1 =>
      let walk := bfs_walk o (st ++ [0]) (g_b g1) root depth in
      RUnlock 1 (
      match walk with
      | None => Ret None
      | Some (Err e) => Ret (Some (Err e))
      | Some (Panic p) => Ret (Some (Panic p))
      | Some (Ok order) =>
          let '(sg1, sgn, err) := fold_left sub_visit order (sg, ∅, None) in
          match err with
          | Some e => Ret (Some (Err e))
          | None => pmap Some (sub_nodes_prog o (st ++ [2]) sgn sg1 (map_range o (st ++ [1]) sgn))
          end
      end)))))
  end)).

(** The graph API; [QCreate] is a client that adds what NewNode gave it. *)
Inductive gq :=
| QNewNode (e : gent) (opts : list graph_option)
| QAddNode (n : gnode_arg) (opts : list graph_option)
| QCreate (e : gent) (opts : list graph_option)
| QNode (u : UID) | QNodes | QRemoveNode (u : UID)
| QLink (u v : UID) (opts : list graph_option)
| QEdge (u v : UID) | QEdges | QFrom (u : UID) | QUnlink (u v : UID)
| QSubGraph (u : UID) (depth : Z) (opts : list graph_option)
| QDOT.
Inductive gqret :=
| QRNode (r : res node) | QRUnit (r : res unit) | QRNodes (r : res (list node))
| QREdge (r : res edge) | QREdges (r : res (list edge)) | QRGraph (r : option (res wg)) | QRDot.
Notation gcall := (site * gq)%type.
Definition graph_prog (o : iter_order) (c : gcall) : prog gstate gqret :=
  match c.2 with
  | QNewNode e opts => pmap QRNode (new_node_prog o c.1 e opts)
  | QAddNode n opts => pmap QRUnit (add_node_prog n opts)
  | QCreate e opts =>
      pbind (new_node_prog o c.1 e opts) (fun r =>
      match r with
      | Ok n => pmap QRUnit (add_node_prog (MemNode n) [])
      | Err x => Ret (QRUnit (Err x))
      | Panic p => Ret (QRUnit (Panic p))
      end)
  | QNode u => pmap QRNode (node_prog u)
  | QNodes => pmap QRNodes (nodes_prog o c.1)
  | QRemoveNode u => pmap QRUnit (remove_node_prog u)
  | QLink u v opts => pmap QREdge (link_prog u v opts)
  | QEdge u v => pmap QREdge (edge_prog u v)
  | QEdges => pmap QREdges (edges_prog o c.1)
  | QFrom u => pmap QRNodes (from_prog o c.1 u)
  | QUnlink u v => pmap QRUnit (unlink_prog u v)
  | QSubGraph u d opts => pmap QRGraph (subgraph_prog o c.1 u d opts)
  | QDOT => pmap (fun _ => QRDot) dot_prog
  end.
(** the same calls made by a single goroutine, Model/Graph.v *)
Definition graph_call (o : iter_order) (c : gcall) (x : gstate) : gqret * gstate :=
  let '(w, g) := x in
  match c.2 with
  | QNewNode e opts =>
      match wg_new_node o c.1 w g e opts with
      | Ok (n, w1) => (QRNode (Ok n), (w1, g))
      | Err x => (QRNode (Err x), (w, g))
      | Panic p => (QRNode (Panic p), (w, g))
      end
  | QAddNode n opts => let '(r, g1) := wg_add_node g n opts in (QRUnit r, (w, g1))
  | QCreate e opts =>
      match wg_new_node o c.1 w g e opts with
      | Ok (n, w1) => let '(r, g1) := wg_add_node g (MemNode n) [] in (QRUnit r, (w1, g1))
      | Err x => (QRUnit (Err x), (w, g))
      | Panic p => (QRUnit (Panic p), (w, g))
      end
  | QNode u => (QRNode (wg_node g u), x)
  | QNodes => (QRNodes (wg_nodes o c.1 g), x)
  | QRemoveNode u => let '(r, g1) := wg_remove_node g u in (QRUnit r, (w, g1))
  | QLink u v opts => let '(r, x1) := wg_link w g u v opts in (QREdge r, x1)
  | QEdge u v => (QREdge (wg_edge g u v), x)
  | QEdges => (QREdges (wg_edges o c.1 g), x)
  | QFrom u => (QRNodes (wg_from o c.1 g u), x)
  | QUnlink u v => let '(r, g1) := wg_unlink g u v in (QRUnit r, (w, g1))
  | QSubGraph u d opts =>
      match wg_subgraph o c.1 w g u d opts with
      | Some (r, w1) => (QRGraph (Some r), (w1, g))
      | None => (QRGraph None, x)
      end
  | QDOT => (QRDot, x)
  end.

(** ** memory.Memory (the store), pkg/store/memory/store.go; mutex 0 is m.mu, and the
    graph calls made while holding it use mutex 1. *)
Notation sstate := (world * store)%type.
(** a graph program run on the graph of the store *)
Fixpoint zoom {R} (p : prog gstate R) : prog sstate R :=
  match p with
  | Ret r => Ret r
  | Act u k => Act (fun x => let y := u (x.1, s_g x.2) in (y.1, Store (s_uid x.2) y.2))
                   (fun x => zoom (k (x.1, s_g x.2)))
  | RLock m k => RLock m (zoom k)
  | RUnlock m k => RUnlock m (zoom k)
  | Lock m k => Lock m (zoom k)
  | LockWait m k => LockWait m (zoom k)
  | Unlock m k => Unlock m (zoom k)
  end.
(** Memory.add, lines 68-90 *)
Definition add_prog (o : iter_order) (st : site) (opts : list store_option) (e : gent) : prog sstate (res unit) :=
  let aopts := apply_opts store_opts_zero opts in
  pbind (zoom (new_node_prog o st e [graph_with_attrs (so_attrs aopts)])) (fun r =>
  match r with
  | Err x => Ret (Err x)
  | Panic p => Ret (Panic p)
  | Ok n =>
      if so_upsert aopts then zoom (add_node_prog (MemNode n) [graph_with_upsert])
      else pmap (map_err GraphErrDuplicateNode StoreErrAlreadyExists) (zoom (add_node_prog (MemNode n) []))
  end).
(** Memory.get, lines 100-115 *)
Definition sget_prog (u : UID) : prog sstate (res node) :=
  pmap (map_err GraphErrNodeNotFound StoreErrEntityNotFound) (zoom (node_prog u)).
(** Memory.delete, lines 125-132 *)
Definition delete_prog (u : UID) : prog sstate (res unit) := zoom (remove_node_prog u).
(** Memory.link, lines 142-153 *)
Definition slink_prog (opts : list store_option) (u v : UID) : prog sstate (res unit) :=
  pmap (fun r => map_err GraphErrNodeNotFound StoreErrEntityNotFound (rmap (fun _ => ()) r))
       (zoom (link_prog u v [graph_with_attrs (so_attrs (apply_opts store_opts_zero opts))])).
(** Memory.unlink, lines 163-173 *)
Definition sunlink_prog (u v : UID) : prog sstate (res unit) := zoom (unlink_prog u v).
(** Memory.BulkAdd, lines 184-194; the site of an item is numbered as in Model/Store.v *)
Fixpoint bulk_add_prog (o : iter_order) (st : site) (opts : list store_option) (es : list gent) : prog sstate (res unit) :=
  match es with
  | [] => Ret (Ok ())
  | e :: es' =>
      pbind (add_prog o (st ++ [length es']) opts e) (fun r =>
      match r with Ok _ => bulk_add_prog o st opts es' | _ => Ret r end)
  end.
(** Memory.BulkGet, lines 197-212 *)
Fixpoint sbulk_get_prog (i : nat) (ents : list (option node)) (us : list UID) : prog sstate (res (list (option node))) :=
  match us with
  | [] => Ret (Ok ents)
  | u :: us' =>
      pbind (sget_prog u) (fun r =>
      match r with
      | Ok n => sbulk_get_prog i (<[i := Some n]> ents) us'
      | Err e => Ret (Err e)
      | Panic p => Ret (Panic p)
      end)
  end.
Notation stcall := (site * sop)%type.
Definition store_prog (o : iter_order) (c : stcall) : prog sstate sret :=
  match c.2 with
  | SAdd e opts => locked 0 (pmap SRUnit (add_prog o c.1 opts e))                     (* lines 93-98 *)
  | SGet u => rlocked 0 (pmap SRNode (sget_prog u))                                   (* lines 118-123 *)
  | SDelete u => locked 0 (pmap SRUnit (delete_prog u))                               (* lines 135-140 *)
  | SLink u v opts => locked 0 (pmap SRUnit (slink_prog opts u v))                    (* lines 156-161 *)
  | SUnlink u v => locked 0 (pmap SRUnit (sunlink_prog u v))                          (* lines 176-181 *)
  | SBulkAdd es opts => locked 0 (pmap SRUnit (bulk_add_prog o c.1 opts es))          (* lines 184-194 *)
  | SBulkGet us => rlocked 0 (pmap SRNodes (sbulk_get_prog 0 (replicate (length us) None) us)) (* lines 197-212 *)
  | SBulkDelete us => locked 0 (pmap SRUnit (each_prog delete_prog us))               (* lines 215-225 *)
  | SBulkLink u vs opts => locked 0 (pmap SRUnit (each_prog (slink_prog opts u) vs))  (* lines 228-238 *)
  | SBulkUnlink u vs => locked 0 (pmap SRUnit (each_prog (sunlink_prog u) vs))        (* lines 241-251 *)
  end.
Definition store_call (o : iter_order) (c : stcall) (x : sstate) : sret * sstate := sstep o c.1 x c.2.
