(** WG.DOT, pkg/graph/memory/wg.go:412-422: which statements the Graphviz document
    has.  gonum v0.9.1 graph/encoding/dot/encode.go is not in the sandbox; this file
    follows its published source and belongs to the trusted base.  The document is kept
    as a list of statements: layout and quoting of ids are left out. *)
From stdpp Require Import sorting.
From Verif.Model Require Export Graph.

(** key/value pairs of an attribute list *)
Notation dattrs := (list (string * string)).
Record dot_doc := DotDoc {
  dd_directed : bool;                       (* digraph or graph, -> or -- *)
  dd_name : string;                         (* the id after the keyword, "" for none *)
  dd_defaults : option (dattrs * dattrs * dattrs);  (* graph [..], node [..], edge [..] *)
  dd_nodes : list (string * dattrs);
  dd_edges : list (string * string * dattrs);
}.
(** writeAttributeList: writes a.Attributes(); a nil slice is an empty one *)
Definition dot_list (o : iter_order) (st : site) (w : world) (a : aref) : dattrs :=
  default [] (attrs_attributes o st w a).
(** sort.Sort(ordered.ByID(nodes)) *)
Definition id_le (x y : node) : Prop := (n_id x <= n_id y)%Z.
Global Instance id_le_dec x y : Decision (id_le x y).
Proof. unfold id_le. apply _. Defined.
Definition by_id (ns : list node) : list node := merge_sort id_le ns.

(** "// Node definitions.": DOTID and Attributes of *memory.Node,
    pkg/graph/memory/node.go:59-96 *)
Fixpoint dot_node_stmts (o : iter_order) (st : site) (w : world) (ns : list node) : list (string * dattrs) :=
  match ns with
  | [] => []
  | n :: ns' => (n_dotid n, dot_list o (st ++ [length ns']) w (n_attrs n)) :: dot_node_stmts o st w ns'
  end.
(** "// Edge definitions.": the successors [ts] of one node, [seen] is p.visited.
    Attributes of *memory.Edge, pkg/graph/memory/edge.go:121-143; for no edge
    g.Edge returns nil, which has no Attributes. *)
Fixpoint dot_row (o : iter_order) (st : site) (w : world) (b : builder) (n : node) (ts : list node)
    (seen : gset (Z * Z)) : list (string * string * dattrs) * gset (Z * Z) :=
  match ts with
  | [] => ([], seen)
  | t :: ts' =>
      let f := (n_id n, n_id t) in
      let r := (n_id t, n_id n) in
      if bool_decide (f ∈ seen) || (negb (b_dir b) && bool_decide (r ∈ seen))
      then dot_row o st w b n ts' seen
      else
        let seen1 := if b_dir b then {[f]} ∪ seen else {[f]} ∪ ({[r]} ∪ seen) in
        let al := match b_weighted_edge b (n_id n) (n_id t) with
                  | Some e => dot_list o (st ++ [length ts']) w (ed_attrs e)
                  | None => []
                  end in
        let '(l, s) := dot_row o st w b n ts' seen1 in
        ((n_dotid n, n_dotid t, al) :: l, s)
  end.
Fixpoint dot_edge_stmts (o : iter_order) (st : site) (w : world) (b : builder) (ns : list node)
    (seen : gset (Z * Z)) : res (list (string * string * dattrs)) :=
  match ns with
  | [] => Ok []
  | n :: ns' =>
      rbind (b_from_nodes o (st ++ [length ns'; 0]) b (n_id n)) (fun to =>
      let '(l, s) := dot_row o (st ++ [length ns'; 1]) w b n (by_id to) seen in
      rmap (app l) (dot_edge_stmts o st w b ns' s))
  end.
(** dot.Marshal(g, name, ..).  [dotid] and [atts] are what the methods DOTID and
    DOTAttributers of g return, None if its type does not have them. *)
Definition dot_marshal (o : iter_order) (st : site) (w : world) (b : builder)
    (dotid : option string) (atts : option (aref * aref * aref)) (name : string) : res dot_doc :=
  let name' := if bool_decide (name = ""%string) then default ""%string dotid else name in
  let defaults := match atts with
                  | Some (x, y, z) => Some (dot_list o (st ++ [0; 0]) w x, dot_list o (st ++ [0; 1]) w y,
                                            dot_list o (st ++ [0; 2]) w z)
                  | None => None
                  end in
  let ns := by_id (b_all_nodes o (st ++ [1]) b) in
  rmap (DotDoc (b_dir b) name' defaults (dot_node_stmts o (st ++ [2]) w ns))
       (dot_edge_stmts o (st ++ [3]) w b ns ∅).
(** WG.DOT, pkg/graph/memory/wg.go:412-422: the value marshaled is the embedded
    gonum graph, whose type has neither method, and the name is empty. *)
Definition wg_dot (o : iter_order) (st : site) (w : world) (g : wg) : res dot_doc :=
  dot_marshal o st w (g_b g) None None "".
