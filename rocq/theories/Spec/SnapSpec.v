(** What a SubGraph call may return beside other calls. *)
From Verif.Model Require Import Conc.
From Verif.Spec Require Import GraphSpec SubSpec.

(** [sg] is the part of [g] within distance d of u: the nodes of the ball and
    the edges of [g] between them *)
Definition snapshot (g : wg) (u : UID) (d : Z) (sg : wg) : Prop :=
  (forall v, known sg v <-> in_ball g u d v) /\
  (forall x y, (exists e, wg_edge sg x y = Ok e) <->
     in_ball g u d x /\ in_ball g u d y /\ exists e, wg_edge g x y = Ok e).
(** every edge of [sg] has the weight and the attributes of an edge of [g]; the
    attributes of [g] are those of the world w, of [sg] those of w' *)
Definition same_content (w : world) (g : wg) (w' : world) (sg : wg) : Prop :=
  forall x y e, wg_edge sg x y = Ok e ->
    exists e0, edge_listed g e0 /\ ed_weight e = ed_weight e0 /\
               attrs_map w' (ed_attrs e) = attrs_map w (ed_attrs e0).
(** a goroutine made the call [q] and got [r] *)
Definition answered (c : conf gstate gqret gcall) (q : gcall) (r : gqret) : Prop :=
  exists t, t ∈ c_ths c /\ (q, r) ∈ t_done t.
(** the graph was [g'] at some moment of the execution *)
Definition moment (o : iter_order) (x : gstate) (todo : list (list gcall)) (sched : list nat) (g' : wg) : Prop :=
  exists n c, exec (graph_prog o) (conf_init x todo) (take n sched) = Some c /\ (c_sh c).2 = g'.
(** the call ended in a panic *)
Definition panics (r : gqret) : bool :=
  match r with
  | QRNode (Panic _) | QRUnit (Panic _) | QRNodes (Panic _) | QREdge (Panic _) | QREdges (Panic _)
  | QRGraph (Some (Panic _)) => true
  | _ => false
  end.
(** the same call made alone, at some moment of the execution, panics *)
Definition panics_alone (o : iter_order) (s0 : gstate) (todo : list (list gcall)) (sched : list nat) (q : gcall) : Prop :=
  exists n c1, exec (graph_prog o) (conf_init s0 todo) (take n sched) = Some c1 /\
    panics (graph_call o q (c_sh c1)).1 = true.
