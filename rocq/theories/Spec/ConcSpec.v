(** Data races on the graph.  The state of the graph machine also holds the world
    (allocator, attribute heap), whose accesses are not accesses to the graph. *)
From Verif.Model Require Import Conc.

Definition graph_write {R} (p : prog gstate R) : Prop :=
  exists u k x, p = Act u k /\ (u x).2 <> x.2.
Definition graph_read {R} (p : prog gstate R) : Prop :=
  exists u k w g g', p = Act u k /\ k (w, g) <> k (w, g').
(** two goroutines are about to access the graph, one of them to change it *)
Definition graph_race {R Op} (c : conf gstate R Op) : Prop :=
  exists i j t1 t2 op1 op2 p1 p2,
    i <> j /\ c_ths c !! i = Some t1 /\ c_ths c !! j = Some t2 /\
    t_cur t1 = Some (op1, p1) /\ t_cur t2 = Some (op2, p2) /\
    graph_write p1 /\ (graph_write p2 \/ graph_read p2).

(** the same for the graph of a store, when store calls and direct graph calls run
    side by side *)
Definition sgraph_write {R} (p : prog sstate R) : Prop :=
  exists u k x, p = Act u k /\ s_g (u x).2 <> s_g x.2.
Definition sgraph_read {R} (p : prog sstate R) : Prop :=
  exists u k w i g g', p = Act u k /\ k (w, Store i g) <> k (w, Store i g').
Definition sgraph_race {R Op} (c : conf sstate R Op) : Prop :=
  exists i j t1 t2 op1 op2 p1 p2,
    i <> j /\ c_ths c !! i = Some t1 /\ c_ths c !! j = Some t2 /\
    t_cur t1 = Some (op1, p1) /\ t_cur t2 = Some (op2, p2) /\
    sgraph_write p1 /\ (sgraph_write p2 \/ sgraph_read p2).
