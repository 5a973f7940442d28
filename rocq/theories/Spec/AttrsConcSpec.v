(** Data races on attribute maps, and who uses which map. *)
From Verif.Model Require Import AttrsConc.
From Verif.Spec Require Import LinSpec.

(** the next step of a goroutine changes the map at address a *)
Definition attr_write {R} (a : aref) (p : prog world R) : Prop :=
  exists u k w, p = Act u k /\ world_wf w /\ is_Some (w_attrs w !! a) /\ attrs_map (u w) a <> attrs_map w a.
(** what it does depends on the map at address a *)
Definition attr_read {R} (a : aref) (p : prog world R) : Prop :=
  exists u k w m, p = Act u k /\ k (attrs_put w a m) <> k w.
(** two goroutines are about to access the same map, one of them to change it *)
Definition attr_race {R Op} (c : conf world R Op) : Prop :=
  exists a i j t1 t2 op1 op2 p1 p2,
    i <> j /\ c_ths c !! i = Some t1 /\ c_ths c !! j = Some t2 /\
    t_cur t1 = Some (op1, p1) /\ t_cur t2 = Some (op2, p2) /\
    attr_write a p1 /\ (attr_write a p2 \/ attr_read a p2).

Definition uses (c : acall) (a : aref) : Prop :=
  match c.2 with
  | AOne (ASet b _ _) | AOne (AGet b _) | AOne (AKeys b) | AOne (ACopy b) | AToMap b | AAttributes b => b = a
  | AOne ANew | AOne (AFromMap _) => False
  end.
Definition sets (c : acall) (a : aref) : Prop := match c.2 with AOne (ASet b _ _) => b = a | _ => False end.
(** a map that one goroutine sets is not used by another *)
Definition owned (todo : list (list acall)) : Prop :=
  forall i j li lj c d a, i <> j -> todo !! i = Some li -> todo !! j = Some lj -> c ∈ li -> d ∈ lj -> sets c a -> ~ uses d a.
(** the maps in use exist *)
Definition allocated (w : world) (todo : list (list acall)) : Prop :=
  forall i l c a, todo !! i = Some l -> c ∈ l -> uses c a -> is_Some (w_attrs w !! a).
Definition panicked (r : acret) : Prop :=
  match r with
  | AROne (ARStr (Panic _)) | AROne (ARKeys (Panic _)) | AROne (ARRef (Panic _)) | ARMap (Panic _) | ARDot (Panic _) => True
  | _ => False
  end.
