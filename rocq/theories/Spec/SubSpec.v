(** Distances, through Node and Edge only. *)
From Verif.Model Require Import Graph.
From Verif.Spec Require Import GraphSpec.

Definition known (g : wg) (u : UID) : Prop := exists n, wg_node g u = Ok n.

(** [v] can be reached from [u] over [k] edges *)
Inductive path (g : wg) (u : UID) : nat -> UID -> Prop :=
| path_here v : known g u -> same_text v u -> path g u 0 v
| path_step k v x e : path g u k v -> wg_edge g v x = Ok e -> path g u (S k) x.

(** at distance at most [d]; at any distance when [d] is negative *)
Definition in_ball (g : wg) (u : UID) (d : Z) (v : UID) : Prop :=
  exists k, ((d < 0)%Z \/ (Z.of_nat k <= d)%Z) /\ path g u k v.
