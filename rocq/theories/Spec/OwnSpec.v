(** Where attributes are kept in a store, and histories of its calls. *)
From Verif.Model Require Import Store.
From Verif.Spec Require Import OptionsSpec GraphSpec.

(** the attributes of the entity u, or of the link from u to v *)
Inductive place := PNode (u : UID) | PLink (u v : UID).
Definition at_place (s : store) (p : place) (a : aref) : Prop :=
  match p with
  | PNode u => exists n, store_get s u = Ok n /\ n_attrs n = a
  | PLink u v => exists e, wg_edge (store_graph s) u v = Ok e /\ ed_attrs e = a
  end.
(** the same entity, or the same link *)
Definition same_place (dir : bool) (p q : place) : Prop :=
  match p, q with
  | PNode u, PNode v => same_text u v
  | PLink u v, PLink x y => same_ends dir u v x y
  | _, _ => False
  end.

(** Any number of calls on a new store over a new graph, while other code allocates and
    changes what it likes. *)
Inductive history (dir : bool) (allowed : world -> store -> sop -> Prop) : world -> store -> Prop :=
| hist_new w w0 opts uid g :
    g = (if dir then (new_wdg w0 opts).1 else (new_wug w0 opts).1) ->
    history dir allowed w (Store uid g)
| hist_call o st w s op r x :
    history dir allowed w s -> allowed w s op -> sstep o st (w, s) op = (r, x) -> history dir allowed x.1 x.2
| hist_other w s w' : history dir allowed w s -> (w_next w <= w_next w')%N -> history dir allowed w' s.

(** the attributes a call is given *)
Definition given (opts : list store_option) : option aref := so_attrs (apply_opts store_opts_zero opts).
(** attributes that are nowhere in the store *)
Definition unused (w : world) (s : store) (oa : option aref) : Prop :=
  match oa with Some a => (a < w_next w)%N /\ forall p, ~ at_place s p a | None => True end.
(** A call that does not bring attributes that are in the store already, and not the same
    attributes for several items. *)
Definition own_call (w : world) (s : store) (op : sop) : Prop :=
  match op with
  | SAdd _ opts | SLink _ _ opts => unused w s (given opts)
  | SBulkAdd _ opts | SBulkLink _ _ opts => given opts = None
  | _ => True
  end.
