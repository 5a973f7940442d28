(** pkg/plan/simple/simple.go.  plan.Resource values are the repository's
    resources; plan options carry no data (pkg/plan/options.go:4-7). *)
From Verif.Model Require Export Entity.

(** simple.Simple, pkg/plan/simple/simple.go:12-17 *)
Record plan := Plan { p_index : gmap string resource }.

(** NewSimple, pkg/plan/simple/simple.go:20-30 *)
Definition new_plan : plan := Plan ∅.

(** Simple.Add/add, pkg/plan/simple/simple.go:32-42 *)
Definition plan_add (p : plan) (r : resource) : res unit * plan :=
  (Ok (), Plan (<[uid_string (r_uid r) := r]> (p_index p))).

(** Simple.GetAll/getAll, pkg/plan/simple/simple.go:44-61: a slice of len(index)
    nil entries is filled at i = 0, 1, …, in map order. *)
Fixpoint fill_slots {A} (slots : list (option A)) (i : nat) (l : list A) : list (option A) :=
  match l with
  | [] => slots
  | x :: l' => fill_slots (<[i := Some x]> slots) (S i) l'
  end.
Definition plan_get_all (o : iter_order) (st : site) (p : plan) : res (list (option resource)) :=
  Ok (fill_slots (replicate (size (p_index p)) None) 0 (map_range o st (p_index p)).*2).

(** Simple.Get/get, pkg/plan/simple/simple.go:63-76 *)
Definition plan_get (p : plan) (u : UID) : res resource :=
  match p_index p !! uid_string u with
  | Some r => Ok r
  | None => Err PlanErrResourceNotFound
  end.

(** Simple.Delete/delete, pkg/plan/simple/simple.go:78-88 *)
Definition plan_delete (p : plan) (u : UID) : res unit * plan :=
  (Ok (), Plan (delete (uid_string u) (p_index p))).

(** The API as one step function. *)
Inductive pop := PAdd (r : resource) | PGet (u : UID) | PGetAll | PDelete (u : UID).
Inductive pret := PRUnit (r : res unit) | PRRes (r : res resource) | PRAll (r : res (list (option resource))).
Definition pstep (o : iter_order) (st : site) (p : plan) (op : pop) : pret * plan :=
  match op with
  | PAdd r => let '(x, p1) := plan_add p r in (PRUnit x, p1)
  | PGet u => (PRRes (plan_get p u), p)
  | PGetAll => (PRAll (plan_get_all o st p), p)
  | PDelete u => let '(x, p1) := plan_delete p u in (PRUnit x, p1)
  end.
(** A history, newest call first, with its answers. *)
Fixpoint prun (o : iter_order) (i : nat) (p : plan) (h : list (pop * pret)) (ops : list pop)
    : list (pop * pret) * plan :=
  match ops with
  | [] => (h, p)
  | op :: ops' => let '(r, p1) := pstep o [i] p op in prun o (S i) p1 ((op, r) :: h) ops'
  end.
