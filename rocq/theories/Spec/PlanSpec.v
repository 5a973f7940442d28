(** What a plan answers, by reading the history of calls (newest first). *)
From Verif.Model Require Import Plan.

(** the resource last added under text [s] and not deleted since *)
Fixpoint plan_val (h : list (pop * pret)) (s : string) : option resource :=
  match h with
  | [] => None
  | (PAdd r, _) :: h' => if bool_decide (uid_string (r_uid r) = s) then Some r else plan_val h' s
  | (PDelete u, _) :: h' => if bool_decide (uid_string u = s) then None else plan_val h' s
  | _ :: h' => plan_val h' s
  end.
Fixpoint plan_answers (h : list (pop * pret)) : Prop :=
  match h with
  | [] => True
  | (op, r) :: h' =>
      plan_answers h' /\
      match op with
      | PAdd _ | PDelete _ => r = PRUnit (Ok ())
      | PGet u => r = PRRes match plan_val h' (uid_string u) with
                            | Some x => Ok x | None => Err PlanErrResourceNotFound end
      | PGetAll => exists l, r = PRAll (Ok (Some <$> l)) /\
                     NoDup ((fun x => uid_string (r_uid x)) <$> l) /\
                     forall x, x ∈ l <-> plan_val h' (uid_string (r_uid x)) = Some x
      end
  end.
