(** What attribute values are, by reading the history of calls only. *)
From Verif.Model Require Import Attrs.

(** Value of key [k] of attribute set [a] after the history [h] (newest event
    first): the last Set, or what the copied source held, or nothing for a new
    set; [init] is the content before the history. *)
Fixpoint spec_val (init : aref -> string -> option string) (h : list (aop * aret))
    (a : aref) (k : string) : option string :=
  match h with
  | [] => init a k
  | (ASet a' k' v, _) :: h' =>
      if bool_decide (a' = a /\ k' = k) then Some v else spec_val init h' a k
  | (ANew, ARRef (Ok a')) :: h' =>
      if bool_decide (a' = a) then None else spec_val init h' a k
  | (ACopy b, ARRef (Ok a')) :: h' =>
      if bool_decide (a' = a) then spec_val init h' b k else spec_val init h' a k
  | (AFromMap m, ARRef (Ok a')) :: h' =>
      if bool_decide (a' = a) then m !! k else spec_val init h' a k
  | _ :: h' => spec_val init h' a k
  end.

(** Every Get and Keys event of the history answers according to [spec_val] of the
    events before it; constructors succeed and hand out an address that is not
    [old]. *)
Fixpoint spec_answers (init : aref -> string -> option string) (old : aref -> Prop)
    (h : list (aop * aret)) : Prop :=
  match h with
  | [] => True
  | (op, r) :: h' =>
      spec_answers init old h' /\
      match op with
      | ASet _ _ _ => r = ARUnit
      | AGet a k => r = ARStr (Ok (default ""%string (spec_val init h' a k)))
      | AKeys a => exists ks, r = ARKeys (Ok ks) /\ NoDup ks /\
                              forall k, k ∈ ks <-> spec_val init h' a k <> None
      | ANew | ACopy _ | AFromMap _ =>
          exists a, r = ARRef (Ok a) /\ ~ old a /\
                    forall op' a', (op', ARRef (Ok a')) ∈ h' -> a' <> a
      end
  end.
