(** The scrape plan: C34. *)
From Verif.Model Require Import Plan.
From Verif.Spec Require Import PlanSpec.
From Verif.Proof Require Import PlanP.

(** C34.  Along every history of calls on a new plan, for every map iteration
    order, each answer is the one a map from UID text to resource gives, and so is
    every later Get. *)
Theorem c34_plan_is_a_map :
  forall (o : iter_order) (ops : list pop),
    let '(h, p) := prun o 0 new_plan [] ops in
    plan_answers h /\
    forall u, plan_get p u = match plan_val h (uid_string u) with
                             | Some r => Ok r | None => Err PlanErrResourceNotFound end.
Proof.
  intros o ops. pose proof (prun_spec o 0 new_plan [] ops) as H.
  destruct (prun o 0 new_plan [] ops) as [h p]. destruct H as [[H1 H2] H3]; [|done|].
  - split; [done|]. intros s r Hs. inversion Hs.
  - split; [done|]. intros u. unfold plan_get. by rewrite H1.
Qed.
Print Assumptions c34_plan_is_a_map.
Definition ex_res (p : N) (u n : string) : resource := Resource (UPtr p u) "t" n "g" "v" "k" true "d" 0%N.
Example c34_example :
  let '(h, p) := prun iter_rev 0 new_plan []
     [PAdd (ex_res 1 "a" "x"); PAdd (ex_res 2 "b" "y"); PAdd (ex_res 3 "a" "z"); PGetAll; PDelete (UVal "b"); PGet (UVal "b"); PGet (UPtr 9 "a")] in
  take 4 (map snd h) =
  [PRRes (Ok (ex_res 3 "a" "z")); PRRes (Err PlanErrResourceNotFound); PRUnit (Ok ());
   PRAll (Ok [Some (ex_res 3 "a" "z"); Some (ex_res 2 "b" "y")])]%string.
Proof. vm_compute. reflexivity. Qed.
