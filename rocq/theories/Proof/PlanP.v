From Verif.Model Require Import Plan.
From Verif.Spec Require Import PlanSpec.
From Verif.Proof Require Import AttrsP.

Lemma fill_slots_spec {A} (pre : list A) (l : list A) :
  fill_slots ((Some <$> pre) ++ replicate (length l) None) (length pre) l = Some <$> (pre ++ l).
Proof.
  revert pre. induction l as [|x l IH]; intros pre; simpl.
  - by rewrite app_nil_r, !app_nil_r.
  - rewrite insert_app_r_alt by (by rewrite fmap_length). rewrite fmap_length, Nat.sub_diag. simpl.
    specialize (IH (pre ++ [x])). rewrite app_length in IH. simpl in IH.
    rewrite Nat.add_1_r in IH. rewrite fmap_app, <- app_assoc in IH. simpl in IH.
    rewrite IH. by rewrite <- app_assoc.
Qed.

Lemma fill_slots_all {A} (l : list A) n :
  n = length l -> fill_slots (replicate n None) 0 l = Some <$> l.
Proof. intros ->. apply (fill_slots_spec [] l). Qed.

Lemma plan_get_all_ok o st p :
  plan_get_all o st p = Ok (Some <$> (map_range o st (p_index p)).*2).
Proof.
  unfold plan_get_all. f_equal. apply fill_slots_all.
  by rewrite fmap_length, map_range_length.
Qed.

Definition plan_agree (h : list (pop * pret)) (p : plan) : Prop :=
  (forall s, p_index p !! s = plan_val h s) /\
  (forall s r, p_index p !! s = Some r -> uid_string (r_uid r) = s).

Lemma nodup_values_keys (l : list (string * resource)) :
  (forall s r, (s, r) ∈ l -> uid_string (r_uid r) = s) ->
  ((fun x => uid_string (r_uid x)) <$> l.*2) = l.*1.
Proof.
  induction l as [|[s r] l IH]; intros H; [done|]. csimpl. f_equal.
  - apply H. left.
  - apply IH. intros s' r' Hin. apply H. by right.
Qed.

Lemma pstep_spec o st p h op :
  plan_agree h p -> plan_answers h ->
  let '(r, p1) := pstep o st p op in
  plan_agree ((op, r) :: h) p1 /\ plan_answers ((op, r) :: h).
Proof.
  intros [H1 H2] Ha. destruct op as [r|u| |u]; simpl.
  - split; [split|done].
    + intros s. simpl. case_bool_decide as E.
      * subst. by rewrite lookup_insert.
      * by rewrite lookup_insert_ne.
    + simpl. intros s r' Hs. apply lookup_insert_Some in Hs as [[<- <-]|[_ Hs]]; [done|by apply H2].
  - split; [by split|]. split; [done|]. unfold plan_get. rewrite H1. done.
  - split; [by split|]. split; [done|]. rewrite plan_get_all_ok. eexists. split; [done|]. split.
    + rewrite nodup_values_keys.
      * apply map_range_keys_nodup.
      * intros s r Hin. apply elem_of_map_range in Hin. by apply H2.
    + intros x. rewrite <- H1, elem_of_list_fmap. split.
      * intros ([s r]&->&Hin). apply elem_of_map_range in Hin. simpl. by rewrite (H2 _ _ Hin).
      * intros Hx. eexists (_, x). split; [done|]. by apply elem_of_map_range.
  - split; [split|done].
    + intros s. simpl. case_bool_decide as E.
      * subst. by rewrite lookup_delete.
      * by rewrite lookup_delete_ne.
    + simpl. intros s r' Hs. apply lookup_delete_Some in Hs as [_ Hs]. by apply H2.
Qed.

Lemma prun_spec o i p h ops :
  plan_agree h p -> plan_answers h ->
  let '(h1, p1) := prun o i p h ops in plan_agree h1 p1 /\ plan_answers h1.
Proof.
  revert i p h. induction ops as [|op ops IH]; intros i p h H1 H2; simpl; [done|].
  pose proof (pstep_spec o [i] p h op H1 H2) as H. destruct (pstep o [i] p op) as [r p1].
  destruct H. by apply IH.
Qed.
