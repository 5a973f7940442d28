From Verif.Model Require Import Store Cache.
From Verif.Spec Require Import OptionsSpec EntitySpec.
From Verif.Proof Require Import OptionsP AttrsP.

Definition used_uid (req : option UID) : bool := match req with None => true | _ => false end.

Lemma uid_or_new_spec w req u w' :
  uid_or_new req w = (u, w') -> uid_spec w w' req u /\ world_kept w w' (used_uid req).
Proof.
  destruct req as [v|]; simpl.
  - intros [= <- <-]. split; [done|]. split; [done|]. split; [lia|]. done.
  - intros [= <- <-]. split.
    + eexists. split; [done|]. simpl. lia.
    + split; [done|]. simpl. split; [lia|]. done.
Qed.

Lemma attrs_or_new_spec w req a w' :
  attrs_or_new req w = (a, w') -> attrs_spec w w' req a /\ world_kept w w' false.
Proof.
  destruct req as [v|]; simpl.
  - intros [= <- <-]. split; [done|]. split; [done|]. split; [lia|]. done.
  - intros H. assert (H' : (a, w') = attrs_alloc w ∅) by (rewrite <- H; done). clear H.
    assert (Hm : forall x, attrs_map w' x = if bool_decide (w_next w = x) then ∅ else attrs_map w x).
    { intros x. replace w' with (attrs_alloc w ∅).2 by (by rewrite <- H'). apply attrs_map_alloc. }
    injection H' as -> Hw'. split.
    + split; [rewrite Hw'; simpl; lia|]. rewrite Hm. by rewrite bool_decide_true.
    + split.
      * intros x Hx. rewrite Hm. rewrite bool_decide_false; [done|lia].
      * rewrite Hw'. simpl. split; [lia|]. done.
Qed.

Lemma world_kept_trans w1 w2 w3 b1 b2 :
  world_kept w1 w2 b1 -> world_kept w2 w3 b2 -> b1 && b2 = false ->
  world_kept w1 w3 (b1 || b2).
Proof.
  intros (H1&H2&H3&H4) (H1'&H2'&H3'&H4') Hb. split; [|split; [lia|split; [congruence|]]].
  - intros x Hx. rewrite H1' by lia. by apply H1.
  - rewrite H4', H4. by destruct b1, b2.
Qed.

Lemma uid_spec_mono w w1 w2 req u b :
  uid_spec w w1 req u -> world_kept w1 w2 b -> uid_spec w w2 req u.
Proof.
  intros Hu (_&Hn&_). destruct req; simpl in *; [done|].
  destruct Hu as (p&->&?). eexists. split; [done|]. lia.
Qed.

Lemma attrs_spec_shift w w1 w2 req a b :
  attrs_spec w1 w2 req a -> world_kept w w1 b -> attrs_spec w w2 req a.
Proof.
  intros Ha (_&Hn&_). destruct req; simpl in *; [done|].
  destruct Ha as [? ?]. split; [lia|done].
Qed.

Lemma ids_spec w ru ra u a w1 w2 :
  uid_or_new ru w = (u, w1) -> attrs_or_new ra w1 = (a, w2) ->
  uid_spec w w2 ru u /\ attrs_spec w w2 ra a /\ world_kept w w2 (used_uid ru).
Proof.
  intros Hu Ha. apply uid_or_new_spec in Hu as [Hu Hk]. apply attrs_or_new_spec in Ha as [Ha Hk'].
  split; [by eapply uid_spec_mono|]. split; [by eapply attrs_spec_shift|].
  replace (used_uid ru) with (used_uid ru || false) by apply orb_false_r.
  eapply world_kept_trans; [done|done|apply andb_false_r].
Qed.

(** ** DOT ids *)
Lemma slash_split a b x y :
  slash_free a -> slash_free b -> a +:+ "/" +:+ x = b +:+ "/" +:+ y -> a = b /\ x = y.
Proof.
  unfold slash_free. revert b. induction a as [|c a IH]; intros [|d b] Ha Hb; simpl in *.
  - intros [= ->]. done.
  - intros [= Hd _]. exfalso. apply Hb. rewrite <- Hd. left.
  - intros [= Hc _]. exfalso. apply Ha. rewrite Hc. left.
  - intros [= -> H]. apply not_elem_of_cons in Ha as [_ Ha]. apply not_elem_of_cons in Hb as [_ Hb].
    destruct (IH b Ha Hb H) as [-> ->]. done.
Qed.

Lemma concat3_inj g v k g' v' k' :
  slash_free g -> slash_free v -> slash_free g' -> slash_free v' ->
  String.concat "/" [g; v; k] = String.concat "/" [g'; v'; k'] -> g = g' /\ v = v' /\ k = k'.
Proof.
  intros ???? H. simpl in H.
  apply slash_split in H as [-> H]; [|done|done].
  apply slash_split in H as [-> H]; done.
Qed.

Lemma concat5_inj g v k n m g' v' k' n' m' :
  slash_free g -> slash_free v -> slash_free k -> slash_free n ->
  slash_free g' -> slash_free v' -> slash_free k' -> slash_free n' ->
  String.concat "/" [g; v; k; n; m] = String.concat "/" [g'; v'; k'; n'; m'] ->
  g = g' /\ v = v' /\ k = k' /\ n = n' /\ m = m'.
Proof.
  intros ???????? H. simpl in H.
  apply slash_split in H as [-> H]; [|done|done].
  apply slash_split in H as [-> H]; [|done|done].
  apply slash_split in H as [-> H]; [|done|done].
  apply slash_split in H as [-> H]; done.
Qed.

(** ** Generated UIDs *)
(** the texts are consecutive draws of the UUID source *)
Definition drawn (w w1 : world) (us : list UID) : Prop :=
  w_uuid w1 = w_uuid w /\ (w_cnt w <= w_cnt w1) /\
  exists ns, uid_string <$> us = w_uuid w <$> ns /\ NoDup ns /\
             Forall (fun n => w_cnt w <= n < w_cnt w1) ns.

Lemma drawn_nil w w1 : w_uuid w1 = w_uuid w -> w_cnt w <= w_cnt w1 -> drawn w w1 [].
Proof. intros H1 H2. split; [done|]. split; [done|]. exists []. repeat constructor. Qed.

Lemma drawn_app w w1 w2 us vs : drawn w w1 us -> drawn w1 w2 vs -> drawn w w2 (us ++ vs).
Proof.
  intros (H1&H2&ns&H3&H4&H5) (G1&G2&ms&G3&G4&G5).
  split; [congruence|]. split; [lia|]. exists (ns ++ ms).
  split; [rewrite !fmap_app; rewrite H3, G3, H1; done|]. split.
  - apply NoDup_app. split; [done|]. split; [|done]. intros n Hn Hm.
    rewrite Forall_forall in H5, G5. specialize (H5 n Hn). specialize (G5 n Hm). lia.
  - apply Forall_app. split; eapply Forall_impl; [apply H5| |apply G5|]; simpl; lia.
Qed.

Lemma drawn_one w w1 req u :
  uid_spec w w1 req u -> world_kept w w1 (used_uid req) -> drawn w w1 (if_generated req u).
Proof.
  intros Hu (_&_&H3&H4). destruct req as [v|]; simpl in *.
  - apply drawn_nil; [done|lia].
  - destruct Hu as (p&->&_). split; [done|]. split; [lia|]. exists [w_cnt w]. simpl.
    split; [done|]. split; [repeat constructor; set_solver|]. repeat constructor. lia.
Qed.


Lemma new_wg_drawn w b l g w1 :
  new_wg w b (graph_den <$> l) = (g, w1) ->
  drawn w w1 (if_generated (default None (last_set graph_uid_of l)) (g_uid g)).
Proof.
  unfold new_wg. rewrite graph_opts_last. simpl.
  destruct (uid_or_new _ w) as [u w'] eqn:Hu. intros [= <- <-].
  apply uid_or_new_spec in Hu as [Hu Hk]. by apply drawn_one.
Qed.

Lemma ctor_drawn w c us w1 : ctor_run w c = (us, w1) -> drawn w w1 us.
Proof.
  destruct c as [typ l|typ n g v k ns l|typ n ns r l|f t l|f t l|d l|l]; simpl.
  - unfold new_entity. rewrite ent_opts_last. simpl.
    destruct (uid_or_new _ w) as [u w'] eqn:Hu. destruct (attrs_or_new _ w') as [a w''] eqn:Ha.
    intros [= <- <-]. simpl. destruct (ids_spec _ _ _ _ _ _ _ Hu Ha) as (?&_&?). by apply drawn_one.
  - unfold new_resource. rewrite ent_opts_last. simpl.
    destruct (uid_or_new _ w) as [u w'] eqn:Hu. destruct (attrs_or_new _ w') as [a w''] eqn:Ha.
    intros [= <- <-]. simpl. destruct (ids_spec _ _ _ _ _ _ _ Hu Ha) as (?&_&?). by apply drawn_one.
  - unfold new_object. rewrite ent_opts_last. simpl.
    destruct (uid_or_new _ w) as [u w'] eqn:Hu. destruct (attrs_or_new _ w') as [a w''] eqn:Ha.
    intros [= <- <-]. simpl. destruct (ids_spec _ _ _ _ _ _ _ Hu Ha) as (?&_&?). by apply drawn_one.
  - unfold new_link. rewrite link_opts_last. simpl.
    destruct (uid_or_new _ w) as [u w'] eqn:Hu. destruct (attrs_or_new _ w') as [a w''] eqn:Ha.
    intros [= <- <-]. simpl. destruct (ids_spec _ _ _ _ _ _ _ Hu Ha) as (?&_&?). by apply drawn_one.
  - unfold new_edge. rewrite graph_opts_last. simpl.
    destruct (uid_or_new _ w) as [u w'] eqn:Hu.
    destruct (bool_decide (default ""%string (last_set graph_dotid_of l) = ""%string)) eqn:Hd; simpl.
    + destruct (attrs_or_new _ w') as [a w''] eqn:Ha. intros [= <- <-]. simpl.
      destruct (ids_spec _ _ _ _ _ _ _ Hu Ha) as (?&_&?). by apply drawn_one.
    + destruct (attrs_or_new _ _) as [a w''] eqn:Ha. intros [= <- <-].
      apply uid_or_new_spec in Hu as [_ (_&_&H3&H4)].
      apply attrs_or_new_spec in Ha as [_ (_&_&G3&G4)]. simpl in *.
      apply drawn_nil; [congruence|]. rewrite G4, H4. destruct (used_uid _); lia.
  - destruct d; unfold new_wdg, new_wug.
    + destruct (new_wg _ _ _) as [g w'] eqn:Hg. intros [= <- <-]. by eapply new_wg_drawn.
    + destruct (new_wg _ _ _) as [g w'] eqn:Hg. intros [= <- <-]. by eapply new_wg_drawn.
  - unfold new_store. rewrite mstore_opts_last. cbn [mo_uid mo_graph].
    destruct (uid_or_new _ w) as [u w'] eqn:Hu. apply uid_or_new_spec in Hu as [Hu Hk].
    destruct (default None (last_set mstore_graph_of l)) as [g|].
    + intros [= <- <-]. simpl. rewrite app_nil_r. by apply drawn_one.
    + destruct (new_wug w' []) as [g w''] eqn:Hg. intros [= <- <-]. cbn [s_g].
      unfold new_wug in Hg. change (@nil graph_option) with (graph_den <$> []) in Hg.
      apply new_wg_drawn in Hg.
      eapply drawn_app; [by apply drawn_one|done].
Qed.

Lemma ctors_drawn w cs us w1 : ctors_run w cs = (us, w1) -> drawn w w1 us.
Proof.
  revert w us. induction cs as [|c cs IH]; intros w us; simpl.
  - intros [= <- <-]. by apply drawn_nil.
  - destruct (ctor_run w c) as [us0 w'] eqn:Hc. destruct (ctors_run w' cs) as [vs w''] eqn:Hr.
    intros [= <- <-]. eapply drawn_app; [by eapply ctor_drawn|by eapply IH].
Qed.
