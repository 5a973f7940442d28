(** Attributes of nodes and entities used by several goroutines: C107. *)
From Verif.Model Require Import AttrsConc Store.
From Verif.Spec Require Import LinSpec AttrsConcSpec.
From Verif.Proof Require Import LinP AttrsP AttrsConcP.

Definition c107_full : Prop :=
  forall o w todo, world_wf w -> allocated w todo ->
    linearization (attrs_prog o) (attrs_call o) w todo /\
    forall c, reachable (attrs_prog o) w todo c -> ~ attr_race c /\ ~ returned panicked c.

(** It holds when a map that one goroutine sets is not used by any other, in
    particular when nobody calls Set. *)
Theorem c107_owned_partial :
  forall o w todo, world_wf w -> allocated w todo -> owned todo ->
    linearization (attrs_prog o) (attrs_call o) w todo /\
    forall c, reachable (attrs_prog o) w todo c -> ~ attr_race c /\ ~ returned panicked c.
Proof.
  intros o w todo W A O. split; [by apply owned_linearization|]. intros c Hr. split; [by eapply owned_race|by eapply owned_no_panic].
Qed.
Print Assumptions c107_owned_partial.

(** Otherwise not: Set races with every other call on the map. *)
Definition wmap (a : aref) (m : amap) : world := World {[a := m]} (a + 1) (fun _ => ""%string) 0.
Lemma wmap_wf a m : world_wf (wmap a m).
Proof. intros b x E. cbn in E. apply lookup_singleton_Some in E as [<- _]. cbn. lia. Qed.
Lemma wmap_map a m : attrs_map (wmap a m) a = m.
Proof. unfold attrs_map. cbn. by rewrite lookup_singleton. Qed.
Lemma wmap_put a m m' : attrs_put (wmap a m) a m' = wmap a m'.
Proof. unfold attrs_put, wmap. cbn. by rewrite insert_singleton. Qed.
Lemma set_writes {R} a k v m (f : world -> prog world R) : attr_write a (Act (fun w' => attrs_put w' a (<[k := v]> m)) f).
Proof.
  exists (fun w' => attrs_put w' a (<[k := v]> m)), f, (wmap a ∅). split; [done|]. split; [apply wmap_wf|].
  split; [exists ∅; apply lookup_singleton|]. rewrite attrs_put_same, wmap_map. apply insert_non_empty.
Qed.
Lemma different_runs {S R} (p q : prog S R) s : seqrun p s <> seqrun q s -> p <> q.
Proof. by intros H ->. Qed.
Definition other_key (k : string) : string := String.append "a" k.
Lemma key_more k : other_key k <> k.
Proof. unfold other_key. intros E. apply (f_equal String.length) in E. cbn in E. by apply Nat.neq_succ_diag_l in E. Qed.
Lemma keys_read o st a (F : prog world (res (list string)) -> prog world acret) :
  (forall k, F (Act id k) = Act id (fun w => F (k w))) ->
  (forall p s, seqrun (F p) s = seqrun (F (Ret (seqrun p s).1)) (seqrun p s).2) ->
  (forall ks s, (seqrun (F (Ret (Ok ks))) s).1 <> (seqrun (F (Ret (Panic PIndex))) s).1) ->
  attr_read a (F (akeys_prog o st a)).
Proof.
  intros F1 F2 F3. eexists id, _, (wmap a ∅), {["x" := "y"]}%string. split; [apply F1|].
  rewrite wmap_put. apply (different_runs _ _ (wmap a {["x" := "y"]}%string)). cbn beta. rewrite !wmap_map.
  rewrite F2, (F2 (pbind load _)). cbn [pbind load seqrun fst snd]. unfold id. rewrite wmap_map.
  rewrite map_size_empty, fill_all. unfold fill_keys. rewrite bool_decide_eq_false_2.
  - intros E. apply (F3 _ _ (f_equal fst E)).
  - rewrite fmap_length, map_range_length, map_size_singleton. lia.
Qed.
Lemma call_reads o c a : uses c a -> attr_read a (attrs_prog o c).
Proof.
  intros U. destruct c as [st [[b k v|b k|b| |b|m]|b|b]]; unfold uses in U; cbn [snd] in U; try contradiction; subst b.
  - eexists _, _, (wmap a ∅), {[other_key k := ""]}%string. split; [reflexivity|]. rewrite wmap_put, !wmap_map.
    apply (different_runs _ _ (wmap a ∅)). cbn. rewrite !wmap_put. intros E. apply (f_equal snd) in E. cbn [snd] in E.
    apply (f_equal (fun w => attrs_map w a !! other_key k)) in E. rewrite !wmap_map in E.
    rewrite !lookup_insert_ne in E by (intros E'; symmetry in E'; by apply key_more in E').
    rewrite lookup_empty, lookup_singleton in E. discriminate.
  - eexists _, _, (wmap a ∅), {[k := "y"]}%string. split; [reflexivity|]. unfold attrs_get. rewrite wmap_put, !wmap_map.
    rewrite lookup_empty, lookup_singleton. discriminate.
  - apply (keys_read o st a (pmap (fun r => AROne (ARKeys r)))); [done| |done].
    intros p s. by rewrite !seqrun_map.
  - apply (keys_read o st a (fun p => pbind (pbind p _) _)); [done| |].
    + intros p s. by rewrite !seqrun_bind.
    + intros ks s. cbn [pbind]. rewrite seqrun_bind, run_copy. cbn [fst snd].
      destruct (copy_loop_total (attrs_get s a) ks ∅) as [m ->]; [eauto|]. discriminate.
  - apply (keys_read o st a (fun p => pmap ARMap (pbind p _))); [done| |].
    + intros p s. by rewrite !seqrun_map, !seqrun_bind.
    + intros ks s. cbn [pbind]. rewrite seqrun_map, run_copy. cbn [fst snd].
      destruct (copy_loop_total (attrs_get s a) ks ∅) as [m ->]; [eauto|]. discriminate.
  - apply (keys_read o st a (fun p => pbind p _)); [done| |].
    + intros p s. by rewrite !seqrun_bind.
    + intros ks s. cbn [pbind]. rewrite seqrun_map. discriminate.
Qed.
Theorem c107_race_refuted : forall o w a st k v c, uses c a ->
  exists e, reachable (attrs_prog o) w [[(st, AOne (ASet a k v))]; [c]] e /\ attr_race e.
Proof.
  intros o w a st k v c U. eexists. split; [exists [0; 0; 1]; reflexivity|].
  eexists a, 0, 1, _, _, _, _, _, _. split; [done|]. split; [reflexivity|]. split; [reflexivity|].
  split; [reflexivity|]. split; [reflexivity|]. split; [apply set_writes|]. right. by apply call_reads.
Qed.
Print Assumptions c107_race_refuted.
Theorem c107_attributes_shared_refuted : ~ c107_full.
Proof.
  intros H.
  assert (A : allocated (wmap 0%N ∅) [[([], AOne (ASet 0%N "x" "y"))]; [([], AOne (AGet 0%N "x"))]]%string).
  { intros i l c a Ei Hc U. destruct i as [|[|i]]; [| |discriminate]; injection Ei as <-;
      apply elem_of_list_singleton in Hc; subst c; cbn in U; subst a; exists ∅; reflexivity. }
  destruct (H iter_id (wmap 0%N ∅) _ (wmap_wf _ _) A) as [_ F].
  destruct (c107_race_refuted iter_id (wmap 0%N ∅) 0%N [] "x" "y" ([], AOne (AGet 0%N "x")) eq_refl) as (e & He & R).
  by destruct (F e He).
Qed.
Print Assumptions c107_attributes_shared_refuted.

(** Beyond the race itself (the Go runtime may stop the program with "concurrent map
    writes"): Keys panics when a Set adds a key while it runs, ... *)
Theorem c107_keys_panic_refuted : forall o w a st st' k v, attrs_map w a !! k = None ->
  exists e, reachable (attrs_prog o) w [[(st, AOne (AKeys a))]; [(st', AOne (ASet a k v))]] e /\ finished e /\
    (t_done <$> c_ths e) = [[((st, AOne (AKeys a)), AROne (ARKeys (Panic PIndex)))]; [((st', AOne (ASet a k v)), AROne ARUnit)]].
Proof.
  intros o w a st st' k v H. eexists. split; [exists [0; 0; 1; 1; 1; 1; 0; 0]; reflexivity|]. split.
  - repeat constructor.
  - cbn. unfold id. rewrite attrs_put_same. unfold fill_keys. rewrite bool_decide_eq_false_2; [done|].
    rewrite fmap_length, map_range_length, map_size_insert_None by done. lia.
Qed.
Print Assumptions c107_keys_panic_refuted.
(** ... one of two Sets can be lost, ... *)
Theorem c107_lost_set_refuted : forall o w a st st' k k' v v', k <> k' ->
  exists e, reachable (attrs_prog o) w [[(st, AOne (ASet a k v))]; [(st', AOne (ASet a k' v'))]] e /\ finished e /\
    attrs_map (c_sh e) a !! k = attrs_map w a !! k /\ attrs_map (c_sh e) a !! k' = Some v'.
Proof.
  intros o w a st st' k k' v v' N. eexists. split; [exists [0; 0; 1; 1; 0; 0; 1; 1]; reflexivity|]. split.
  - repeat constructor.
  - cbn [c_sh]. unfold id. rewrite attrs_put_same. split; [by rewrite lookup_insert_ne|apply lookup_insert].
Qed.
Print Assumptions c107_lost_set_refuted.
(** ... and ToMap (so also NewCopyFrom, Attributes and Marshal, which use the same
    loop) returns content that the map never had. *)
Definition torn_todo : list (list acall) :=
  [[([], AToMap 0%N)]; [([], AOne (ASet 0%N "b" "1")); ([], AOne (ASet 0%N "a" "1"))]]%string.
Definition torn_start : world := wmap 0%N {["a" := "0"; "b" := "0"]}%string.
Definition torn_sched : list nat := [0; 0; 0; 0; 1; 1; 1; 1; 1; 1; 1; 1; 0; 0].
Definition torn_end (s : list nat) : option (conf world acret acall) :=
  exec (attrs_prog iter_id) (conf_init torn_start torn_todo) s.
Definition torn_map : amap := {["a" := "1"; "b" := "0"]}%string.
Definition torn_not (e : option (conf world acret acall)) : bool :=
  match e with Some e => bool_decide (attrs_map (c_sh e) 0%N <> torn_map) | None => true end.
Definition torn_ok (e : conf world acret acall) : bool :=
  forallb (fun t => match t_cur t, t_todo t with None, [] => true | _, _ => false end) (c_ths e) &&
  match c_ths e with t :: _ => match t_done t with [(([], AToMap 0%N), ARMap (Ok m))] => bool_decide (m = torn_map) | _ => false end | _ => false end.
Lemma torn_never n : torn_not (torn_end (take n torn_sched)) = true.
Proof.
  assert (H : forallb (fun n => torn_not (torn_end (take n torn_sched))) (seq 0 15) = true) by (vm_compute; reflexivity).
  rewrite forallb_forall in H. destruct (Nat.le_gt_cases 15 n) as [L|L].
  - rewrite take_ge by (cbn; lia). apply (H 14). apply in_seq. lia.
  - apply H, in_seq. lia.
Qed.
Lemma torn_shape e : torn_ok e = true -> finished e /\ exists t ts, c_ths e = t :: ts /\ t_done t = [(([], AToMap 0%N), ARMap (Ok torn_map))].
Proof.
  unfold torn_ok, finished. intros H. apply andb_prop in H as [H1 H2]. split.
  - apply Forall_forall. intros t Hin. rewrite forallb_forall in H1.
    specialize (H1 t (proj1 (elem_of_list_In _ _) Hin)). unfold thread_finished. by destruct (t_cur t), (t_todo t).
  - destruct (c_ths e) as [|t ts]; [done|]. exists t, ts. split; [done|].
    destruct (t_done t) as [|[[[|] [op|[|b]|b]] [r|[m|x|p]|r]] [|]]; try done. by apply bool_decide_eq_true_1 in H2 as ->.
Qed.
Theorem c107_torn_copy_refuted :
  exists e, exec (attrs_prog iter_id) (conf_init torn_start torn_todo) torn_sched = Some e /\ finished e /\
    (exists t ts, c_ths e = t :: ts /\ t_done t = [(([], AToMap 0%N), ARMap (Ok torn_map))]) /\
    forall n e', exec (attrs_prog iter_id) (conf_init torn_start torn_todo) (take n torn_sched) = Some e' ->
      attrs_map (c_sh e') 0%N <> torn_map.
Proof.
  assert (H : match torn_end torn_sched with Some e => torn_ok e | None => false end = true) by (vm_compute; reflexivity).
  fold (torn_end torn_sched). destruct (torn_end torn_sched) as [e|]; [|done]. exists e. split; [done|].
  destruct (torn_shape e H) as [F T]. split; [done|]. split; [done|]. intros n e' E. pose proof (torn_never n) as N.
  unfold torn_end in N. rewrite E in N. by apply bool_decide_eq_true_1 in N.
Qed.
Print Assumptions c107_torn_copy_refuted.

(** Goroutines that get the same entity from a store share its attributes. *)
Theorem c107_stored_refuted : forall o w s u v n m st k val c,
  store_get s u = Ok n -> store_get s v = Ok m -> uid_string u = uid_string v -> uses c (n_attrs m) ->
  exists e, reachable (attrs_prog o) w [[(st, AOne (ASet (n_attrs n) k val))]; [c]] e /\ attr_race e.
Proof.
  intros o w s u v n m st k val c Hn Hm E U. apply c107_race_refuted.
  unfold store_get, wg_node in *. rewrite E, Hm in Hn. by injection Hn as ->.
Qed.
Print Assumptions c107_stored_refuted.

(** Two goroutines with a map each and one that both read, which one of them copies. *)
Definition own_world : world := World {[0%N := ∅; 1%N := {["k" := "v"]}; 2%N := {["x" := "y"; "z" := ""]}]}%string 3 (fun _ => ""%string) 0.
Definition own_todo : list (list acall) :=
  [[([], AOne (ASet 0%N "a" "1")); ([], AOne (ACopy 2%N)); ([], AToMap 0%N)];
   [([], AOne (ASet 1%N "k" "2")); ([], AAttributes 2%N); ([], AOne (AKeys 1%N)); ([], AOne ANew)]]%string.
Example c107_owned_example :
  world_wf own_world /\ allocated own_world own_todo /\ owned own_todo /\
  exists sched e, exec (attrs_prog iter_id) (conf_init own_world own_todo) sched = Some e /\
    length <$> (t_done <$> c_ths e) = [3; 4].
Proof.
  split; [|split; [|split]].
  - intros a m. cbn. rewrite !lookup_insert_Some, lookup_singleton_Some. lia.
  - intros i l c a Ei Hc U. destruct i as [|[|i]]; [| |discriminate]; injection Ei as <-;
      repeat (apply elem_of_cons in Hc as [->|Hc]; [cbn in U; first [contradiction|subst a; eexists; reflexivity]|]); by apply elem_of_nil in Hc.
  - intros i j li lj c d a N Ei Ej Hc Hd S U.
    assert (X : forall (l : list acall) e b, e ∈ l -> sets e b -> b ∈ omap (fun e : acall => match e.2 with AOne (ASet b _ _) => Some b | _ => None end) l).
    { intros l e b He Hs. apply elem_of_list_omap. exists e. split; [done|]. destruct e as [st [[]|x|x]]; cbn in Hs |- *; try done. by subst. }
    assert (Y : forall (l : list acall) e b, e ∈ l -> uses e b -> b ∈ omap (fun e : acall => match e.2 with
        | AOne (ASet b _ _) | AOne (AGet b _) | AOne (AKeys b) | AOne (ACopy b) | AToMap b | AAttributes b => Some b | _ => None end) l).
    { intros l e b He Hs. apply elem_of_list_omap. exists e. split; [done|]. destruct e as [st [[]|x|x]]; cbn in Hs |- *; try done; by subst. }
    specialize (X li c a Hc S). specialize (Y lj d a Hd U).
    destruct i as [|[|i]], j as [|[|j]]; try done; injection Ei as <-; injection Ej as <-; set_solver.
  - exists (replicate 7 0 ++ replicate 9 1 ++ replicate 9 0 ++ replicate 8 1).
    assert (H : match exec (attrs_prog iter_id) (conf_init own_world own_todo) (replicate 7 0 ++ replicate 9 1 ++ replicate 9 0 ++ replicate 8 1) with
                | Some e => bool_decide (length <$> (t_done <$> c_ths e) = [3; 4]) | None => false end = true).
    { vm_compute. reflexivity. }
    destruct (exec _ _ _) as [e|]; [|done]. exists e. split; [done|]. by apply bool_decide_eq_true_1 in H.
Qed.
