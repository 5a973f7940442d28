(** Counting calls: a concurrent store that is asked for fewer Adds than there are
    node ids never runs out of ids. *)
From Verif.Model Require Import Conc.
From Verif.Spec Require Import LinSpec GraphSpec StoreSpec.
From Verif.Proof Require Import GonumP GraphP GraphP2 StoreP LinP ConcP.

(** ** id capacity of all store calls *)
Definition adds (op : sop) : nat :=
  match op with SAdd _ _ => 1 | SBulkAdd es _ => length es | _ => 0 end.
Lemma store_link_no_slot dir w s u v opts :
  tidy dir (s_g s) -> (store_link w s u v opts).1 <> Panic PNoSlot.
Proof.
  intros Ht. unfold store_link.
  assert (Hp : (wg_link w (s_g s) u v [graph_with_attrs (so_attrs (apply_opts store_opts_zero opts))]).1 <> Panic PNoSlot).
  { rewrite (wg_link_cases dir) by (by apply reach_base, tidy_reach).
    assert (Hp : forall n m l, (link_commit w (s_g s) n m l).1 <> Panic PNoSlot).
    { intros n m l. unfold link_commit. destruct (new_edge _ _ _ _) as [e w1]. unfold b_set_edge.
      by case_bool_decide. }
    destruct (wg_node_total (s_g s) u) as [[a Ha]|Ha]; rewrite Ha; [|done].
    destruct (wg_node_total (s_g s) v) as [[b Hb]|Hb]; rewrite Hb; [|done].
    by destruct (wg_edge (s_g s) u v). }
  destruct (wg_link _ _ _ _ _) as [r [w1 g1]]. cbn in *. destruct r; cbn; try done.
  - case_bool_decide; congruence.
  - congruence.
Qed.
Lemma store_link_cap dir k w s u v opts :
  tidy dir (s_g s) -> cap k (s_g s) -> cap k (s_g (store_link w s u v opts).2.2).
Proof.
  intros Ht Hc. unfold store_link.
  pose proof (cap_link dir k w (s_g s) u v [graph_with_attrs (so_attrs (apply_opts store_opts_zero opts))] Ht Hc) as H.
  by destruct (wg_link _ _ _ _ _) as [r [w1 g1]].
Qed.
Lemma store_delete_cap dir k s u : tidy dir (s_g s) -> cap k (s_g s) ->
  (store_delete s u).1 = Ok () /\ cap k (s_g (store_delete s u).2).
Proof.
  intros Ht Hc. unfold store_delete. pose proof (cap_remove dir k _ u Ht Hc) as H.
  unfold wg_remove_node in *. by destruct (g_nodes (s_g s) !! uid_string u).
Qed.
Lemma store_unlink_cap dir k s u v : tidy dir (s_g s) -> cap k (s_g s) ->
  (store_unlink s u v).1 = Ok () /\ cap k (s_g (store_unlink s u v).2).
Proof.
  intros Ht Hc. unfold store_unlink. pose proof (cap_unlink dir k _ u v Ht Hc) as H.
  unfold wg_unlink in *.
  by destruct (g_nodes (s_g s) !! uid_string u), (g_nodes (s_g s) !! uid_string v).
Qed.
Lemma bulk_add_cap dir o st opts es : forall k w s,
  tidy dir (s_g s) -> cap k (s_g s) -> (k + Z.of_nat (length es) <= max_int64)%Z ->
  (store_bulk_add o st w s es opts).1 <> Panic PNoSlot /\
  cap (k + Z.of_nat (length es)) (s_g (store_bulk_add o st w s es opts).2.2).
Proof.
  induction es as [|e es IH]; intros k w s Ht Hc Hk; cbn [store_bulk_add length].
  - split; [done|]. by rewrite Z.add_0_r.
  - pose proof (store_add_tidy dir o (st ++ [length es]) w s e opts Ht) as Ht'.
    destruct (store_add o (st ++ [length es]) w s e opts) as [r [w1 s1]] eqn:E. cbn [snd] in Ht'.
    destruct (cap_add dir k _ _ _ _ _ _ _ _ Ht Hc ltac:(cbn [length] in Hk; lia) E) as [Hr Hc1]. cbn [snd] in Hc1.
    cbn [length] in Hk. destruct r as [?|x|p]; cbn [fst snd].
    + replace (k + Z.of_nat (S (length es)))%Z with (k + 1 + Z.of_nat (length es))%Z by lia. apply IH; auto. lia.
    + split; [done|]. eapply cap_mono; [|exact Hc1]. lia.
    + split; [done|]. eapply cap_mono; [|exact Hc1]. lia.
Qed.
Lemma bulk_delete_cap dir k us : forall s, tidy dir (s_g s) -> cap k (s_g s) ->
  (store_bulk_delete s us).1 = Ok () /\ cap k (s_g (store_bulk_delete s us).2).
Proof.
  induction us as [|u us IH]; intros s Ht Hc; cbn [store_bulk_delete]; [done|].
  pose proof (store_delete_tidy dir s u Ht) as Ht'. destruct (store_delete_cap dir k s u Ht Hc) as [E Hc'].
  destruct (store_delete s u) as [r s1]. cbn in *. subst r. auto.
Qed.
Lemma bulk_unlink_cap dir k u vs : forall s, tidy dir (s_g s) -> cap k (s_g s) ->
  (store_bulk_unlink s u vs).1 = Ok () /\ cap k (s_g (store_bulk_unlink s u vs).2).
Proof.
  induction vs as [|v vs IH]; intros s Ht Hc; cbn [store_bulk_unlink]; [done|].
  pose proof (store_unlink_tidy dir s u v Ht) as Ht'. destruct (store_unlink_cap dir k s u v Ht Hc) as [E Hc'].
  destruct (store_unlink s u v) as [r s1]. cbn in *. subst r. auto.
Qed.
Lemma bulk_link_cap dir k u opts vs : forall w s, tidy dir (s_g s) -> cap k (s_g s) ->
  (store_bulk_link w s u vs opts).1 <> Panic PNoSlot /\ cap k (s_g (store_bulk_link w s u vs opts).2.2).
Proof.
  induction vs as [|v vs IH]; intros w s Ht Hc; cbn [store_bulk_link]; [done|].
  pose proof (store_link_tidy dir w s u v opts Ht) as Ht'.
  pose proof (store_link_no_slot dir w s u v opts Ht) as Hn.
  pose proof (store_link_cap dir k w s u v opts Ht Hc) as Hc'.
  destruct (store_link w s u v opts) as [[?|x|p] [w1 s1]]; cbn in *; auto.
Qed.
Lemma sstep_cap dir k o st x op :
  tidy dir (s_g x.2) -> cap k (s_g x.2) -> (k + Z.of_nat (adds op) <= max_int64)%Z ->
  ~ sfatal (sstep o st x op).1 /\ cap (k + Z.of_nat (adds op)) (s_g (sstep o st x op).2.2).
Proof.
  destruct x as [w s]. intros Ht Hc Hk. cbn [snd] in *. unfold sfatal.
  destruct op as [e opts|u|u|u v opts|u v|es opts|us|us|u vs opts|u vs]; cbn [sstep adds] in *;
    rewrite ?Z.add_0_r.
  - destruct (store_add o st w s e opts) as [r x] eqn:E.
    destruct (cap_add dir k _ _ _ _ _ _ _ _ Ht Hc ltac:(lia) E) as [Hr Hc1]. cbn. split; [congruence|done].
  - split; [done|exact Hc].
  - destruct (store_delete_cap dir k s u Ht Hc) as [E Hc']. destruct (store_delete s u) as [r s1]. cbn in *.
    subst r. split; [done|exact Hc'].
  - pose proof (store_link_no_slot dir w s u v opts Ht) as Hn.
    pose proof (store_link_cap dir k w s u v opts Ht Hc) as Hc'.
    destruct (store_link w s u v opts) as [r x]. cbn in *. split; [congruence|done].
  - destruct (store_unlink_cap dir k s u v Ht Hc) as [E Hc']. destruct (store_unlink s u v) as [r s1]. cbn in *.
    subst r. split; [done|exact Hc'].
  - destruct (bulk_add_cap dir o st opts es k w s Ht Hc Hk) as [Hn Hc'].
    destruct (store_bulk_add o st w s es opts) as [r x]. cbn in *. split; [congruence|done].
  - split; [done|exact Hc].
  - destruct (bulk_delete_cap dir k us s Ht Hc) as [E Hc']. destruct (store_bulk_delete s us) as [r s1]. cbn in *.
    subst r. split; [done|exact Hc'].
  - destruct (bulk_link_cap dir k u opts vs w s Ht Hc) as [E Hc'].
    destruct (store_bulk_link w s u vs opts) as [r x]. cbn in *. split; [congruence|done].
  - destruct (bulk_unlink_cap dir k u vs s Ht Hc) as [E Hc']. destruct (store_bulk_unlink s u vs) as [r s1]. cbn in *.
    subst r. split; [done|exact Hc'].
Qed.

(** ** the calls of a log are calls that were asked for *)
Section count.
  Context {S R Op : Type} (impl : Op -> prog S R) (cost : Op -> nat).
  Definition sumc (l : list Op) : nat := total cost l.
  Lemma sumc_app l1 l2 : sumc (l1 ++ l2) = sumc l1 + sumc l2.
  Proof. unfold sumc. induction l1; cbn; lia. Qed.
  Definition th_ops (t : thread S R Op) : list Op :=
    (t_done t).*1 ++ match t_cur t with Some (op, _) => [op] | None => [] end ++ t_todo t.
  Lemma ops_step c c' i : conf_step impl c i = Some c' -> th_ops <$> c_ths c' = th_ops <$> c_ths c.
  Proof.
    unfold conf_step. destruct (c_ths c !! i) as [t|] eqn:Et; [|discriminate].
    destruct (thread_step impl (c_sh c) (c_mu c) t) as [[[s' mu'] t']|] eqn:Es; [|discriminate].
    intros [= <-]. cbn. rewrite list_fmap_insert.
    replace (th_ops t') with (th_ops t).
    { apply list_insert_id. by rewrite list_lookup_fmap, Et. }
    unfold thread_step in Es. unfold th_ops. destruct (t_cur t) as [[op p]|].
    - destruct p; [injection Es as <- <- <-; cbn; by rewrite fmap_app, <- app_assoc|..];
        destruct (prog_step _ _ _) as [[[? ?] ?]|]; try discriminate; by injection Es as <- <- <-.
    - destruct (t_todo t); [discriminate|]. by injection Es as <- <- <-.
  Qed.
  Lemma ops_exec c sched c' : exec impl c sched = Some c' -> th_ops <$> c_ths c' = th_ops <$> c_ths c.
  Proof.
    revert c. induction sched as [|i sched IH]; intros c E; cbn in E; [by injection E as <-|].
    destruct (conf_step impl c i) as [c1|] eqn:Es; [|discriminate].
    rewrite (IH _ E). by eapply ops_step.
  Qed.
  Lemma ops_reach s0 todo c : reachable impl s0 todo c -> th_ops <$> c_ths c = todo.
  Proof.
    intros [sched E]. rewrite (ops_exec _ _ _ E). cbn. rewrite <- list_fmap_compose.
    unfold compose, th_ops. cbn. clear E. induction todo as [|a todo IH]; cbn; [done|]. by f_equal.
  Qed.
  Notation event := (nat * Op * R)%type.
  Definition log_cost (l : list event) : nat := total (fun e => cost e.1.2) l.
  Lemma total_seq_zero (f : nat -> nat) n k : (forall i, i < k + n -> f i = 0) -> total f (seq k n) = 0.
  Proof. revert k. induction n as [|n IH]; intros k H; cbn; [done|]. rewrite H by lia. apply IH. intros. apply H. lia. Qed.
  Lemma log_cost_split n (log : list event) :
    (forall i, n <= i -> calls_of i log = []) ->
    log_cost log = total (fun i => sumc (calls_of i log).*1) (seq 0 n).
  Proof.
    induction log as [|[[j op] r] log IH]; intros H.
    - cbn. symmetry. apply total_seq_zero. done.
    - assert (Hj : j < n).
      { destruct (decide (j < n)); [done|]. specialize (H j ltac:(lia)). cbn in H. by rewrite Nat.eqb_refl in H. }
      assert (H' : forall i, n <= i -> calls_of i log = []).
      { intros i Hi. specialize (H i Hi). cbn in H. by destruct (Nat.eqb_spec j i); [lia|]. }
      cbn [log_cost total fst snd]. change (total (fun e : event => cost e.1.2) log) with (log_cost log).
      rewrite (IH H'). clear IH H H'.
      assert (G : forall k, total (fun i => sumc (calls_of i ((j, op, r) :: log)).*1) (seq k n) =
                  total (fun i => sumc (calls_of i log).*1) (seq k n) + (if (bool_decide (k <= j < k + n)) then cost op else 0)).
      { clear Hj. induction n as [|n IH]; intros k; cbn [seq total].
        - by rewrite bool_decide_false by lia.
        - rewrite IH. cbn [calls_of]. destruct (Nat.eqb_spec j k) as [-> |N].
          + rewrite fmap_cons. cbn [fst]. change (sumc (op :: (calls_of k log).*1)) with (cost op + sumc (calls_of k log).*1).
            rewrite bool_decide_false by lia. rewrite bool_decide_true by lia. lia.
          + destruct (decide (1 + k <= j < 1 + k + n)).
            * rewrite !bool_decide_true by lia. lia.
            * rewrite !bool_decide_false by lia. lia. }
      rewrite G. rewrite bool_decide_true by lia. lia.
  Qed.
  Lemma total_seq_le {X} (f : nat -> nat) (g : X -> nat) (l : list X) k :
    (forall i x, l !! i = Some x -> f (k + i) <= g x) -> total f (seq k (length l)) <= total g l.
  Proof.
    revert k. induction l as [|x l IH]; intros k H; cbn; [lia|].
    pose proof (H 0 x eq_refl) as H0. rewrite Nat.add_0_r in H0.
    assert (total f (seq (1 + k) (length l)) <= total g l).
    { apply IH. intros i y E. specialize (H (Datatypes.S i) y E). by replace (1 + k + i) with (k + Datatypes.S i) by lia. }
    cbn in *. lia.
  Qed.
End count.

Lemma inv_log_cost {S R Op} (impl : Op -> prog S R) call fatal (cost : Op -> nat) s0 todo c log phs :
  inv impl call fatal s0 log c phs -> reachable impl s0 todo c ->
  log_cost cost log <= total (sumc cost) todo.
Proof.
  intros I Hr. pose proof (ops_reach _ _ _ _ Hr) as Ho.
  rewrite (log_cost_split _ (length (c_ths c))) by (apply (i_out _ _ _ _ _ _ _ I)).
  assert (El : length (c_ths c) = length todo) by (rewrite <- Ho; by rewrite fmap_length).
  rewrite El. apply total_seq_le. intros i l E. cbn.
  rewrite <- Ho, list_lookup_fmap in E. destruct (c_ths c !! i) as [t|] eqn:Et; [|discriminate].
  injection E as <-. pose proof (lookup_lt_Some _ _ _ Et) as Lt. rewrite <- (i_len _ _ _ _ _ _ _ I) in Lt.
  apply lookup_lt_is_Some in Lt as [ph Ep]. destruct (i_ths _ _ _ _ _ _ _ I _ _ _ Et Ep) as [_ ->].
  unfold th_ops. rewrite fmap_app, !sumc_app. unfold pend, cur_res.
  destruct ph; cbn; try lia; destruct (t_cur t) as [[op p]|]; cbn; lia.
Qed.

(** ** no concurrent store call panics for want of an id *)
Lemma legal_cap dir o (log : list (nat * stcall * sret)) : forall k s0 s',
  legal (store_call o) s0 log s' -> tidy dir (s_g s0.2) -> cap k (s_g s0.2) ->
  (k + Z.of_nat (log_cost (fun c => adds c.2) log) <= max_int64)%Z ->
  Forall (fun e => ~ sfatal e.2) log.
Proof.
  induction log as [|[[i [st op]] r] log IH]; intros k s0 s' L Ht Hc Hk; [constructor|].
  inversion L as [|? ? ? ? s1 ? ? E L']; subst. cbn [log_cost total fst snd] in Hk.
  change (total (fun e : nat * stcall * sret => adds e.1.2.2) log) with (log_cost (fun c : stcall => adds c.2) log) in Hk.
  unfold store_call in E. cbn [fst snd] in E.
  destruct (sstep_cap dir k o st s0 op Ht Hc ltac:(lia)) as [Hn Hc'].
  pose proof (sstep_tidy dir o st s0 op Ht) as Ht'. rewrite E in *. cbn [fst snd] in *.
  constructor; [done|]. eapply (IH _ s1); eauto. lia.
Qed.
Lemma store_not_fatal dir o s0 todo c k :
  reachable (store_prog o) s0 todo c -> tidy dir (s_g s0.2) -> cap k (s_g s0.2) ->
  (k + Z.of_nat (total (sumc (fun c : stcall => adds c.2)) todo) <= max_int64)%Z ->
  ~ returned sfatal c.
Proof.
  intros Hr Ht Hc Hk (t & Hin & H).
  destruct (inv_reach _ _ _ (store_sections o) _ _ _ Hr) as (log & phs & I).
  pose proof (inv_log_cost _ _ _ (fun c : stcall => adds c.2) _ _ _ _ _ I Hr) as Hcost.
  destruct (i_legal _ _ _ _ _ _ _ I) as (s' & L & _).
  pose proof (legal_cap dir o log k _ _ L Ht Hc ltac:(lia)) as Hall.
  apply elem_of_list_lookup in Hin as [i Et].
  assert (HH : forall op r, (op, r) ∈ calls_of i log -> ~ sfatal r).
  { clear -Hall. induction log as [|[[j op1] r1] log IH]; intros op r; cbn; [inversion 1|].
    inversion Hall; subst. destruct (Nat.eqb j i); [|by apply IH].
    rewrite elem_of_cons. intros [[= -> ->]|Hx]; [done|]. by eapply IH. }
  pose proof (lookup_lt_Some _ _ _ Et) as Lt. rewrite <- (i_len _ _ _ _ _ _ _ I) in Lt.
  apply lookup_lt_is_Some in Lt as [ph Ep]. destruct (i_ths _ _ _ _ _ _ _ I _ _ _ Et Ep) as [O E].
  destruct H as [(op & r & Hd & F)|(op & r & Hcur & F)].
  - apply (HH op r); [|done]. rewrite E, elem_of_app. auto.
  - apply (HH op r); [|done]. rewrite E, elem_of_app. right. unfold pend, cur_res. rewrite Hcur.
    destruct ph; cbn in O.
    + destruct O as [O|[op1 O]]; [congruence|]. rewrite Hcur in O. injection O as <- O.
      destruct (store_sections o op) as [(b & Eb & _)|(b & Eb & _)]; rewrite Eb in O; discriminate.
    + destruct O as (op1 & b & O & _). congruence.
    + cbn. left.
    + cbn. left.
    + cbn. left.
Qed.

(** ** concurrent store calls, against the abstract map *)
Lemma store_log_not_fatal dir o s0 todo sched c k :
  exec (store_prog o) (conf_init s0 todo) sched = Some c -> quiet c ->
  tidy dir (s_g s0.2) -> cap k (s_g s0.2) ->
  (k + Z.of_nat (total (sumc (fun c : stcall => adds c.2)) todo) <= max_int64)%Z ->
  exists log, legal (store_call o) s0 log (c_sh c) /\ Forall (fun e => ~ sfatal e.2) log /\
    (forall i t, c_ths c !! i = Some t -> calls_of i log = t_done t) /\
    (forall i, length (c_ths c) <= i -> calls_of i log = []).
Proof.
  intros E Q Ht Hc Hk.
  destruct (inv_reach _ _ _ (store_sections o) s0 todo c) as (log & phs & I); [by exists sched|].
  pose proof (inv_log_cost _ _ _ (fun c : stcall => adds c.2) _ todo _ _ _ I ltac:(by exists sched)) as Hcost.
  destruct (i_legal _ _ _ _ _ _ _ I) as (s' & L & LZ & _).
  exists log.
  assert (P : forall i t ph, c_ths c !! i = Some t -> phs !! i = Some ph -> ph = Idle).
  { intros i t ph Et Ep. pose proof (Forall_lookup_1 _ _ _ _ Q Et) as Ec.
    destruct (i_ths _ _ _ _ _ _ _ I _ _ _ Et Ep) as [O _]. destruct ph; cbn in O; [done|..];
      [destruct O as (?&?&?&_)|destruct O as (?&?&?&_)|destruct O as (?&?&?&_)|destruct O as (?&?&?)]; congruence. }
  assert (Zw : total is_wr phs = 0).
  { destruct (Nat.eq_0_gt_0_cases (total is_wr phs)) as [|Pt]; auto.
    destruct (total_pos _ _ Pt) as (i & ph & Ep & Hp).
    destruct (inv_th _ _ _ _ _ _ _ _ _ I Ep) as [t Et]. rewrite (P _ _ _ Et Ep) in Hp. cbn in Hp. lia. }
  split_and!.
  - by rewrite (LZ Zw).
  - eapply legal_cap; eauto. lia.
  - intros i t Et. destruct (inv_ph _ _ _ _ _ _ _ _ _ I Et) as [ph Ep].
    destruct (i_ths _ _ _ _ _ _ _ I _ _ _ Et Ep) as [_ ->]. rewrite (P _ _ _ Et Ep). cbn. by rewrite app_nil_r.
  - apply (i_out _ _ _ _ _ _ _ I).
Qed.
Lemma legal_abstract dir o (log : list (nat * stcall * sret)) : forall x a x',
  legal (store_call o) x log x' -> Forall (fun e => ~ sfatal e.2) log ->
  Forall (fun e : nat * stcall * sret => exists k, e.1.2.2 = scall_op k) log ->
  tidy dir (s_g x.2) -> shows (s_g x.2) a ->
  exists ks, (fun e : nat * stcall * sret => e.1.2.2) <$> log = scall_op <$> ks /\
    Forall2 ret_shows log.*2 (aresults dir a ks).1 /\
    shows (s_g x'.2) (aresults dir a ks).2 /\ tidy dir (s_g x'.2).
Proof.
  induction log as [|[[i [st op]] r] log IH]; intros x a x' L NF K Ht Hs.
  - inversion L; subst. exists []. split_and!; [done|cbn; constructor|done|done].
  - inversion L as [|? ? ? ? x1 ? ? E L']; subst. inversion NF as [|? ? NF1 NF2]; subst. inversion K as [|? ? K1 K2]; subst.
    cbn [fst snd] in *. destruct K1 as [k ->]. unfold store_call in E. cbn [fst snd] in E. destruct x as [w s].
    destruct (astep dir a k) as [r' a'] eqn:Ea.
    destruct (sim_step dir _ _ _ _ _ _ _ _ _ _ Ht Hs E Ea) as [(Hr & Hs' & Ht' & _)|(_ & -> & _)].
    2:{ by destruct NF1. }
    destruct (IH _ _ _ L' NF2 K2 Ht' Hs') as (ks & E1 & F & Hf & Htf).
    exists (k :: ks). rewrite !fmap_cons. cbn [aresults fst snd]. rewrite Ea.
    destruct (aresults dir a' ks) as [rs a2]. cbn [fst snd] in *. split_and!; auto.
    by rewrite E1.
Qed.
Lemma calls_of_elem {Op R} i (log : list (nat * Op * R)) op r : (op, r) ∈ calls_of i log <-> (i, op, r) ∈ log.
Proof.
  induction log as [|[[j op1] r1] log IH]; cbn; [by rewrite !elem_of_nil|].
  destruct (Nat.eqb_spec j i) as [-> |N]; rewrite !elem_of_cons, IH.
  - split; (intros [H|H]; [left; congruence|auto]).
  - split; [auto|]. intros [H|H]; [congruence|auto].
Qed.
