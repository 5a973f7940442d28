(** An infinite execution from a finite one that ends with every goroutine done or
    waiting: from then on only time passes.  Used for examples. *)
From Verif.Proof Require Export LiveP.

Section rest.
  Context (uuid : nat -> string) (opts : list broker_option) (ls : list label).
  Definition rest_label (n : nat) : label := nth n ls (LTick 1).
  Fixpoint rest_conf (n : nat) : bconf :=
    match n with
    | 0 => broker_init uuid opts
    | S n => match bstep (rest_conf n) (rest_label n) with Some (cf, _) => cf | None => rest_conf n end
    end.
  Definition rest_events (n : nat) : list event :=
    match bstep (rest_conf n) (rest_label n) with Some (_, es) => es | None => [] end.
  Definition rest : trace := Trace rest_conf rest_label rest_events.

  (** goroutines that cannot go on: returned, or waiting in the loop of run for nothing *)
  Definition waits (b : bstate) (th : call * pc) : bool :=
    match th with
    | (_, PDone _) => true
    | (CRun ctx, PRunWait (Some e) (Some ctl)) =>
        negb (bool_decide (ctx ∈ bs_cancelled b)) && negb (bool_decide (e ∈ bs_closed b)) &&
        match default [] (bs_ctls b !! ctl) with [] => true | _ => false end
    | _ => false
    end.
  Definition settled (cf : bconf) : bool := forallb (waits (bc_st cf)) (bc_ths cf).

  Lemma settled_crashed cf : settled cf = true -> crashed cf = false.
  Proof.
    intros H. unfold settled in H. rewrite forallb_forall in H.
    destruct (crashed cf) eqn:E; [|done]. exfalso. apply crashed_iff in E as (i & c & x & Hi).
    assert (waits (bc_st cf) (c, PPanicked x) = true); [|by destruct c].
    apply H, elem_of_list_In. by eapply elem_of_list_lookup_2.
  Qed.
  Lemma settled_stuck cf k l : settled cf = true -> own k l = true -> bstep cf l = None.
  Proof.
    intros H Ho. unfold bstep. rewrite settled_crashed by done. unfold settled in H. rewrite forallb_forall in H.
    assert (Hth : forall j c p, bc_ths cf !! j = Some (c, p) -> waits (bc_st cf) (c, p) = true).
    { intros j c p Hj. apply H, elem_of_list_In. by eapply elem_of_list_lookup_2. }
    destruct l; try done.
    - destruct (bc_ths cf !! i) as [[c p]|] eqn:E; [|done]. apply Hth in E. clear Hth H Ho.
      destruct p; simpl in E; try (by destruct c); try (by destruct ch).
      destruct c; try done. destruct e as [e|]; [|done]. destruct ctl as [ctl|]; [|done].
        apply andb_true_iff in E as [[E1 E2]%andb_true_iff E3]. apply negb_true_iff in E1, E2.
        destruct ch; try done; simpl.
        * unfold ctx_done. by rewrite E1.
        * unfold chan_closed. by rewrite E2.
        * destruct (bs_ctls (bc_st cf) !! ctl) as [[|[? ?] ?]|]; done.
    - destruct (bc_ths cf !! i) as [[c p]|] eqn:E; [|done]. apply Hth in E. clear Hth H Ho.
      destruct c; try done. by destruct p.
  Qed.

  Context (cf : bconf) (es : list event) (R : bexec (broker_init uuid opts) ls = Some (cf, es)) (Hset : settled cf = true).
  Lemma label_in n l : ls !! n = Some l -> rest_label n = l.
  Proof. intros H. unfold rest_label. by apply nth_lookup_Some. Qed.
  Lemma upto_in n : n <= length ls -> bexec (broker_init uuid opts) (take n ls) = Some (rest_conf n, upto rest n).
  Proof.
    induction n as [|n IH]; intros Hn; [done|]. specialize (IH ltac:(lia)).
    destruct (lookup_lt_is_Some_2 ls n) as [l Hl]; [lia|]. rewrite (take_S_r _ _ _ Hl), bexec_app, IH.
    assert (Hst : exists cf' es', bstep (rest_conf n) l = Some (cf', es')).
    { pose proof R as R'. rewrite <- (take_drop_middle ls n l Hl), bexec_app, IH in R'. cbn [bexec] in R'.
      destruct (bstep (rest_conf n) l) as [[cf' es']|]; [eauto|done]. }
    destruct Hst as (cf' & es' & Hst). cbn [bexec rest_conf upto]. unfold rest_events. simpl. unfold rest_events.
    rewrite (label_in n l Hl), Hst. by rewrite app_nil_r.
  Qed.
  Definition later (z : Z) : bconf := BConf (set_now (bc_st cf) z) (bc_ths cf).
  Lemma conf_rest j : exists z, rest_conf (length ls + j) = later z /\ (Z.of_nat j <= elapsed (upto rest (length ls + j)))%Z.
  Proof.
    induction j as [|j (z & Hz & IH)].
    - rewrite Nat.add_0_r. pose proof (upto_in (length ls) ltac:(done)) as H. rewrite firstn_all, R in H. injection H as E1 E2.
      exists (bs_now (bc_st cf)). split; [|apply elapsed_nonneg]. rewrite <- E1. unfold later. by destruct cf as [[] ?].
    - rewrite Nat.add_succ_r. cbn [rest_conf upto]. simpl. unfold rest_events.
      assert (Hl : rest_label (length ls + j) = LTick 1) by (apply nth_overflow; lia).
      assert (Hc : crashed (later z) = false) by apply (settled_crashed _ Hset).
      rewrite Hl, Hz. unfold bstep. rewrite Hc. exists (z + 1)%Z. split; [done|].
      rewrite elapsed_app. change (elapsed [ETick 1]) with 1%Z. lia.
  Qed.
  Lemma rest_stuck n k l : length ls <= n -> own k l = true -> bstep (rest_conf n) l = None.
  Proof.
    intros Hn Ho. destruct (conf_rest (n - length ls)) as (z & Hz & _). replace (length ls + (n - length ls)) with n in Hz by lia.
    rewrite Hz. eapply settled_stuck; [|done]. done.
  Qed.
  Lemma rest_valid : valid uuid opts rest.
  Proof.
    split; [done|]. intros n. cbn [conf_at rest label_at events_at rest_conf]. unfold rest_events.
    assert (Hst : is_Some (bstep (rest_conf n) (rest_label n))).
    { destruct (decide (n < length ls)) as [Hlt|Hge].
      - destruct (lookup_lt_is_Some_2 ls n Hlt) as [l Hl]. rewrite (label_in _ _ Hl).
        pose proof R as R'. rewrite <- (take_drop_middle ls n l Hl), bexec_app, upto_in in R' by lia. cbn [bexec] in R'.
        destruct (bstep (rest_conf n) l) as [[cf' es']|]; [eauto|done].
      - destruct (conf_rest (n - length ls)) as (z & Hz & _). replace (length ls + (n - length ls)) with n in Hz by lia.
        assert (Hl : rest_label n = LTick 1) by (apply nth_overflow; lia).
        assert (Hc : crashed (later z) = false) by apply (settled_crashed _ Hset).
        rewrite Hl, Hz. unfold bstep. rewrite Hc. eauto. }
    destruct Hst as [[cf' es'] ->]. done.
  Qed.
  Lemma rest_fair : fair rest.
  Proof.
    intros k n. right. exists (length ls). intros m Hm (l & Ho & Hs). change (conf_at rest m) with (rest_conf m) in Hs.
    rewrite (rest_stuck m k l Hm Ho) in Hs. by destruct Hs.
  Qed.
  Lemma rest_select : select_fair rest.
  Proof.
    intros k ch n _. right. exists (length ls). intros m Hm. change (conf_at rest m) with (rest_conf m).
    apply (rest_stuck m k); [done|]. simpl. apply Nat.eqb_refl.
  Qed.
  Lemma rest_time : time_passes rest.
  Proof.
    intros t. destruct (conf_rest (Z.to_nat t)) as (z & _ & H). exists (length ls + Z.to_nat t). lia.
  Qed.
  Lemma rest_upto n e : length ls <= n -> e ∈ upto rest n -> e ∈ es \/ e = ETick 1.
  Proof.
    induction 1 as [|n Hn IH].
    - pose proof (upto_in (length ls) ltac:(done)) as H. rewrite firstn_all, R in H. injection H as _ <-. by left.
    - cbn [upto]. intros [H|H]%elem_of_app; [auto|]. revert H. simpl. unfold rest_events.
      destruct (conf_rest (n - length ls)) as (z & Hz & _). replace (length ls + (n - length ls)) with n in Hz by lia.
      assert (Hl : rest_label n = LTick 1) by (apply nth_overflow; lia).
      assert (Hc : crashed (later z) = false) by apply (settled_crashed _ Hset).
      rewrite Hl, Hz. unfold bstep. rewrite Hc. intros [->|?%elem_of_nil]%elem_of_cons; [by right|done].
  Qed.
  Lemma rest_all n e : e ∈ upto rest n -> e ∈ es \/ e = ETick 1.
  Proof. intros H. apply (rest_upto (n `max` length ls)); [lia|]. eapply upto_mono; [|exact H]. lia. Qed.
  Lemma rest_has e : e ∈ es -> e ∈ upto rest (length ls).
  Proof. pose proof (upto_in (length ls) ltac:(done)) as H. rewrite firstn_all, R in H. injection H as _ <-. done. Qed.
  Lemma rest_lone : lone_open es -> forall n, lone_open (upto rest n).
  Proof. intros H n i j c c' [Hi|?]%rest_all [Hj|?]%rest_all; try done. eauto. Qed.
End rest.
