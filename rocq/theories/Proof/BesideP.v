(** Store calls and direct calls on the graph of the store, side by side. *)
From Verif.Model Require Import Conc Beside.
From Verif.Spec Require Import LinSpec ConcSpec.
From Verif.Proof Require Import LinP MutexP ConcP GraphLockP.

(** ** how a step changes the hold of a mutex *)
Definition nxt {S R} (m : nat) (h : hold) (p : prog S R) : hold :=
  match p with
  | RLock m' _ => if Nat.eqb m m' then match h with HR n => HR (1 + n) | _ => h end else h
  | RUnlock m' _ => if Nat.eqb m m' then match h with HR (Datatypes.S n) => HR n | _ => h end else h
  | Lock m' _ => if Nat.eqb m m' then HA else h
  | LockWait m' _ => if Nat.eqb m m' then HW else h
  | Unlock m' _ => if Nat.eqb m m' then HR 0 else h
  | _ => h
  end.
Definition fits {S R} (m : nat) (h : hold) (p : prog S R) : Prop :=
  match p with
  | RLock m' _ => m = m' -> exists n, h = HR n
  | RUnlock m' _ => m = m' -> exists n, h = HR (1 + n)
  | Lock m' _ => m = m' -> h = HR 0
  | LockWait m' _ => m = m' -> h = HA
  | Unlock m' _ => m = m' -> h = HW
  | _ => True
  end.
Lemma hmu_step {S R} m hs i h s mu (p : prog S R) s' mu' p' :
  hmu (mu m) hs -> hs !! i = Some h -> fits m h p -> prog_step s mu p = Some (s', mu', p') ->
  hmu (mu' m) (<[i := nxt m h p]> hs).
Proof.
  intros M Eh F E.
  assert (K : <[i := h]> hs = hs) by (now apply list_insert_id).
  assert (TI : forall f h', total f (<[i:=h']> hs) + f h = total f hs + f h').
  { intros. now apply total_insert. }
  destruct p as [r|u k|m' k|m' k|m' k|m' k|m' k]; cbn [prog_step nxt fits] in *; [discriminate|..].
  - injection E as <- <- <-. now rewrite K.
  - destruct (m_ann (mu m')) eqn:EA; [discriminate|]. injection E as <- <- <-.
    destruct (Nat.eqb_spec m m') as [<-|N]; [|rewrite mu_set_other, K by auto; auto].
    destruct (F eq_refl) as [n ->]. destruct M as [Mr Mw Ma M1 Mx]. rewrite mu_set_same.
    pose proof (TI h_rd (HR (1 + n))) as T1. pose proof (TI h_ann (HR (1 + n))) as T2.
    pose proof (TI h_wr (HR (1 + n))) as T3. cbn [h_rd h_ann h_wr] in T1, T2, T3.
    pose proof Ma as Ma'. rewrite EA in Ma'. symmetry in Ma'. apply Nat.ltb_ge in Ma'.
    constructor; cbn [m_rd m_wr m_ann]; try lia.
    + rewrite Mw. f_equal. lia.
    + rewrite ltb_false by lia. auto.
  - destruct (m_rd (mu m')) as [|q] eqn:EA; [discriminate|]. injection E as <- <- <-.
    destruct (Nat.eqb_spec m m') as [<-|N]; [|rewrite mu_set_other, K by auto; auto].
    destruct (F eq_refl) as [n ->]. destruct M as [Mr Mw Ma M1 Mx]. rewrite mu_set_same. cbn [Nat.add].
    pose proof (TI h_rd (HR n)) as T1. pose proof (TI h_ann (HR n)) as T2.
    pose proof (TI h_wr (HR n)) as T3. cbn [h_rd h_ann h_wr] in T1, T2, T3.
    constructor; cbn [m_rd m_wr m_ann]; try lia.
    + rewrite Mw. f_equal. lia.
    + rewrite Ma. f_equal. lia.
  - destruct (m_ann (mu m')) eqn:EA; [discriminate|]. injection E as <- <- <-.
    destruct (Nat.eqb_spec m m') as [<-|N]; [|rewrite mu_set_other, K by auto; auto].
    rewrite (F eq_refl) in *. destruct M as [Mr Mw Ma M1 Mx]. rewrite mu_set_same.
    pose proof (TI h_rd HA) as T1. pose proof (TI h_ann HA) as T2.
    pose proof (TI h_wr HA) as T3. cbn [h_rd h_ann h_wr] in T1, T2, T3.
    pose proof Ma as Ma'. rewrite EA in Ma'. symmetry in Ma'. apply Nat.ltb_ge in Ma'.
    constructor; cbn [m_rd m_wr m_ann]; try lia.
    + rewrite Mw. f_equal. lia.
    + rewrite ltb_true by lia. auto.
  - destruct (m_rd (mu m')) as [|q] eqn:EA; [|discriminate]. injection E as <- <- <-.
    destruct (Nat.eqb_spec m m') as [<-|N]; [|rewrite mu_set_other, K by auto; auto].
    rewrite (F eq_refl) in *. destruct M as [Mr Mw Ma M1 Mx]. rewrite mu_set_same.
    pose proof (total_ge h_ann _ _ _ Eh) as Ga. cbn in Ga.
    pose proof (TI h_rd HW) as T1. pose proof (TI h_ann HW) as T2.
    pose proof (TI h_wr HW) as T3. cbn [h_rd h_ann h_wr] in T1, T2, T3.
    constructor; cbn [m_rd m_wr m_ann]; try lia.
    + rewrite ltb_true by lia. auto.
    + rewrite Ma. f_equal. lia.
  - destruct (m_wr (mu m')) eqn:EA; [|discriminate]. injection E as <- <- <-.
    destruct (Nat.eqb_spec m m') as [<-|N]; [|rewrite mu_set_other, K by auto; auto].
    rewrite (F eq_refl) in *. destruct M as [Mr Mw Ma M1 Mx]. rewrite mu_set_same.
    pose proof (total_ge h_wr _ _ _ Eh) as Gw. cbn in Gw.
    pose proof (TI h_rd (HR 0)) as T1. pose proof (TI h_ann (HR 0)) as T2.
    pose proof (TI h_wr (HR 0)) as T3. cbn [h_rd h_ann h_wr] in T1, T2, T3.
    constructor; cbn [m_rd m_wr m_ann]; try lia.
    + rewrite ltb_false by lia. auto.
    + rewrite ltb_false by lia. auto.
Qed.

(** ** the discipline *)
(** [two fatal a h p]: with hold a of the store's mutex and h of the graph's, p
    - takes the store's mutex once and only while it holds neither,
    - asks for the graph's write lock only under the store's write lock,
    - reads under a lock of the graph and writes under its write lock,
    - nests read locks of the graph only under a lock of the store. *)
Inductive two {R} (fatal : R -> Prop) : hold -> hold -> prog sstate R -> Prop :=
| t_ret a h r : (a = HR 0 /\ h = HR 0) \/ fatal r -> a <> HA -> h <> HA -> two fatal a h (Ret r)
| t_act a h u k : a <> HA -> h <> HA ->
    (h = HW \/ forall x, s_g (u x).2 = s_g x.2) ->
    (h <> HR 0 \/ forall w i g g', k (w, Store i g) = k (w, Store i g')) ->
    (forall s, two fatal a h (k s)) -> two fatal a h (Act u k)
| t_rlock0 k : two fatal (HR 1) (HR 0) k -> two fatal (HR 0) (HR 0) (RLock 0 k)
| t_runlock0 h k : h <> HA -> two fatal (HR 0) h k -> two fatal (HR 1) h (RUnlock 0 k)
| t_lock0 k : two fatal HA (HR 0) (LockWait 0 k) -> two fatal (HR 0) (HR 0) (Lock 0 k)
| t_wait0 k : two fatal HW (HR 0) k -> two fatal HA (HR 0) (LockWait 0 k)
| t_unlock0 h k : h <> HA -> two fatal (HR 0) h k -> two fatal HW h (Unlock 0 k)
| t_rlock1 a n k : a <> HA -> (a <> HR 0 \/ n = 0) -> two fatal a (HR (1 + n)) k -> two fatal a (HR n) (RLock 1 k)
| t_runlock1 a n k : a <> HA -> two fatal a (HR n) k -> two fatal a (HR (1 + n)) (RUnlock 1 k)
| t_lock1 k : two fatal HW HA (LockWait 1 k) -> two fatal HW (HR 0) (Lock 1 k)
| t_wait1 k : two fatal HW HW k -> two fatal HW HA (LockWait 1 k)
| t_unlock1 k : two fatal HW (HR 0) k -> two fatal HW HW (Unlock 1 k).
Lemma two_fits {R} (fatal : R -> Prop) a h p : two fatal a h p -> fits 0 a p /\ fits 1 h p.
Proof. intros []; cbn; split; try discriminate; eauto. Qed.
Lemma two_step {R} (fatal : R -> Prop) a h p s mu s' mu' p' :
  two fatal a h p -> prog_step s mu p = Some (s', mu', p') -> two fatal (nxt 0 a p) (nxt 1 h p) p'.
Proof.
  intros D E. destruct D; cbn [prog_step] in E; [discriminate|..]; cbn [nxt Nat.eqb Nat.add];
    repeat match type of E with context [match ?x with _ => _ end] => destruct x; try discriminate end;
    injection E as <- <- <-; auto.
Qed.

Section two.
  Context {R Op : Type} (impl : Op -> prog sstate R) (fatal : R -> Prop) (P : Op -> Prop).
  Context (twos : forall op, P op -> two fatal (HR 0) (HR 0) (impl op)).
  Definition tok (t : thread sstate R Op) (a h : hold) : Prop :=
    Forall P (t_todo t) /\
    match t_cur t with None => a = HR 0 /\ h = HR 0 | Some (_, p) => two fatal a h p end.
  Record tinv (c : conf sstate R Op) (la lh : list hold) : Prop := {
    ti_la : length la = length (c_ths c);
    ti_lh : length lh = length (c_ths c);
    ti_ths : forall i t a h, c_ths c !! i = Some t -> la !! i = Some a -> lh !! i = Some h -> tok t a h;
    ti_0 : hmu (c_mu c 0) la;
    ti_1 : hmu (c_mu c 1) lh;
  }.
  Definition tnxt (m : nat) (t : thread sstate R Op) (h : hold) : hold :=
    match t_cur t with None => h | Some (_, p) => nxt m h p end.
  Lemma tinv_get c la lh i t : tinv c la lh -> c_ths c !! i = Some t ->
    exists a h, la !! i = Some a /\ lh !! i = Some h /\ tok t a h.
  Proof.
    intros I Et. pose proof (lookup_lt_Some _ _ _ Et) as Lt.
    destruct (lookup_lt_is_Some_2 la i) as [a Ea]; [rewrite (ti_la _ _ _ I); auto|].
    destruct (lookup_lt_is_Some_2 lh i) as [h Eh]; [rewrite (ti_lh _ _ _ I); auto|].
    exists a, h. split; auto. split; auto. eapply ti_ths; eauto.
  Qed.
  Lemma tinv_upd c la lh i t t' a a' h h' s' mu' :
    tinv c la lh -> c_ths c !! i = Some t -> la !! i = Some a -> lh !! i = Some h ->
    tok t' a' h' -> hmu (mu' 0) (<[i := a']> la) -> hmu (mu' 1) (<[i := h']> lh) ->
    tinv (Conf s' mu' (<[i := t']> (c_ths c))) (<[i := a']> la) (<[i := h']> lh).
  Proof.
    intros [L1 L2 T _ _] Et Ea Eh O M0 M1. pose proof (lookup_lt_Some _ _ _ Et) as Lt.
    split; cbn; auto; rewrite ?insert_length; auto.
    intros j t1 a1 h1 E1 E2 E3. destruct (decide (i = j)) as [<-|N].
    - rewrite list_lookup_insert in E1 by auto. rewrite list_lookup_insert in E2 by lia. rewrite list_lookup_insert in E3 by lia. congruence.
    - rewrite list_lookup_insert_ne in E1 by auto. rewrite list_lookup_insert_ne in E2 by auto. rewrite list_lookup_insert_ne in E3 by auto. eauto.
  Qed.
  Lemma tinv_step c la lh i t a h c' :
    tinv c la lh -> c_ths c !! i = Some t -> la !! i = Some a -> lh !! i = Some h ->
    conf_step impl c i = Some c' ->
    (exists op r, t_cur t = Some (op, Ret r) /\ fatal r) \/
    tinv c' (<[i := tnxt 0 t a]> la) (<[i := tnxt 1 t h]> lh).
  Proof.
    intros I Et Ea Eh E. unfold conf_step in E. rewrite Et in E.
    destruct (thread_step impl (c_sh c) (c_mu c) t) as [[[s' mu'] t']|] eqn:Es; [|discriminate].
    injection E as <-. pose proof (ti_ths _ _ _ I _ _ _ _ Et Ea Eh) as [AP O]. unfold tnxt.
    destruct (t_cur t) as [[op p]|] eqn:Ec.
    2:{ destruct O as [-> ->]. right. unfold thread_step in Es. rewrite Ec in Es.
        destruct (t_todo t) as [|op ops] eqn:Etd; [discriminate|]. injection Es as <- <- <-.
        inversion AP; subst.
        eapply tinv_upd; eauto; [split; cbn; auto | rewrite list_insert_id by auto; apply I ..]. }
    destruct (match p with Ret r => Some r | _ => None end) as [r|] eqn:Er.
    { destruct p; try discriminate. unfold thread_step in Es. rewrite Ec in Es. injection Es as <- <- <-.
      inversion O as [? ? ? Q| | | | | | | | | | |]; subst. destruct Q as [[-> ->]|F]; [right|left; eauto].
      cbn [nxt]. eapply tinv_upd; eauto; [split; cbn; auto | rewrite list_insert_id by auto; apply I ..]. }
    rewrite (thread_step_prog _ _ _ _ _ _ Ec) in Es by (intros r ->; discriminate).
    destruct (prog_step (c_sh c) (c_mu c) p) as [[[s1 mu1] p1]|] eqn:Ep; [|discriminate].
    injection Es as <- <- <-. right. destruct (two_fits _ _ _ _ O) as [F0 F1].
    eapply tinv_upd; eauto.
    - split; cbn; auto. eapply two_step; eauto.
    - eapply hmu_step; eauto. apply I.
    - eapply hmu_step; eauto. apply I.
  Qed.
  Lemma tinv_init s0 todo : Forall (Forall P) todo ->
    tinv (conf_init s0 todo) (replicate (length todo) (HR 0)) (replicate (length todo) (HR 0)).
  Proof.
    intros AP. assert (Z : forall f, f (HR 0) = 0 -> total f (replicate (length todo) (HR 0)) = 0).
    { intros f E. clear AP. induction todo; cbn; auto. lia. }
    split; cbn; rewrite ?replicate_length, ?fmap_length; auto.
    - intros i t a h Et Ea Eh. apply lookup_replicate in Eh as [-> _]. apply lookup_replicate in Ea as [-> _].
      rewrite list_lookup_fmap in Et. destruct (todo !! i) eqn:Eo; [|discriminate]. injection Et as <-.
      split; [cbn; eapply Forall_lookup_1 in AP; eauto | split; reflexivity].
    - constructor; rewrite ?(Z h_rd), ?(Z h_wr), ?(Z h_ann) by auto; auto.
    - constructor; rewrite ?(Z h_rd), ?(Z h_wr), ?(Z h_ann) by auto; auto.
  Qed.

  (** somebody can always go on *)
  Lemma tinv_progress c la lh : tinv c la lh -> ~ finished c -> exists i, enabled impl c i.
  Proof.
    intros I NE.
    assert (TA : forall i a, la !! i = Some a -> exists t h, c_ths c !! i = Some t /\ lh !! i = Some h /\ tok t a h).
    { intros i a Ea. pose proof (lookup_lt_Some _ _ _ Ea) as Lt. rewrite (ti_la _ _ _ I) in Lt.
      apply lookup_lt_is_Some in Lt as [t Et]. destruct (tinv_get _ _ _ _ _ I Et) as (a1 & h & Ea1 & Eh & O).
      rewrite Ea in Ea1. injection Ea1 as <-. eauto. }
    assert (TH : forall i h, lh !! i = Some h -> exists t a, c_ths c !! i = Some t /\ la !! i = Some a /\ tok t a h).
    { intros i h Eh. pose proof (lookup_lt_Some _ _ _ Eh) as Lt. rewrite (ti_lh _ _ _ I) in Lt.
      apply lookup_lt_is_Some in Lt as [t Et]. destruct (tinv_get _ _ _ _ _ I Et) as (a & h1 & Ea & Eh1 & O).
      rewrite Eh in Eh1. injection Eh1 as <-. eauto. }
    destruct (ti_0 _ _ _ I) as [Ar Aw Aa A1 Ax]. destruct (ti_1 _ _ _ I) as [Mr Mw Ma M1 Mx].
    assert (RT : forall i t op r, c_ths c !! i = Some t -> t_cur t = Some (op, Ret r) -> enabled impl c i).
    { intros i t op r Et Ec. unfold enabled, conf_step, thread_step. rewrite Et, Ec. eauto. }
    (* the outer locks held are released without waiting *)
    assert (OU : forall i t a h op p k, la !! i = Some a -> c_ths c !! i = Some t -> t_cur t = Some (op, p) -> two fatal a h p ->
      p = Unlock 0 k \/ p = RUnlock 0 k -> enabled impl c i).
    { intros i t a h op p k Ea Et Ec O [-> | ->]; inversion O; subst.
      - pose proof (total_ge h_wr _ _ _ Ea) as G. cbn in G.
        eapply enabled_prog; [eauto|eauto|discriminate|]. cbn [prog_step]. rewrite Aw, ltb_true by lia. reflexivity.
      - pose proof (total_ge h_rd _ _ _ Ea) as G. cbn in G. destruct (total h_rd la) as [|m]; [lia|].
        eapply enabled_prog; [eauto|eauto|discriminate|]. cbn [prog_step]. rewrite Ar. reflexivity. }
    destruct (Nat.eq_0_gt_0_cases (total h_wr lh)) as [Zw|Pw].
    { destruct (Nat.eq_0_gt_0_cases (total h_rd lh)) as [Zr|Pr].
      - destruct (Nat.eq_0_gt_0_cases (total h_ann lh)) as [Za|Pa].
        + (* nobody uses the graph's mutex *)
          assert (H0 : forall i h, lh !! i = Some h -> h = HR 0).
          { intros i h Eh. pose proof (total_ge h_wr _ _ _ Eh). pose proof (total_ge h_rd _ _ _ Eh).
            pose proof (total_ge h_ann _ _ _ Eh). destruct h as [[|n]| |]; cbn in *; auto; lia. }
          assert (N1 : m_ann (c_mu c 1) = false) by (rewrite Ma; apply ltb_false; lia).
          destruct (Nat.eq_0_gt_0_cases (total h_wr la)) as [Yw|Qw].
          * destruct (Nat.eq_0_gt_0_cases (total h_rd la)) as [Yr|Qr].
            -- destruct (Nat.eq_0_gt_0_cases (total h_ann la)) as [Ya|Qa].
               ++ destruct (unfinished_thread _ NE) as (i & t & Et & NT). exists i.
                  destruct (tinv_get _ _ _ _ _ I Et) as (a & h & Ea & Eh & AP & O).
                  rewrite (H0 _ _ Eh) in O.
                  assert (a = HR 0) as ->.
                  { pose proof (total_ge h_wr _ _ _ Ea). pose proof (total_ge h_rd _ _ _ Ea).
                    pose proof (total_ge h_ann _ _ _ Ea). destruct a as [[|n]| |]; cbn in *; auto; lia. }
                  assert (N0 : m_ann (c_mu c 0) = false) by (rewrite Aa; apply ltb_false; lia).
                  destruct (t_cur t) as [[op p]|] eqn:Ec.
                  ** inversion O; subst; [eapply RT; eauto|..];
                       (eapply enabled_prog; [eauto|eauto|discriminate|]); cbn [prog_step]; rewrite ?N0, ?N1; reflexivity.
                  ** unfold enabled, conf_step, thread_step. rewrite Et, Ec.
                     destruct (t_todo t) as [|op ops] eqn:Etd; [destruct NT; split; auto|eauto].
               ++ destruct (total_pos _ _ Qa) as (i & a & Ea & Hp). destruct a; cbn in Hp; try lia.
                  destruct (TA _ _ Ea) as (t & h & Et & Eh & _ & O). exists i.
                  destruct (t_cur t) as [[op p]|] eqn:Ec; [|destruct O; discriminate].
                  inversion O; subst; try congruence.
                  eapply enabled_prog; [eauto|eauto|discriminate|]. cbn [prog_step]. rewrite Ar, Yr. reflexivity.
            -- destruct (total_pos _ _ Qr) as (i & a & Ea & Hp). destruct a as [[|n]| |]; cbn in Hp; try lia.
               destruct (TA _ _ Ea) as (t & h & Et & Eh & _ & O). exists i. rewrite (H0 _ _ Eh) in O.
               destruct (t_cur t) as [[op p]|] eqn:Ec; [|destruct O; discriminate].
               inversion O; subst; [eapply RT; eauto| |eapply OU; eauto|];
                 (eapply enabled_prog; [eauto|eauto|discriminate|]); cbn [prog_step]; rewrite ?N1; reflexivity.
          * destruct (total_pos _ _ Qw) as (i & a & Ea & Hp). destruct a; cbn in Hp; try lia.
            destruct (TA _ _ Ea) as (t & h & Et & Eh & _ & O). exists i. rewrite (H0 _ _ Eh) in O.
            destruct (t_cur t) as [[op p]|] eqn:Ec; [|destruct O; discriminate].
            inversion O; subst; [eapply RT; eauto| |eapply OU; eauto|..];
              (eapply enabled_prog; [eauto|eauto|discriminate|]); cbn [prog_step]; rewrite ?N1; reflexivity.
        + destruct (total_pos _ _ Pa) as (i & h & Eh & Hp). destruct h; cbn in Hp; try lia.
          destruct (TH _ _ Eh) as (t & a & Et & Ea & _ & O). exists i.
          destruct (t_cur t) as [[op p]|] eqn:Ec; [|destruct O; discriminate].
          inversion O; subst; try congruence.
          eapply enabled_prog; [eauto|eauto|discriminate|]. cbn [prog_step]. rewrite Mr, Zr. reflexivity.
      - destruct (total_pos _ _ Pr) as (i & h & Eh & Hp). destruct h as [[|n]| |]; cbn in Hp; try lia.
        destruct (TH _ _ Eh) as (t & a & Et & Ea & _ & O). exists i.
        destruct (t_cur t) as [[op p]|] eqn:Ec; [|destruct O; discriminate].
        assert (Hann : a <> HA -> a <> HR 0 -> m_ann (c_mu c 1) = false).
        { intros Na N0. rewrite Ma, Zw. apply ltb_false.
          destruct (Nat.eq_0_gt_0_cases (total h_ann lh)) as [Za|Pa]; [lia|].
          destruct (total_pos _ _ Pa) as (j & h & Ej & Hj). destruct h; cbn in Hj; try lia.
          destruct (TH _ _ Ej) as (t1 & a1 & Et1 & Ea1 & _ & O1).
          destruct (t_cur t1) as [[op1 p1]|]; [|destruct O1; discriminate].
          assert (a1 = HW) as -> by (inversion O1; subst; congruence).
          assert (i <> j) as Nij by congruence.
          pose proof (total_ge2 h_wr _ _ _ _ _ Nij Ea Ea1) as G. pose proof (total_ge h_wr _ _ _ Ea1) as G1. cbn in G1.
          pose proof (total_ge h_rd _ _ _ Ea) as G2. specialize (Ax ltac:(lia)).
          destruct a as [[|m]| |]; cbn in *; try congruence; lia. }
        destruct (total h_rd lh) as [|m]; [lia|].
        inversion O; subst; [eapply RT; eauto| |eapply OU; eauto|eapply OU; eauto| |];
          (eapply enabled_prog; [eauto|eauto|discriminate|]); cbn [prog_step]; rewrite ?Mr; try reflexivity.
        rewrite Hann; [reflexivity|auto|]. match goal with H : _ \/ _ = 0 |- _ => destruct H; congruence end. }
    destruct (total_pos _ _ Pw) as (i & h & Eh & Hp). destruct h; cbn in Hp; try lia.
    destruct (TH _ _ Eh) as (t & a & Et & Ea & _ & O). exists i.
    destruct (t_cur t) as [[op p]|] eqn:Ec; [|destruct O; discriminate].
    inversion O; subst; [eapply RT; eauto| |eapply OU; eauto|eapply OU; eauto|];
      (eapply enabled_prog; [eauto|eauto|discriminate|]); cbn [prog_step]; try reflexivity.
    rewrite Mw, ltb_true by auto. reflexivity.
  Qed.
  (** nobody accesses the graph beside somebody who changes it *)
  Lemma tinv_race c la lh : tinv c la lh -> ~ sgraph_race c.
  Proof.
    intros I (i & j & t1 & t2 & op1 & op2 & p1 & p2 & N & E1 & E2 & C1 & C2 & W1 & A2).
    destruct (tinv_get _ _ _ _ _ I E1) as (a1 & h1 & _ & Eh1 & _ & O1).
    destruct (tinv_get _ _ _ _ _ I E2) as (a2 & h2 & _ & Eh2 & _ & O2).
    rewrite C1 in O1. rewrite C2 in O2.
    destruct W1 as (u1 & k1 & x1 & -> & W1). inversion O1 as [|? ? ? ? _ _ Hw _ _| | | | | | | | | |]; subst.
    destruct Hw as [-> |Hw]; [|now rewrite Hw in W1].
    assert (Z : h2 = HR 0 \/ h2 = HA).
    { destruct (ti_1 _ _ _ I) as [_ _ _ M1 Mx].
      pose proof (total_ge h_wr _ _ _ Eh1) as G1. cbn in G1.
      pose proof (total_ge h_rd _ _ _ Eh2) as G2. pose proof (total_ge2 h_wr _ _ _ _ _ N Eh1 Eh2) as G3.
      destruct h2 as [[|n]| |]; cbn in *; auto; lia. }
    destruct A2 as [(u2 & k2 & x2 & -> & W2)|(u2 & k2 & w & n & g & g' & -> & R2)];
      inversion O2 as [|? ? ? ? _ Na Hw Hr _| | | | | | | | | |]; subst; (destruct Z as [-> |?]; [|contradiction]).
    - destruct Hw as [?|Hw]; [discriminate|now rewrite Hw in W2].
    - destruct Hr as [?|Hr]; [congruence|now rewrite (Hr w n g g') in R2].
  Qed.
End two.

(** ** the store calls *)
(** the body of a store call, wr: it may ask for the write lock of the graph *)
Inductive sd {A} (wr : bool) (Q : hold -> A -> Prop) : hold -> prog sstate A -> Prop :=
| s_ret h r : Q h r -> h <> HA -> sd wr Q h (Ret r)
| s_act h u k : h <> HA -> (h = HW \/ forall x, s_g (u x).2 = s_g x.2) ->
    (h <> HR 0 \/ forall w i g g', k (w, Store i g) = k (w, Store i g')) ->
    (forall s, sd wr Q h (k s)) -> sd wr Q h (Act u k)
| s_rlock n k : sd wr Q (HR (1 + n)) k -> sd wr Q (HR n) (RLock 1 k)
| s_runlock n k : sd wr Q (HR n) k -> sd wr Q (HR (1 + n)) (RUnlock 1 k)
| s_lock k : wr = true -> sd wr Q HA (LockWait 1 k) -> sd wr Q (HR 0) (Lock 1 k)
| s_wait k : wr = true -> sd wr Q HW k -> sd wr Q HA (LockWait 1 k)
| s_unlock k : wr = true -> sd wr Q (HR 0) k -> sd wr Q HW (Unlock 1 k).
Lemma sd_bind {A B} wr (Q : hold -> A -> Prop) (Q' : hold -> B -> Prop) h (p : prog sstate A) (f : A -> prog sstate B) :
  sd wr Q h p -> (forall h' a, h' <> HA -> Q h' a -> sd wr Q' h' (f a)) -> sd wr Q' h (pbind p f).
Proof.
  intros D F. induction D as [| h u k N W Rd D IH | | | | |]; cbn [pbind]; [now apply F| |constructor; auto ..].
  constructor; auto. destruct Rd as [?|Rd]; auto. right. intros w i g g'. now rewrite (Rd w i g g').
Qed.
Lemma sd_map {A B} wr (Q : hold -> A -> Prop) (Q' : hold -> B -> Prop) h (p : prog sstate A) (f : A -> B) :
  sd wr Q h p -> (forall h' a, h' <> HA -> Q h' a -> Q' h' (f a)) -> sd wr Q' h (pmap f p).
Proof. intros D F. eapply sd_bind; eauto. intros h' a N q. constructor; auto. Qed.
Lemma sd_mono {A} wr (Q Q' : hold -> A -> Prop) h (p : prog sstate A) :
  sd wr Q h p -> (forall h' a, Q h' a -> Q' h' a) -> sd wr Q' h p.
Proof. intros D F. induction D; constructor; auto. Qed.
Lemma sd_zoom {A} wr (Q : hold -> A -> Prop) h (p : prog gstate A) :
  gd false Q h p -> wr = true \/ nolock p -> sd wr Q h (zoom p).
Proof.
  intros D. induction D as [h r q N | h u k N W Rd D IH | n k D IH | n k D IH | k D IH | k D IH | k D IH];
    intros L; cbn [zoom].
  - now constructor.
  - constructor; auto.
    + destruct W as [?|W]; auto. right. intros x. cbn. now rewrite W.
    + destruct Rd as [?|[?|Rd]]; [discriminate|auto|]. right. intros w i g g'. cbn. now rewrite (Rd w g g').
    + intros s. apply IH. destruct L as [?|L]; auto. right. now inversion L.
  - constructor. apply IH. destruct L as [?|L]; auto. right. now inversion L.
  - constructor. apply IH. destruct L as [?|L]; auto. right. now inversion L.
  - destruct L as [L|L]; [|inversion L]. constructor; auto.
  - destruct L as [L|L]; [|inversion L]. constructor; auto.
  - destruct L as [L|L]; [|inversion L]. constructor; auto.
Qed.
Lemma sd_two {A B} wr (Q : hold -> A -> Prop) (fatal : B -> Prop) a h (b : prog sstate A) f :
  sd wr Q h b -> a <> HA -> a <> HR 0 -> (wr = true -> a = HW) ->
  (forall h' r, h' <> HA -> Q h' r -> two fatal a h' (f r)) -> two fatal a h (pbind b f).
Proof.
  intros D Na N0 Nw F. induction D as [h r q N | h u k N W Rd D IH | n k D IH | n k D IH | k W D IH | k W D IH | k W D IH];
    cbn [pbind]; [now apply F| |constructor; auto| constructor; auto|..].
  - constructor; auto. destruct Rd as [?|Rd]; auto. right. intros w i g g'. now rewrite (Rd w i g g').
  - rewrite (Nw W) in *. now constructor.
  - rewrite (Nw W) in *. now constructor.
  - rewrite (Nw W) in *. now constructor.
Qed.
Lemma two_map {A B} (fatal : A -> Prop) (fatal' : B -> Prop) (f : A -> B) a h p :
  two fatal a h p -> (forall r, fatal r -> fatal' (f r)) -> two fatal' a h (pmap f p).
Proof.
  intros D F. unfold pmap. induction D as [? ? ? Q| | | | | | | | | | |]; cbn [pbind]; try (constructor; now auto).
  - constructor; auto. destruct Q; auto.
  - constructor; auto. match goal with H : _ \/ forall w i g g', _ |- _ => destruct H as [?|Rd] end; auto.
    right. intros w i g g'. now rewrite (Rd w i g g').
Qed.
Lemma two_locked {A} (fatal : A -> Prop) (b : prog sstate A) :
  sd true (wpost fatal) (HR 0) b -> two fatal (HR 0) (HR 0) (locked 0 b).
Proof.
  intros D. unfold locked. do 2 constructor. eapply sd_two; eauto; try discriminate.
  intros h r N [-> |F]; do 2 (constructor; auto; try discriminate).
Qed.
Lemma two_rlocked {A} (fatal : A -> Prop) (b : prog sstate A) :
  sd false (wpost fatal) (HR 0) b -> two fatal (HR 0) (HR 0) (rlocked 0 b).
Proof.
  intros D. unfold rlocked. constructor. eapply sd_two; eauto; try discriminate.
  intros h r N [-> |F]; do 2 (constructor; auto; try discriminate).
Qed.
Lemma sd_add o st opts e : sd true npost (HR 0) (add_prog o st opts e).
Proof.
  unfold add_prog. eapply sd_bind; [apply sd_zoom; [apply gd_new_node|auto]|].
  intros h r N Q. destruct r as [n|x|p].
  - destruct Q as [-> |?]; [|discriminate].
    assert (Z : forall l, sd true npost (HR 0) (zoom (add_node_prog (MemNode n) l))).
    { intros l. eapply sd_mono; [apply sd_zoom; [apply gd_add_node|auto]|]. intros h' a ->. now left. }
    destruct (so_upsert _); [apply Z|]. eapply sd_map; [apply Z|].
    intros h' a _ [-> | ->]; [now left|now right].
  - constructor; auto. destruct Q as [-> |?]; [now left|discriminate].
  - constructor; auto. destruct Q as [-> |[= ->]]; [now left|now right].
Qed.
Lemma sd_bulk_add o st opts es : sd true npost (HR 0) (bulk_add_prog o st opts es).
Proof.
  revert st. induction es as [|e es IH]; intros st; cbn [bulk_add_prog]; [constructor; [now left|discriminate]|].
  eapply sd_bind; [apply sd_add|]. intros h r N Q. destruct r as [?|x|p].
  - destruct Q as [-> |?]; [|discriminate]. apply IH.
  - constructor; auto.
  - constructor; auto.
Qed.
Lemma sd_sget u : sd false (held (HR 0)) (HR 0) (sget_prog u).
Proof.
  eapply sd_map; [apply sd_zoom; [apply gd_gread|]|intros h a _ ->; reflexivity].
  right. unfold rlocked, gload. cbn. constructor. constructor. intros s. repeat constructor.
Qed.
Lemma sd_sbulk_get i ents us : sd false (held (HR 0)) (HR 0) (sbulk_get_prog i ents us).
Proof.
  revert ents. induction us as [|u us IH]; intros ents; cbn [sbulk_get_prog]; [now constructor|].
  eapply sd_bind; [apply sd_sget|]. intros h r _ ->. destruct r; [apply IH|now constructor..].
Qed.
Lemma sd_each {A} (f : A -> prog sstate (res unit)) l :
  (forall x, sd true (held (HR 0)) (HR 0) (f x)) -> sd true (held (HR 0)) (HR 0) (each_prog f l).
Proof.
  intros F. induction l as [|x l IH]; cbn [each_prog]; [now constructor|].
  eapply sd_bind; eauto. intros h [?| |] _ ->; auto; now constructor.
Qed.
Lemma sd_delete u : sd true (held (HR 0)) (HR 0) (delete_prog u).
Proof. apply sd_zoom; [apply gd_remove_node|auto]. Qed.
Lemma sd_slink opts u v : sd true (held (HR 0)) (HR 0) (slink_prog opts u v).
Proof. eapply sd_map; [apply sd_zoom; [apply gd_link|auto]|]. intros h a _ ->. reflexivity. Qed.
Lemma sd_sunlink u v : sd true (held (HR 0)) (HR 0) (sunlink_prog u v).
Proof. apply sd_zoom; [apply gd_unlink|auto]. Qed.
Lemma two_store o c : two sfatal (HR 0) (HR 0) (store_prog o c).
Proof.
  assert (N : forall p, sd true npost (HR 0) p -> sd true (wpost sfatal) (HR 0) (pmap SRUnit p)).
  { intros p D. eapply sd_map; eauto. intros h a _ [-> | ->]; [now left|now right]. }
  assert (H : forall p, sd true (held (HR 0)) (HR 0) p -> sd true (wpost sfatal) (HR 0) (pmap SRUnit p)).
  { intros p D. eapply sd_map; eauto. intros h a _ ->. now left. }
  destruct c as [st [e opts|u|u|u v opts|u v|es opts|us|us|u vs opts|u vs]]; cbn [store_prog snd fst].
  - apply two_locked, N, sd_add.
  - apply two_rlocked. eapply sd_map; [apply sd_sget|]. intros h a _ ->. now left.
  - apply two_locked, H, sd_delete.
  - apply two_locked, H, sd_slink.
  - apply two_locked, H, sd_sunlink.
  - apply two_locked, N, sd_bulk_add.
  - apply two_rlocked. eapply sd_map; [apply sd_sbulk_get|]. intros h a _ ->. now left.
  - apply two_locked, H, sd_each. intros. apply sd_delete.
  - apply two_locked, H, sd_each. intros. apply sd_slink.
  - apply two_locked, H, sd_each. intros. apply sd_sunlink.
Qed.

(** ** calls that read the graph *)
Definition reading (q : gq) : Prop :=
  match q with QNode _ | QNodes | QEdge _ _ | QEdges | QFrom _ => True | _ => False end.
Definition allowed (c : mcall) : Prop := match c with inl _ => True | inr q => reading q.2 end.
(** what a reading call returns in a state *)
Definition reads_off (o : iter_order) (q : gcall) (x : sstate) : gqret := (graph_call o q (x.1, s_g x.2)).1.
Definition stay (x : sstate) : sstate := let y := id (x.1, s_g x.2) in (y.1, Store (s_uid x.2) y.2).
Lemma stay_id x : stay x = x.
Proof. unfold stay, id. now destruct x as [w []]. Qed.
Definition read_act (o : iter_order) (q : gcall) : prog sstate mret :=
  Act stay (fun x => RUnlock 1 (Ret (inr (reads_off o q x)))).
Lemma read_prog o q : reading q.2 -> mixed_prog o (inr q) = RLock 1 (read_act o q).
Proof. destruct q as [st q]. destruct q; cbn; try tauto; reflexivity. Qed.
Definition mfatal (r : mret) : Prop := exists r', r = inl r' /\ sfatal r'.
Lemma two_mixed o c : allowed c -> two mfatal (HR 0) (HR 0) (mixed_prog o c).
Proof.
  destruct c as [c|q]; intros A.
  - cbn [mixed_prog]. eapply two_map; [apply two_store|]. intros r F. exists r. auto.
  - rewrite read_prog by auto. constructor; [discriminate|auto|]. constructor; try discriminate.
    + right. intros x. now rewrite stay_id.
    + left. discriminate.
    + intros s. constructor; [discriminate|]. constructor; auto; discriminate.
Qed.

(** ** without the readers, the store calls do the same *)
Definition left_call (c : mcall) : option stcall := match c with inl c => Some c | inr _ => None end.
Definition left_ret (x : mcall * mret) : option (stcall * sret) :=
  match x with (inl c, inl r) => Some (c, r) | _ => None end.
Definition left_todo (todo : list (list mcall)) : list (list stcall) := (fun l : list mcall => omap left_call l) <$> todo.
Section sim.
  Context (o : iter_order) (s0 : sstate) (todo : list (list mcall)).
  Notation impl := (mixed_prog o).
  Notation alone := (store_prog o).
  Notation start := (conf_init s0 (left_todo todo)).
  Context (NF : forall e, reachable alone s0 (left_todo todo) e -> ~ returned sfatal e).
  (** the reading call q of goroutine i, made after its calls [l], gave r *)
  Definition seen (sched : list nat) (i : nat) (l : list (mcall * mret)) (q : gcall) (r : gqret) : Prop :=
    exists s1 s2 e t, sched = s1 ++ s2 /\ exec alone start s1 = Some e /\ c_ths e !! i = Some t /\
      t_cur t = None /\ t_done t = omap left_ret l /\ r = reads_off o q (c_sh e).
  Definition th_sim (sched : list nat) (i : nat) (t : thread sstate mret mcall) (t' : thread sstate sret stcall) : Prop :=
    t_todo t' = omap left_call (t_todo t) /\ t_done t' = omap left_ret (t_done t) /\
    (forall l1 q r l2, t_done t = l1 ++ (inr q, r) :: l2 -> exists r', r = inr r' /\ seen sched i l1 q r') /\
    match t_cur t with
    | None => t_cur t' = None
    | Some (inl c, p) => exists p', p = pmap inl p' /\ t_cur t' = Some (c, p')
    | Some (inr q, p) => t_cur t' = None /\
        (p = RLock 1 (read_act o q) \/ p = read_act o q \/
         exists r, (p = RUnlock 1 (Ret (inr r)) \/ p = Ret (inr r)) /\ seen sched i (t_done t) q r)
    end.
  Definition left_hold (t : thread sstate mret mcall) (h : hold) : hold :=
    match t_cur t with Some (inl _, _) => h | _ => HR 0 end.
  Record sim (c : conf sstate mret mcall) (sched : list nat) (e : conf sstate sret stcall) (la lh le : list hold) : Prop := {
    sm_c : tinv mfatal allowed c la lh;
    sm_e : tinv sfatal (fun _ => True) e la le;
    sm_exec : exec alone start sched = Some e;
    sm_sh : c_sh e = c_sh c;
    sm_len : length (c_ths e) = length (c_ths c);
    sm_ths : forall i t t', c_ths c !! i = Some t -> c_ths e !! i = Some t' -> th_sim sched i t t';
    sm_le : forall i t h, c_ths c !! i = Some t -> lh !! i = Some h ->
      le !! i = Some (left_hold t h) /\ (left_hold t h = h \/ exists n, h = HR n);
  }.
  Lemma exec_snoc {S R Op} (f : Op -> prog S R) c l i c1 c2 :
    exec f c l = Some c1 -> conf_step f c1 i = Some c2 -> exec f c (l ++ [i]) = Some c2.
  Proof.
    revert c. induction l as [|j l IH]; intros c E E2; cbn in *.
    - injection E as <-. now rewrite E2.
    - destruct (conf_step f c j); [eauto|discriminate].
  Qed.
  Lemma seen_more sched i l q r j : seen sched i l q r -> seen (sched ++ [j]) i l q r.
  Proof.
    intros (s1 & s2 & e & t & -> & H). exists s1, (s2 ++ [j]), e, t. rewrite app_assoc. auto.
  Qed.
  Lemma th_sim_more sched i t t' j : th_sim sched i t t' -> th_sim (sched ++ [j]) i t t'.
  Proof.
    intros (T & D & V & C). split; [auto|]. split; [auto|]. split.
    - intros l1 q r l2 E. destruct (V _ _ _ _ E) as (r' & -> & H). exists r'. split; auto. now apply seen_more.
    - destruct (t_cur t) as [[[c|q] p]|]; auto. destruct C as [C1 C2]. split; auto.
      destruct C2 as [?|[?|(r & H & Hs)]]; auto. right. right. exists r. split; auto. now apply seen_more.
  Qed.
  (** the holds of the graph's mutex, with and without the readers *)
  Lemma sim_totals c sched e la lh le : sim c sched e la lh le ->
    total h_wr le = total h_wr lh /\ total h_ann le = total h_ann lh /\ total h_rd le <= total h_rd lh.
  Proof.
    intros H.
    assert (F : Forall2 (fun h h' => h' = h \/ exists n, h = HR n /\ h' = HR 0) lh le).
    { apply Forall2_same_length_lookup_2.
      - rewrite (ti_lh _ _ _ _ _ (sm_c _ _ _ _ _ _ H)), (ti_lh _ _ _ _ _ (sm_e _ _ _ _ _ _ H)). symmetry. apply H.
      - intros i h h' Eh Eh'. pose proof (lookup_lt_Some _ _ _ Eh) as Lt. rewrite (ti_lh _ _ _ _ _ (sm_c _ _ _ _ _ _ H)) in Lt.
        apply lookup_lt_is_Some in Lt as [t Et]. destruct (sm_le _ _ _ _ _ _ H _ _ _ Et Eh) as [E Hn]. rewrite Eh' in E. injection E as ->.
        unfold left_hold in *. destruct (t_cur t) as [[[op|q] p]|]; auto; destruct Hn as [<-|[n ->]]; eauto. }
    clear H. induction F as [|h h' lh' le' Hh F (IH1 & IH2 & IH3)]; cbn [total]; [auto|].
    destruct Hh as [-> |(n & -> & ->)]; cbn; lia.
  Qed.
  Lemma hmu_det x y l : hmu x l -> hmu y l -> x = y.
  Proof. intros [A1 A2 A3 _ _] [B1 B2 B3 _ _]. destruct x, y. cbn in *. congruence. Qed.
  Lemma nxt_left m h (p : prog sstate sret) : nxt m h (pmap (@inl sret gqret) p) = nxt m h p.
  Proof. now destruct p. Qed.
  Lemma left_step c sched e la lh le i a h (p : prog sstate sret) s1 mu1 p1 :
    sim c sched e la lh le -> la !! i = Some a -> le !! i = Some h -> two sfatal a h p ->
    prog_step (c_sh c) (c_mu c) (pmap (@inl sret gqret) p) = Some (s1, mu1, p1) ->
    exists mu2 p2, p1 = pmap inl p2 /\ prog_step (c_sh e) (c_mu e) p = Some (s1, mu2, p2).
  Proof.
    intros H Ea Eh O E. destruct (sim_totals _ _ _ _ _ _ H) as (Tw & Ta & Tr). rewrite (sm_sh _ _ _ _ _ _ H).
    pose proof (hmu_det _ _ _ (ti_0 _ _ _ _ _ (sm_c _ _ _ _ _ _ H)) (ti_0 _ _ _ _ _ (sm_e _ _ _ _ _ _ H))) as E0.
    destruct (ti_1 _ _ _ _ _ (sm_c _ _ _ _ _ _ H)) as [Mr Mw Ma M1 Mx].
    destruct (ti_1 _ _ _ _ _ (sm_e _ _ _ _ _ _ H)) as [Nr Nw Na N1 Nx].
    assert (Ew : m_wr (c_mu e 1) = m_wr (c_mu c 1)) by (rewrite Mw, Nw; f_equal; lia).
    assert (En : m_ann (c_mu e 1) = m_ann (c_mu c 1)) by (rewrite Ma, Na; f_equal; lia).
    pose proof (total_ge h_rd _ _ _ Eh) as G.
    unfold pmap in E. destruct O; cbn [pbind prog_step] in *; rewrite <- ?E0, ?En, ?Ew; [discriminate|..];
      repeat match type of E with context [match ?x with _ => _ end] => destruct x eqn:?; try discriminate end;
      try (injection E as <- <- <-; eexists _, _; split; [|reflexivity]; reflexivity).
    - cbn in G. destruct (m_rd (c_mu e 1)) eqn:Ex; [lia|]. injection E as <- <- <-. eexists _, _. split; [|reflexivity]; reflexivity.
    - destruct (m_rd (c_mu e 1)) eqn:Ex; [|lia]. injection E as <- <- <-. eexists _, _. split; [|reflexivity]; reflexivity.
  Qed.
  Lemma sim_read c sched e la lh le i t t' h mu' t1 h' :
    sim c sched e la lh le -> c_ths c !! i = Some t -> c_ths e !! i = Some t' -> lh !! i = Some h ->
    tinv mfatal allowed (Conf (c_sh c) mu' (<[i := t1]> (c_ths c))) la (<[i := h']> lh) ->
    th_sim sched i t1 t' -> left_hold t h = HR 0 -> left_hold t1 h' = HR 0 -> (exists n, h' = HR n) ->
    sim (Conf (c_sh c) mu' (<[i := t1]> (c_ths c))) sched e la (<[i := h']> lh) le.
  Proof.
    intros H Et Et' Eh I T L0 L1 Hn. pose proof (lookup_lt_Some _ _ _ Et) as Lt. pose proof (lookup_lt_Some _ _ _ Eh) as Lh.
    destruct (sm_le _ _ _ _ _ _ H _ _ _ Et Eh) as [E0 _]. rewrite L0 in E0.
    split; cbn [c_sh c_ths]; try apply H; auto.
    - rewrite insert_length. apply H.
    - intros j x x' E1 E2. destruct (decide (i = j)) as [<-|N].
      + rewrite list_lookup_insert in E1 by auto. congruence.
      + rewrite list_lookup_insert_ne in E1 by auto. eapply sm_ths; eauto.
    - intros j x y E1 E2. destruct (decide (i = j)) as [<-|N].
      + rewrite list_lookup_insert in E1 by auto. rewrite list_lookup_insert in E2 by auto.
        injection E1 as <-. injection E2 as <-. rewrite L1. auto.
      + rewrite list_lookup_insert_ne in E1 by auto. rewrite list_lookup_insert_ne in E2 by auto. eapply sm_le; eauto.
  Qed.
  Lemma sim_both c sched e la lh le i t t' a' h' s' mu' mu2 t1 t2 :
    sim c sched e la lh le -> c_ths c !! i = Some t -> c_ths e !! i = Some t' ->
    tinv mfatal allowed (Conf s' mu' (<[i := t1]> (c_ths c))) (<[i := a']> la) (<[i := h']> lh) ->
    tinv sfatal (fun _ => True) (Conf s' mu2 (<[i := t2]> (c_ths e))) (<[i := a']> la) (<[i := h']> le) ->
    conf_step alone e i = Some (Conf s' mu2 (<[i := t2]> (c_ths e))) ->
    th_sim (sched ++ [i]) i t1 t2 -> left_hold t1 h' = h' ->
    sim (Conf s' mu' (<[i := t1]> (c_ths c))) (sched ++ [i]) (Conf s' mu2 (<[i := t2]> (c_ths e)))
        (<[i := a']> la) (<[i := h']> lh) (<[i := h']> le).
  Proof.
    intros H Et Et' I I' E T L. pose proof (lookup_lt_Some _ _ _ Et) as Lt.
    assert (Lh : length lh = length (c_ths c)) by apply (sm_c _ _ _ _ _ _ H).
    assert (Le : length le = length (c_ths c)) by (rewrite <- (sm_len _ _ _ _ _ _ H); apply (sm_e _ _ _ _ _ _ H)).
    split; cbn [c_sh c_ths]; auto.
    - eapply exec_snoc; eauto. apply H.
    - rewrite !insert_length. apply H.
    - intros j x x' E1 E2. destruct (decide (i = j)) as [<-|N].
      + rewrite list_lookup_insert in E1 by auto. rewrite list_lookup_insert in E2 by (rewrite (sm_len _ _ _ _ _ _ H); auto). congruence.
      + rewrite list_lookup_insert_ne in E1 by auto. rewrite list_lookup_insert_ne in E2 by auto.
        apply th_sim_more. eapply sm_ths; eauto.
    - intros j x y E1 E2. destruct (decide (i = j)) as [<-|N].
      + rewrite list_lookup_insert in E1 by auto. rewrite list_lookup_insert in E2 by lia.
        injection E1 as <-. injection E2 as <-. rewrite L. rewrite list_lookup_insert by lia. auto.
      + rewrite list_lookup_insert_ne in E1 by auto. rewrite list_lookup_insert_ne in E2 by auto.
        rewrite list_lookup_insert_ne by auto. eapply sm_le; eauto.
  Qed.
  Lemma snoc_split {X} (l : list X) x l1 y l2 : l ++ [x] = l1 ++ y :: l2 ->
    (l = l1 /\ x = y /\ l2 = []) \/ exists l3, l = l1 ++ y :: l3.
  Proof.
    destruct l2 as [|z l2 _] using rev_ind.
    - intros E. apply app_inj_tail in E as [-> ->]. auto.
    - rewrite app_comm_cons, app_assoc. intros E. apply app_inj_tail in E as [-> ->]. eauto.
  Qed.
  Lemma sim_step c sched e la lh le i c' :
    sim c sched e la lh le -> conf_step impl c i = Some c' ->
    exists sched' e' la' lh' le', sim c' sched' e' la' lh' le'.
  Proof.
    intros H E. destruct (c_ths c !! i) as [t|] eqn:Et; [|unfold conf_step in E; rewrite Et in E; discriminate].
    destruct (tinv_get _ _ _ _ _ _ _ (sm_c _ _ _ _ _ _ H) Et) as (a & h & Ea & Eh & AP & O).
    destruct (lookup_lt_is_Some_2 (c_ths e) i) as [t' Et'].
    { rewrite (sm_len _ _ _ _ _ _ H). eapply lookup_lt_Some; eauto. }
    destruct (sm_ths _ _ _ _ _ _ H _ _ _ Et Et') as (Tt & Td & Tv & Tc).
    destruct (sm_le _ _ _ _ _ _ H _ _ _ Et Eh) as [Ele Hn].
    pose proof (ti_ths _ _ _ _ _ (sm_e _ _ _ _ _ _ H) _ _ _ _ Et' Ea Ele) as [_ O'].
    assert (NF' : ~ returned sfatal e) by (apply NF; exists sched; apply H).
    destruct (tinv_step impl mfatal allowed (two_mixed o) _ _ _ _ _ _ _ _ (sm_c _ _ _ _ _ _ H) Et Ea Eh E) as [(op & r & Ec & r' & -> & F)|I].
    { exfalso. rewrite Ec in Tc. destruct op as [op|q].
      - destruct Tc as (p' & Ep & Ec'). destruct p'; try discriminate. injection Ep as <-. apply NF'.
        exists t'. split; [eapply elem_of_list_lookup_2; eauto|]. right. exists op, r'. auto.
      - destruct Tc as (_ & [?|[?|(r & [?|?] & _)]]); discriminate. }
    unfold conf_step in E. rewrite Et in E.
    destruct (thread_step impl (c_sh c) (c_mu c) t) as [[[s' mu'] t1]|] eqn:Es; [|discriminate]. injection E as <-.
    unfold tnxt in I. unfold left_hold in Ele, Hn, O'. destruct (t_cur t) as [[[op|q] p]|] eqn:Ec.
    - (* a store call *)
      destruct Tc as (p' & -> & Ec'). rewrite Ec' in O'. rewrite !nxt_left in I.
      destruct (match p' with Ret r => Some r | _ => None end) as [r|] eqn:Er.
      + destruct p'; try discriminate. unfold thread_step in Es. rewrite Ec in Es. injection Es as <- <- <-. clear Er.
        cbn [nxt] in I.
        assert (Es' : conf_step alone e i = Some (Conf (c_sh c) (c_mu e) (<[i := Thread None (t_todo t') (t_done t' ++ [(op, r0)])]> (c_ths e)))).
        { unfold conf_step, thread_step. rewrite Et', Ec', (sm_sh _ _ _ _ _ _ H). reflexivity. }
        destruct (tinv_step alone sfatal (fun _ => True) (fun c _ => two_store o c) _ _ _ _ _ _ _ _ (sm_e _ _ _ _ _ _ H) Et' Ea Ele Es')
          as [(op1 & r1 & Ec1 & F)|I'].
        { exfalso. apply NF'. exists t'. split; [eapply elem_of_list_lookup_2; eauto|]. right. eauto. }
        unfold tnxt in I'. rewrite Ec' in I'. cbn [nxt] in I'.
        eexists _, _, _, _, _. eapply sim_both; eauto.
        * unfold th_sim. cbn [t_todo t_done t_cur]. split; [auto|]. split; [rewrite omap_app; cbn; now rewrite Td|]. split; [|reflexivity].
          intros l1 q rq l2 El. destruct (snoc_split _ _ _ _ _ El) as [(_ & ? & _)|[l3 El3]]; [discriminate|].
          destruct (Tv _ _ _ _ El3) as (r' & -> & Hs). exists r'. split; auto. now apply seen_more.
        * cbn. pose proof (ti_ths _ _ _ _ _ I i) as Z. cbn in Z.
          specialize (Z _ a h (list_lookup_insert _ _ _ (lookup_lt_Some _ _ _ Et))
            (list_lookup_insert _ _ _ (lookup_lt_Some _ _ _ Ea)) (list_lookup_insert _ _ _ (lookup_lt_Some _ _ _ Eh))).
          destruct Z as [_ [_ ->]]. reflexivity.
      + assert (Np : forall r, p' <> Ret r) by (intros r ->; discriminate).
        rewrite (thread_step_prog _ _ _ _ _ _ Ec) in Es by (intros r; destruct p'; cbn; congruence).
        destruct (prog_step (c_sh c) (c_mu c) (pmap inl p')) as [[[s1 mu1] p1]|] eqn:Ep; [|discriminate].
        injection Es as <- <- <-.
        destruct (left_step _ _ _ _ _ _ _ _ _ _ _ _ _ H Ea Ele O' Ep) as (mu2 & p2 & -> & Ep2).
        assert (Es' : conf_step alone e i = Some (Conf s1 mu2 (<[i := Thread (Some (op, p2)) (t_todo t') (t_done t')]> (c_ths e)))).
        { unfold conf_step. rewrite Et', (thread_step_prog _ _ _ _ _ _ Ec'), Ep2 by auto. reflexivity. }
        destruct (tinv_step alone sfatal (fun _ => True) (fun c _ => two_store o c) _ _ _ _ _ _ _ _ (sm_e _ _ _ _ _ _ H) Et' Ea Ele Es')
          as [(op1 & r1 & Ec1 & F)|I'].
        { exfalso. rewrite Ec' in Ec1. injection Ec1 as <- ->. now destruct (Np r1). }
        unfold tnxt in I'. rewrite Ec' in I'.
        eexists _, _, _, _, _. eapply sim_both; eauto.
        unfold th_sim. cbn [t_todo t_done t_cur]. split; [auto|]. split; [auto|]. split; [|eexists; split; reflexivity].
        intros l1 q r l2 El. destruct (Tv _ _ _ _ El) as (r' & -> & Hs). exists r'. split; auto. now apply seen_more.
    - (* a reading call *)
      destruct Tc as (Ec' & Tc). rewrite Ec' in O'. destruct O' as [-> _].
      assert (Hn' : exists n, h = HR n) by (destruct Hn as [<-|?]; eauto). destruct Hn' as [n ->].
      destruct Tc as [-> |[-> |(r & [-> | ->] & Hs)]].
      + rewrite (thread_step_prog _ _ _ _ _ _ Ec) in Es by discriminate. cbn [prog_step] in Es.
        destruct (m_ann (c_mu c 1)); [discriminate|]. injection Es as <- <- <-. cbn [nxt Nat.eqb] in I.
        rewrite (list_insert_id la) in I by auto.
        eexists _, _, _, _, _. eapply sim_read; eauto.
        * unfold th_sim. cbn [t_todo t_done t_cur]. split; [auto|]. split; [auto|]. split; auto.
        * unfold left_hold. now rewrite Ec.
      + rewrite (thread_step_prog _ _ _ _ _ _ Ec) in Es by discriminate. cbn [prog_step read_act] in Es.
        rewrite stay_id in Es. injection Es as <- <- <-. cbn [nxt read_act] in I.
        rewrite (list_insert_id la) in I by auto.
        eexists _, _, _, _, _. eapply sim_read; eauto.
        * unfold th_sim. cbn [t_todo t_done t_cur]. split; [auto|]. split; [auto|]. split; auto. split; auto. right. right. eexists. split; [left; reflexivity|].
          exists sched, [], e, t'. rewrite app_nil_r. split; auto. split; [apply H|]. split; auto. split; auto. split; auto.
          now rewrite (sm_sh _ _ _ _ _ _ H).
        * unfold left_hold. now rewrite Ec.
      + rewrite (thread_step_prog _ _ _ _ _ _ Ec) in Es by discriminate. cbn [prog_step] in Es.
        destruct (m_rd (c_mu c 1)); [discriminate|]. injection Es as <- <- <-. cbn [nxt Nat.eqb] in I.
        rewrite (list_insert_id la) in I by auto.
        eexists _, _, _, _, _. eapply sim_read; eauto.
        * unfold th_sim. cbn [t_todo t_done t_cur]. split; [auto|]. split; [auto|]. split; auto. split; auto. right. right. exists r. auto.
        * unfold left_hold. now rewrite Ec.
        * destruct n; eauto.
      + unfold thread_step in Es. rewrite Ec in Es. injection Es as <- <- <-. cbn [nxt] in I.
        rewrite (list_insert_id la) in I by auto.
        eexists _, _, _, _, _. eapply sim_read; eauto.
        * unfold th_sim. cbn [t_todo t_done t_cur]. split; [auto|]. split; [rewrite omap_app; cbn; now rewrite app_nil_r|]. split; [|auto].
          intros l1 q1 r1 l2 El. destruct (snoc_split _ _ _ _ _ El) as [(<- & [= <- <-] & _)|[l3 El3]]; eauto.
        * unfold left_hold. now rewrite Ec.
    - (* the next call *)
      rewrite Tc in O'. destruct O as [-> ->]. unfold thread_step in Es. rewrite Ec in Es.
      destruct (t_todo t) as [|[op|q] ops] eqn:Etd; [discriminate|..]; injection Es as <- <- <-.
      + cbn in Tt.
        assert (Es' : conf_step alone e i = Some (Conf (c_sh c) (c_mu e) (<[i := Thread (Some (op, alone op)) (omap left_call ops) (t_done t')]> (c_ths e)))).
        { unfold conf_step, thread_step. rewrite Et', Tc, Tt, (sm_sh _ _ _ _ _ _ H). reflexivity. }
        destruct (tinv_step alone sfatal (fun _ => True) (fun c _ => two_store o c) _ _ _ _ _ _ _ _ (sm_e _ _ _ _ _ _ H) Et' Ea Ele Es')
          as [(op1 & r1 & Ec1 & F)|I'].
        { congruence. }
        unfold tnxt in I'. rewrite Tc in I'.
        eexists _, _, _, _, _. eapply sim_both; eauto.
        unfold th_sim. cbn [t_todo t_done t_cur]. split; [auto|]. split; [auto|]. split; [|eexists; split; reflexivity].
        intros l1 q r l2 El. destruct (Tv _ _ _ _ El) as (r' & -> & Hs). exists r'. split; auto. now apply seen_more.
      + rewrite (list_insert_id la) in I by auto. inversion AP as [|? ? Aq _]; subst.
        eexists _, _, _, _, _. eapply sim_read; eauto.
        * cbn [t_todo t_done t_cur]. split; [auto|]. split; [auto|]. split; auto. cbn. split; auto. left. now apply read_prog.
        * unfold left_hold. now rewrite Ec.
  Qed.
  Lemma sim_reach c : Forall (Forall allowed) todo -> reachable impl s0 todo c ->
    exists sched e la lh le, sim c sched e la lh le.
  Proof.
    intros AP [sc E].
    assert (X : exists sched e la lh le, sim (conf_init s0 todo) sched e la lh le).
    { exists [], start, (replicate (length todo) (HR 0)), (replicate (length todo) (HR 0)), (replicate (length todo) (HR 0)).
      split; auto.
      - now apply tinv_init.
      - replace (length todo) with (length (left_todo todo)) by apply fmap_length. apply tinv_init.
        apply Forall_forall. intros l _. apply Forall_forall. auto.
      - cbn. unfold left_todo. now rewrite !fmap_length.
      - intros i t t' Et Et'. cbn in Et, Et'. unfold left_todo in Et'. rewrite !list_lookup_fmap in Et'. rewrite list_lookup_fmap in Et.
        destruct (todo !! i) as [l|]; [|discriminate]. injection Et as <-. injection Et' as <-.
        split; [reflexivity|]. split; [reflexivity|]. split; [|reflexivity].
        intros l1 q r l2 El. cbn in El. destruct l1; discriminate.
      - intros i t h Et Eh. cbn in Et. rewrite list_lookup_fmap in Et. destruct (todo !! i) as [l|]; [|discriminate].
        injection Et as <-. rewrite Eh. apply lookup_replicate in Eh as [-> _]. auto. }
    revert E X. generalize (conf_init (R := mret) s0 todo). induction sc as [|i sc IH]; intros c0 E X; cbn in E.
    - injection E as <-. auto.
    - destruct (conf_step impl c0 i) as [c1|] eqn:Es; [|discriminate]. apply (IH c1); auto.
      destruct X as (sched & e & la & lh & le & H). eapply sim_step; eauto.
  Qed.
End sim.

(** ** a goroutine on its own *)
Inductive psteps {S R} : S -> mutexes -> prog S R -> S -> mutexes -> prog S R -> Prop :=
| ps_done s mu p : psteps s mu p s mu p
| ps_step s mu p s1 mu1 p1 s2 mu2 p2 :
    prog_step s mu p = Some (s1, mu1, p1) -> psteps s1 mu1 p1 s2 mu2 p2 -> psteps s mu p s2 mu2 p2.
Lemma psteps_exec {S R Op} (f : Op -> prog S R) s mu (p : prog S R) s' mu' p' :
  psteps s mu p s' mu' p' -> forall i op td dn ths, ths !! i = Some (Thread (Some (op, p)) td dn) ->
  exists n, exec f (Conf s mu ths) (replicate n i) = Some (Conf s' mu' (<[i := Thread (Some (op, p')) td dn]> ths)).
Proof.
  induction 1 as [s mu p|s mu p s1 mu1 p1 s2 mu2 p2 E _ IH]; intros i op td dn ths Et.
  - exists 0. cbn. now rewrite list_insert_id by auto.
  - destruct (IH i op td dn (<[i := Thread (Some (op, p1)) td dn]> ths)) as [n En].
    { apply list_lookup_insert. eapply lookup_lt_Some; eauto. }
    exists (Datatypes.S n). cbn [replicate exec]. unfold conf_step. cbn [c_ths c_sh c_mu]. rewrite Et.
    rewrite (thread_step_prog f s mu (Thread (Some (op, p)) td dn) op p eq_refl) by (intros r ->; discriminate).
    rewrite E. cbn [t_todo t_done]. now rewrite list_insert_insert in En.
Qed.
Lemma psteps_zoom {A B} (f : A -> B) w g mu (p : prog gstate A) w' g' mu' p' : psteps (w, g) mu p (w', g') mu' p' ->
  forall i, psteps (w, Store i g) mu (pmap f (zoom p)) (w', Store i g') mu' (pmap f (zoom p')).
Proof.
  intros H i. remember (w, g) as x eqn:Ex. remember (w', g') as y eqn:Ey. revert w g w' g' Ex Ey.
  induction H as [s mu p|s mu p [w1 g1] mu1 p1 s2 mu2 p2 E _ IH]; intros w g w' g' -> Ey.
  - injection Ey as -> ->. constructor.
  - eapply ps_step; [|apply (IH w1 g1); auto].
    destruct p; unfold pmap; cbn [prog_step zoom pbind fst snd s_g s_uid] in *; [discriminate|..];
      repeat match type of E with context [match ?x with _ => _ end] => destruct x eqn:?; try discriminate end;
      try (injection E as <- <- <- <-; reflexivity).
    injection E as E <- <-. rewrite E. reflexivity.
Qed.
