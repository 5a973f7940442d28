(** Programs that use one mutex in a balanced way: it is free when no call is in
    progress; without nested read locks there is always a goroutine that can go on. *)
From Verif.Model Require Import Lock.
From Verif.Spec Require Import LinSpec.
From Verif.Proof Require Import LinP.

(** code that never asks for the write lock *)
Inductive nolock {S R} : prog S R -> Prop :=
| nl_ret r : nolock (Ret r)
| nl_act u k : (forall s, nolock (k s)) -> nolock (Act u k)
| nl_rlock m k : nolock k -> nolock (RLock m k)
| nl_runlock m k : nolock k -> nolock (RUnlock m k).
Lemma nolock_bind {S A B} (p : prog S A) (f : A -> prog S B) :
  nolock p -> (forall a, nolock (f a)) -> nolock (pbind p f).
Proof. intros D F. induction D; cbn [pbind]; [auto|constructor; auto..]. Qed.
Lemma nolock_map {S A B} (p : prog S A) (f : A -> B) : nolock p -> nolock (pmap f p).
Proof. intros D. apply nolock_bind; [done|]. intros a. constructor. Qed.

Lemma nolock_step {S R} s mu (p : prog S R) s' mu' p' :
  nolock p -> prog_step s mu p = Some (s', mu', p') -> nolock p'.
Proof.
  intros D E. destruct D; cbn [prog_step] in E; [discriminate| | |].
  - now injection E as <- <- <-.
  - destruct (m_ann (mu m)); [discriminate|]. now injection E as <- <- <-.
  - destruct (m_rd (mu m)); [discriminate|]. now injection E as <- <- <-.
Qed.

Section flat.
  (** goroutine i may nest read locks if [nest i], may ask for the write lock if
      [wrt i], and makes calls of [P i] *)
  Context {S R Op : Type} (impl : Op -> prog S R) (nest wrt : nat -> bool) (fatal : R -> Prop).
  Context (P : nat -> Op -> Prop).
  Context (discs : forall i op, P i op -> disc false (nest i) (wpost fatal) (HR 0) (impl op) /\
                                          (wrt i = false -> nolock (impl op))).

  Definition h_rd (h : hold) : nat := match h with HR n => n | _ => 0 end.
  Definition h_ann (h : hold) : nat := match h with HA => 1 | _ => 0 end.
  Definition h_wr (h : hold) : nat := match h with HW => 1 | _ => 0 end.
  Record hmu (x : mstate) (hs : list hold) : Prop := {
    hm_rd : m_rd x = total h_rd hs;
    hm_wr : m_wr x = Nat.ltb 0 (total h_wr hs);
    hm_ann : m_ann x = Nat.ltb 0 (total h_wr hs + total h_ann hs);
    hm_one : total h_wr hs + total h_ann hs <= 1;
    hm_excl : 0 < total h_wr hs -> total h_rd hs = 0;
  }.
  Definition th_ok (i : nat) (t : thread S R Op) (h : hold) : Prop :=
    Forall (P i) (t_todo t) /\
    match t_cur t with
    | None => h = HR 0
    | Some (_, p) => disc false (nest i) (wpost fatal) h p /\ (wrt i = false -> nolock p)
    end.
  Definition hinv (c : conf S R Op) (hs : list hold) : Prop :=
    length hs = length (c_ths c) /\
    (forall i t h, c_ths c !! i = Some t -> hs !! i = Some h -> th_ok i t h) /\
    hmu (c_mu c 1) hs.

  Lemma hinv_upd c hs i t t' h h' s' mu' :
    hinv c hs -> c_ths c !! i = Some t -> hs !! i = Some h ->
    th_ok i t' h' -> hmu (mu' 1) (<[i := h']> hs) ->
    hinv (Conf s' mu' (<[i := t']> (c_ths c))) (<[i := h']> hs).
  Proof.
    intros (L & T & M) Et Eh O M'. pose proof (lookup_lt_Some _ _ _ Et) as Lt.
    split; [|split]; cbn; auto.
    - now rewrite !insert_length.
    - intros j t1 h1 E1 E2. destruct (decide (i = j)) as [<-|N].
      + rewrite list_lookup_insert in E1 by auto. rewrite list_lookup_insert in E2 by lia. congruence.
      + rewrite list_lookup_insert_ne in E1 by auto. rewrite list_lookup_insert_ne in E2 by auto. eauto.
  Qed.
  Lemma hinv_step c hs i c' :
    hinv c hs -> conf_step impl c i = Some c' -> returned fatal c' \/ exists hs', hinv c' hs'.
  Proof.
    intros I E. unfold conf_step in E.
    destruct (c_ths c !! i) as [t|] eqn:Et; [|discriminate].
    destruct (hs !! i) as [h|] eqn:Eh.
    2:{ apply lookup_ge_None in Eh. apply lookup_lt_Some in Et. destruct I as [L _]. lia. }
    destruct (thread_step impl (c_sh c) (c_mu c) t) as [[[s' mu'] t']|] eqn:Es; [|discriminate].
    injection E as <-. pose proof I as (L & T & M). pose proof (T _ _ _ Et Eh) as O.
    destruct M as [Mr Mw Ma M1 Mx].
    assert (TI : forall f h', total f (<[i:=h']> hs) + f h = total f hs + f h').
    { intros. now apply total_insert. }
    destruct (t_cur t) as [[op p]|] eqn:Ec; destruct O as [AP O]; rewrite Ec in O.
    2:{ subst h. unfold thread_step in Es. rewrite Ec in Es. destruct (t_todo t) as [|op ops]; [discriminate|].
        injection Es as <- <- <-. right. exists (<[i := HR 0]> hs). inversion AP; subst.
        eapply hinv_upd; eauto; [unfold th_ok; cbn; auto | now rewrite list_insert_id by auto]. }
    destruct O as [O W].
    destruct (match p with Ret r => Some r | _ => None end) as [r|] eqn:Er.
    { destruct p; try discriminate. unfold thread_step in Es. rewrite Ec in Es. injection Es as <- <- <-.
      inversion O as [? ? Q| | | | | |]; subst. destruct Q as [-> |F].
      - right. exists (<[i := HR 0]> hs).
        eapply hinv_upd; eauto; [unfold th_ok; cbn; auto | now rewrite list_insert_id by auto].
      - left. eexists. split.
        + apply elem_of_list_lookup. exists i. apply list_lookup_insert. eapply lookup_lt_Some; eauto.
        + left. cbn. exists op, r0. split; auto. apply elem_of_app. right. now constructor. }
    rewrite (thread_step_prog _ _ _ _ _ _ Ec) in Es by (intros r ->; discriminate).
    destruct (prog_step (c_sh c) (c_mu c) p) as [[[s1 mu1] p1]|] eqn:Ep; [|discriminate].
    injection Es as <- <- <-. right.
    assert (W1 : wrt i = false -> nolock p1) by (intros E; eapply nolock_step; eauto).
    destruct O as [|h u k N Hro D|n k Hn D|n k D|k Hro D|k Hro D|k Hro D]; cbn [prog_step] in Ep; [discriminate|..].
    - injection Ep as <- <- <-. exists (<[i := h]> hs).
      eapply hinv_upd; eauto; [unfold th_ok; cbn; auto | now rewrite list_insert_id by auto].
    - destruct (m_ann (c_mu c 1)) eqn:EA; [discriminate|]. injection Ep as <- <- <-.
      exists (<[i := HR (1 + n)]> hs). symmetry in Ma. apply Nat.ltb_ge in Ma.
      pose proof (TI h_rd (HR (1 + n))) as T1. pose proof (TI h_ann (HR (1 + n))) as T2.
      pose proof (TI h_wr (HR (1 + n))) as T3. cbn [h_rd h_ann h_wr] in T1, T2, T3.
      eapply hinv_upd; eauto; [unfold th_ok; cbn; auto|]. rewrite mu_set_same. constructor; cbn [m_rd m_wr m_ann]; try lia.
      + rewrite Mw. f_equal. lia.
      + rewrite ltb_false by lia. auto.
    - destruct (m_rd (c_mu c 1)) as [|m] eqn:EA; [discriminate|]. injection Ep as <- <- <-.
      exists (<[i := HR n]> hs).
      pose proof (TI h_rd (HR n)) as T1. pose proof (TI h_ann (HR n)) as T2.
      pose proof (TI h_wr (HR n)) as T3. cbn [h_rd h_ann h_wr] in T1, T2, T3.
      eapply hinv_upd; eauto; [unfold th_ok; cbn; auto|]. rewrite mu_set_same. constructor; cbn [m_rd m_wr m_ann]; try lia.
      + rewrite Mw. f_equal. lia.
      + rewrite Ma. f_equal. lia.
    - destruct (m_ann (c_mu c 1)) eqn:EA; [discriminate|]. injection Ep as <- <- <-.
      exists (<[i := HA]> hs). symmetry in Ma. apply Nat.ltb_ge in Ma.
      pose proof (TI h_rd HA) as T1. pose proof (TI h_ann HA) as T2.
      pose proof (TI h_wr HA) as T3. cbn [h_rd h_ann h_wr] in T1, T2, T3.
      eapply hinv_upd; eauto; [unfold th_ok; cbn; auto|]. rewrite mu_set_same. constructor; cbn [m_rd m_wr m_ann]; try lia.
      + rewrite Mw. f_equal. lia.
      + rewrite ltb_true by lia. auto.
    - destruct (m_rd (c_mu c 1)) as [|m] eqn:EA; [|discriminate]. injection Ep as <- <- <-.
      pose proof (total_ge h_ann _ _ _ Eh) as Ga. cbn in Ga.
      exists (<[i := HW]> hs).
      pose proof (TI h_rd HW) as T1. pose proof (TI h_ann HW) as T2.
      pose proof (TI h_wr HW) as T3. cbn [h_rd h_ann h_wr] in T1, T2, T3.
      eapply hinv_upd; eauto; [unfold th_ok; cbn; auto|]. rewrite mu_set_same. constructor; cbn [m_rd m_wr m_ann]; try lia.
      + rewrite ltb_true by lia. auto.
      + rewrite Ma. f_equal. lia.
    - destruct (m_wr (c_mu c 1)) eqn:EA; [|discriminate]. injection Ep as <- <- <-.
      pose proof (total_ge h_wr _ _ _ Eh) as Gw. cbn in Gw.
      exists (<[i := HR 0]> hs).
      pose proof (TI h_rd (HR 0)) as T1. pose proof (TI h_ann (HR 0)) as T2.
      pose proof (TI h_wr (HR 0)) as T3. cbn [h_rd h_ann h_wr] in T1, T2, T3.
      eapply hinv_upd; eauto; [unfold th_ok; cbn; auto|]. rewrite mu_set_same. constructor; cbn [m_rd m_wr m_ann]; try lia.
      + rewrite ltb_false by lia. auto.
      + rewrite ltb_false by lia. auto.
  Qed.
  Definition made_by (todo : list (list Op)) : Prop := forall i l, todo !! i = Some l -> Forall (P i) l.
  Lemma hinv_init s0 todo : made_by todo -> hinv (conf_init s0 todo) (replicate (length todo) (HR 0)).
  Proof.
    intros AP. assert (Z : forall f, f (HR 0) = 0 -> total f (replicate (length todo) (HR 0)) = 0).
    { intros f E. clear AP. induction todo; cbn; auto. lia. }
    split; [|split]; cbn.
    - rewrite replicate_length, fmap_length. auto.
    - intros i t h Et Eh. apply lookup_replicate in Eh as [-> _].
      rewrite list_lookup_fmap in Et. destruct (todo !! i) eqn:Eo; [|discriminate]. injection Et as <-.
      split; [cbn; eapply AP; eauto | reflexivity].
    - constructor; rewrite ?(Z h_rd), ?(Z h_wr), ?(Z h_ann) by auto; auto.
  Qed.
  Lemma hinv_reach s0 todo c : made_by todo ->
    reachable impl s0 todo c -> returned fatal c \/ exists hs, hinv c hs.
  Proof.
    intros AP [sched E]. assert (X : returned fatal (conf_init (R := R) s0 todo) \/ exists hs, hinv (conf_init s0 todo) hs).
    { right. eexists. now apply hinv_init. }
    revert E X. generalize (conf_init (R := R) s0 todo). induction sched as [|i sched IH]; intros c0 E X; cbn in E.
    - injection E as <-. auto.
    - destruct (conf_step impl c0 i) as [c1|] eqn:Es; [|discriminate]. apply (IH c1); auto.
      destruct X as [F|[hs I]]; [left; eapply returned_step; eauto | eapply hinv_step; eauto].
  Qed.
  Theorem mutex_free_when_quiet s0 todo c :
    made_by todo ->
    reachable impl s0 todo c -> ~ returned fatal c -> quiet c -> c_mu c 1 = mfree.
  Proof.
    intros AP Hr NF Q. destruct (hinv_reach _ _ _ AP Hr) as [|(hs & L & T & M)]; [contradiction|].
    assert (Z : forall f, f (HR 0) = 0 -> total f hs = 0).
    { intros f E. destruct (Nat.eq_0_gt_0_cases (total f hs)) as [|Pt]; auto.
      destruct (total_pos _ _ Pt) as (i & h & Eh & Hp).
      pose proof (lookup_lt_Some _ _ _ Eh) as Lt. rewrite L in Lt. apply lookup_lt_is_Some in Lt as [t Et].
      pose proof (T _ _ _ Et Eh) as O. apply (Forall_lookup_1 _ _ _ _ Q) in Et. destruct O as [_ O]. rewrite Et in O.
      subst h. lia. }
    destruct M as [Mr Mw Ma _ _]. pose proof (Z h_rd eq_refl) as Z1. pose proof (Z h_wr eq_refl) as Z2. pose proof (Z h_ann eq_refl) as Z3.
    rewrite Z1 in Mr. rewrite Z2 in Mw. rewrite Z2, Z3 in Ma.
    destruct (c_mu c 1). cbn in *. subst. reflexivity.
  Qed.

  Theorem section_progress s0 todo c :
    (forall i j, i <> j -> nest i = true -> wrt j = false) -> made_by todo ->
    reachable impl s0 todo c -> ~ returned fatal c -> ~ finished c -> exists i, enabled impl c i.
  Proof.
    intros Hnest AP Hr NF NE. destruct (hinv_reach _ _ _ AP Hr) as [|(hs & L & T & M)]; [contradiction|].
    assert (TH : forall i h, hs !! i = Some h -> exists t, c_ths c !! i = Some t /\ th_ok i t h).
    { intros i h Eh. pose proof (lookup_lt_Some _ _ _ Eh) as Lt. rewrite L in Lt.
      apply lookup_lt_is_Some in Lt as [t Et]. eauto. }
    destruct M as [Mr Mw Ma M1 Mx].
    (* a returning thread can always move *)
    assert (RT : forall i t op r, c_ths c !! i = Some t -> t_cur t = Some (op, Ret r) -> enabled impl c i).
    { intros i t op r Et Ec. unfold enabled, conf_step, thread_step. rewrite Et, Ec. eauto. }
    destruct (Nat.eq_0_gt_0_cases (total h_wr hs)) as [Zw|Pw].
    2:{ destruct (total_pos _ _ Pw) as (i & h & Eh & Hp). destruct h; cbn in Hp; try lia.
        destruct (TH _ _ Eh) as (t & Et & O). exists i. destruct O as [_ O].
        destruct (t_cur t) as [[op p]|] eqn:Ec; [|discriminate]. destruct O as [O _].
        inversion O; subst; [eapply RT; eauto|..]; (eapply enabled_prog; [eauto|eauto|discriminate|]); cbn [prog_step]; eauto.
        rewrite Mw, ltb_true by auto. reflexivity. }
    (* who has announced itself may write *)
    assert (AN : forall i, hs !! i = Some HA -> wrt i = true).
    { intros i Eh. destruct (TH _ _ Eh) as (t & Et & _ & O).
      destruct (t_cur t) as [[op p]|]; [|discriminate]. destruct O as [O W].
      destruct (wrt i); auto. specialize (W eq_refl). inversion O; subst; try congruence. inversion W. }
    destruct (Nat.eq_0_gt_0_cases (total h_rd hs)) as [Zr|Pr].
    2:{ destruct (total_pos _ _ Pr) as (i & h & Eh & Hp). destruct h as [[|n]| |]; cbn in Hp; try lia.
        destruct (TH _ _ Eh) as (t & Et & O). exists i. destruct O as [_ O].
        destruct (t_cur t) as [[op p]|] eqn:Ec; [|discriminate]. destruct O as [O _].
        assert (Hann : nest i = true -> m_ann (c_mu c 1) = false).
        { intros Hi. rewrite Ma, Zw. apply ltb_false.
          destruct (Nat.eq_0_gt_0_cases (total h_ann hs)) as [Za|Pa]; [lia|].
          destruct (total_pos _ _ Pa) as (j & h & Ej & Hj). destruct h; cbn in Hj; try lia.
          assert (i <> j) as Nij by congruence. pose proof (AN _ Ej) as Wj. rewrite (Hnest i j Nij Hi) in Wj. discriminate. }
        destruct (total h_rd hs) as [|m]; [lia|].
        inversion O; subst; [eapply RT; eauto|..];
          try (match goal with H : nest i = true \/ _ |- _ => destruct H as [Hi|]; [|congruence] end;
               eapply enabled_prog; [eauto|eauto|discriminate|]; cbn [prog_step]; rewrite Hann by auto; reflexivity);
          (eapply enabled_prog; [eauto|eauto|discriminate|]); cbn [prog_step]; eauto.
        rewrite Mr. reflexivity. }
    destruct (Nat.eq_0_gt_0_cases (total h_ann hs)) as [Za|Pa].
    2:{ destruct (total_pos _ _ Pa) as (i & h & Eh & Hp). destruct h; cbn in Hp; try lia.
        destruct (TH _ _ Eh) as (t & Et & O). exists i. destruct O as [_ O].
        destruct (t_cur t) as [[op p]|] eqn:Ec; [|discriminate]. destruct O as [O _].
        inversion O; subst; try congruence. eapply enabled_prog; [eauto|eauto|discriminate|].
        cbn [prog_step]. rewrite Mr, Zr. reflexivity. }
    destruct (unfinished_thread _ NE) as (i & t & Et & NFt). exists i.
    pose proof (lookup_lt_Some _ _ _ Et) as Lt. rewrite <- L in Lt. apply lookup_lt_is_Some in Lt as [h Eh].
    destruct (T _ _ _ Et Eh) as [_ O].
    assert (h = HR 0) as ->.
    { pose proof (total_ge h_wr _ _ _ Eh). pose proof (total_ge h_rd _ _ _ Eh). pose proof (total_ge h_ann _ _ _ Eh).
      destruct h as [[|n]| |]; cbn in *; auto; lia. }
    destruct (t_cur t) as [[op p]|] eqn:Ec.
    - destruct O as [O _].
      inversion O; subst; [eapply RT; eauto|..]; (eapply enabled_prog; [eauto|eauto|discriminate|]); cbn [prog_step]; eauto;
        rewrite Ma, ltb_false by lia; reflexivity.
    - unfold enabled, conf_step, thread_step. rewrite Et, Ec.
      destruct (t_todo t) eqn:Eo; [now destruct NFt|]. eauto.
  Qed.
End flat.
