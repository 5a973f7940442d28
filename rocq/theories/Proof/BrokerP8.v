(** What Close removes; goroutines that are left behind. *)
From Verif.Proof Require Export BrokerP7.

Lemma app_cons_split {A} (l1 l2 k1 : list A) x k2 : l1 ++ l2 = k1 ++ x :: k2 ->
  (exists l, l1 = k1 ++ x :: l /\ k2 = l ++ l2) \/ (exists l, k1 = l1 ++ l /\ l2 = l ++ x :: k2).
Proof.
  revert k1. induction l1 as [|y l1 IH]; intros k1 E; simpl in *.
  - right. eauto.
  - destruct k1 as [|z k1]; injection E as -> E.
    + left. eauto.
    + destruct (IH k1 E) as [(l & -> & ->)|(l & -> & ->)]; [left|right]; eauto.
Qed.

(** ** Topics that were subscribed to in the session *)
Lemma tr_subs b c p ch b' p' sp acts t : tr b c p ch b' p' sp acts -> AClosed ∉ acts ->
  is_Some (m_subs (bs_mem b) !! t) -> is_Some (m_subs (bs_mem b') !! t).
Proof.
  intros Ht Hn Hs. destruct Ht; simpl; try done.
  - set_solver.
  - rewrite get_queue_2. unfold pub_make. by destruct (m_topics (bs_mem b) !! t0).
  - rewrite sub_make_eq. simpl. destruct (decide (t = t0)) as [->|]; [rewrite lookup_insert|rewrite lookup_insert_ne by done]; eauto.
  - destruct (decide (t = t0)) as [->|]; [rewrite lookup_insert|rewrite lookup_insert_ne by done]; eauto.
Qed.
Lemma subs_since_exec uuid opts ls cf es t : bexec (broker_init uuid opts) ls = Some (cf, es) ->
  subs_since es t -> is_Some (m_subs (bs_mem (bc_st cf)) !! t).
Proof.
  intros H. revert t. apply (with_base (fun cf es => forall t, subs_since es t -> is_Some (m_subs (bs_mem (bc_st cf)) !! t))) in H.
  - by destruct H.
  - intros t (es0 & k & s & es1 & E & _). by destruct es0.
  - clear. intros cf es l cf' es' B IH _ H t (es0 & k & s & es1 & E & Hc & Hn).
    apply app_cons_split in E as [(l' & -> & ->)|(l' & -> & ->)].
    + assert (Hs : is_Some (m_subs (bs_mem (bc_st cf)) !! t)).
      { apply IH. exists es0, k, s, l'. split_and!; [done|done|]. intros (j & Hj). apply Hn. exists j. rewrite elem_of_app. by left. }
      destruct (step_change _ _ _ _ H) as [i c p ch p' sp acts Hi Ht -> _| -> _ _ _ _|ctx' -> ->|d -> ->]; try done.
      eapply tr_subs; [done| |done]. intros Ha. apply Hn. exists i. rewrite elem_of_app, elem_acts_act. by right.
    + pose proof (base_step _ _ _ _ _ B H) as B'.
      assert (Hr : ERet k (Ok (Some s)) ∈ es ++ l' ++ ERet k (Ok (Some s)) :: es1) by set_solver.
      apply (base_ret _ _ B') in Hr as (c & Hr).
      assert (Hcl : ECall k (CSub t) ∈ es ++ l' ++ ERet k (Ok (Some s)) :: es1) by set_solver.
      apply (base_call _ _ B') in Hcl as (_ & p0 & Hp0). simplify_eq.
      destruct (step_before _ _ _ _ _ _ _ H Hr) as
        [Hj0| _ ? _|k0 ck pk ch b' p' acts _ ? _ _ _ _|p0 ch sp acts Hj0 Ht _|q e' d ctx t' m o _ ? _ _ _|m d x Hj0 ? _ _|m x Hj0 ? _ _];
        try done.
      * exfalso. assert (Hold : ERet k (Ok (Some s)) ∈ es) by (apply (base_ret _ _ B); eauto).
        (* a call returns once *)
        clear -H Hj0 B. remember (l' ++ ERet k (Ok (Some s)) :: es1) as es' eqn:E.
        assert (Hin : ERet k (Ok (Some s)) ∈ es') by set_solver. clear E.
        destruct H as [c0 Hc|ctx|d|i0 ch c0 p0 b' p' sp acts Hi Ht|
          i0 j ctx t' m0 o q e d cj ctxj s' oj sb dj Hi Hj Ha Hs Hcap Hq|
          i0 j ctx t' m0 o q e d cj ctxj s' oj sb Hi Hj Ha Hs Hcap Hq]; try set_solver.
        apply elem_acts_ret in Hin as [-> ->]. simplify_eq. by eapply tr_not_done.
      * destruct (tr_sub_done _ _ _ _ _ _ _ _ _ Ht eq_refl) as (t' & [= <-] & E & _).
        rewrite E, sub_make_eq. simpl. rewrite lookup_insert. eauto.
Qed.

(** ** After Close such topics start with a new channel *)
Definition renewed (N K H : nat) (t : string) (cf : bconf) : Prop :=
  N <= bs_next (bc_st cf) /\ H <= length (bs_heap (bc_st cf)) /\ K <= length (bc_ths cf) /\
  (forall q, m_topics (bs_mem (bc_st cf)) !! t = Some q -> N <= q_msg q) /\
  (forall s sb, bs_heap (bc_st cf) !! s = Some sb -> H <= s -> s_topic sb = t -> N <= q_msg (s_queue sb)) /\
  (forall k s, K <= k -> bc_ths cf !! k = Some (CSub t, PDone (Ok (Some s))) -> H <= s).
Lemma renewed_st N K H t b b' : 
  N <= bs_next b -> H <= length (bs_heap b) ->
  (forall q, m_topics (bs_mem b) !! t = Some q -> N <= q_msg q) ->
  (forall s sb, bs_heap b !! s = Some sb -> H <= s -> s_topic sb = t -> N <= q_msg (s_queue sb)) ->
  forall c p ch p' sp acts, tr b c p ch b' p' sp acts ->
  N <= bs_next b' /\ H <= length (bs_heap b') /\
  (forall q, m_topics (bs_mem b') !! t = Some q -> N <= q_msg q) /\
  (forall s sb, bs_heap b' !! s = Some sb -> H <= s -> s_topic sb = t -> N <= q_msg (s_queue sb)) /\
  (K <= K).
Proof.
  intros H1 H2 H3 H4 c p ch p' sp acts Ht. pose proof (tr_next _ _ _ _ _ _ _ _ Ht) as Hn.
  split; [lia|].
  assert (Hq : forall t0 q, sub_topics b t0 !! t = Some q -> N <= q_msg q).
  { intros t0 q. unfold sub_topics. destruct (m_topics (bs_mem b) !! t0) eqn:E; [apply H3|].
    rewrite lookup_insert_Some. intros [[-> <-]|[_ Hq]]; [simpl; lia|by apply H3]. }
  destruct Ht; simpl; try (by split_and!).
  - split_and!; try done. intros q. rewrite close_topics_lookup. destruct (m_subs (bs_mem b) !! t); [done|apply H3].
  - rewrite get_queue_2. unfold pub_make. destruct (m_topics (bs_mem b) !! t0) eqn:E; simpl; split_and!; try done.
    specialize (Hq t0). unfold sub_topics in Hq. by rewrite E in Hq.
  - rewrite sub_make_eq. simpl. rewrite app_length. split_and!; try lia.
    + apply Hq.
    + intros s sb. rewrite lookup_app_Some, list_lookup_singleton_Some. intros [Hs|(_ & _ & <-)] Hle Et.
      * by eapply H4.
      * simpl in *. subst t0. unfold sub_queue. destruct (m_topics (bs_mem b) !! t) eqn:E; [by apply H3|]. simpl. lia.
  - rewrite insert_length. split_and!; try done.
    intros s' sb'. rewrite list_lookup_insert_Some. intros [(-> & <- & _)|[_ Hs]]; [|by apply H4]. simpl. by apply H4.
Qed.
Lemma renewed_step N K H t cf es l cf' es' : base cf es -> renewed N K H t cf -> step cf l cf' es' -> renewed N K H t cf'.
Proof.
  intros B (H1 & H2 & H3 & H4 & H5 & H6) Hst. unfold renewed.
  assert (G : N <= bs_next (bc_st cf') /\ H <= length (bs_heap (bc_st cf')) /\
    (forall q, m_topics (bs_mem (bc_st cf')) !! t = Some q -> N <= q_msg q) /\
    (forall s sb, bs_heap (bc_st cf') !! s = Some sb -> H <= s -> s_topic sb = t -> N <= q_msg (s_queue sb))).
  { destruct (step_change _ _ _ _ Hst) as [i c p ch p' sp acts Hi Ht -> _| -> _ _ _ _|ctx' -> ->|d -> ->]; try done.
    destruct (renewed_st N K H t _ _ H1 H2 H4 H5 _ _ _ _ _ _ Ht) as (? & ? & ? & ? & _). done. }
  destruct G as (G1 & G2 & G3 & G4).
  split_and!; try done.
  - clear -H3 Hst. destruct Hst; simpl; rewrite ?app_length, ?insert_length; lia.
  - intros k s Hk Hd. destruct (step_before _ _ _ _ _ _ _ Hst Hd) as
      [Hj0| _ ? _|k0 ck pk ch b' p' acts _ ? _ _ _ _|p0 ch sp acts Hj0 Ht _|q e' d ctx t' m o _ ? _ _ _|m d x Hj0 ? _ _|m x Hj0 ? _ _];
      try done.
    + by eapply H6.
    + destruct (tr_sub_done _ _ _ _ _ _ _ _ _ Ht eq_refl) as (t' & [= <-] & _ & ->). done.
Qed.
Lemma close_renews cf es l cf' es' k t : base cf es -> has_sub cf es -> step cf l cf' es' -> EAct k AClosed ∈ es' ->
  is_Some (m_subs (bs_mem (bc_st cf)) !! t) ->
  renewed (bs_next (bc_st cf')) (length (bc_ths cf')) (length (bs_heap (bc_st cf'))) t cf'.
Proof.
  intros B _ H Ha [x Hx]. unfold renewed. split_and!; try done.
  - intros q Hq. exfalso.
    assert (Hr : exists e, bc_st cf' = close_st (bc_st cf) e).
    { destruct H as [c0 Hc|ctx|d|i0 ch c0 p0 b' p' sp acts Hi Ht|
        i0 j ctx t' m0 o q0 e d cj ctxj s' oj sb dj Hi Hj Har Hs Hcap Hq0|
        i0 j ctx t' m0 o q0 e d cj ctxj s' oj sb Hi Hj Har Hs Hcap Hq0]; try set_solver.
      apply elem_acts_act in Ha as [-> Ha]. destruct Ht; try set_solver. }
    destruct Hr as [e He]. rewrite He in Hq. simpl in Hq. rewrite close_topics_lookup, Hx in Hq. done.
  - intros s sb Hs Hle. apply lookup_lt_Some in Hs. lia.
  - intros k' s Hle Hk'. apply lookup_lt_Some in Hk'. lia.
Qed.
Lemma sent_nil c es : (forall i m, EAct i (ASend c m) ∉ es) -> sent c es = [].
Proof.
  intros H. induction es as [|e es IH]; [done|]. simpl.
  assert (IH' : sent c es = []) by (apply IH; intros i m Hin; eapply H; right; done).
  destruct e; try apply IH'. destruct a; try apply IH'. destruct (Nat.eqb_spec c0 c); [|apply IH'].
  subst. exfalso. eapply H. left.
Qed.
Lemma fresh_channel T cf es c : chans T cf es -> bs_next (bc_st cf) <= c -> sent c es = [].
Proof.
  intros C Hle. apply sent_nil. intros i m Hin. apply (ch_send _ _ _ C) in Hin as (? & t & ? & _ & HT).
  destruct (ch_ty _ _ _ C) as [Hty _].
  assert (c < bs_next (bc_st cf)); [|lia].
  apply (sty_lt _ _ Hty), (sty_dom _ _ Hty). eauto.
Qed.

(** ** A goroutine left behind by a second Open *)
Definition left_behind (ctx i e ctl : nat) (cf : bconf) : Prop :=
  bc_ths cf !! i = Some (CRun ctx, PRunWait (Some e) (Some ctl)) /\
  good_exit (bc_st cf) e /\ e ∉ bs_closed (bc_st cf) /\ m_exit (bs_mem (bc_st cf)) <> Some e /\
  ctl < bs_next (bc_st cf) /\ bs_ctls (bc_st cf) !! ctl = Some [] /\ m_ctl (bs_mem (bc_st cf)) <> Some ctl /\
  (forall s sb, bs_heap (bc_st cf) !! s = Some sb -> s_ctl sb <> Some ctl) /\
  ctx ∉ bs_cancelled (bc_st cf).
Lemma left_behind_step ctx i e ctl cf l cf' es' : left_behind ctx i e ctl cf -> step cf l cf' es' ->
  l <> LCancel ctx -> left_behind ctx i e ctl cf'.
Proof.
  intros (H1 & H2 & H3 & H4 & H5 & H6 & H7 & H8 & H9) H Hl.
  assert (Hlt : i < length (bc_ths cf)) by by eapply lookup_lt_Some.
  destruct H as [c0 Hc|ctx'|d|i0 ch c0 p0 b' p' sp acts Hi Ht|
    i0 j ctx' t m0 o q e' d cj ctxj s oj sb dj Hi Hj Ha Hs Hcap Hq|
    i0 j ctx' t m0 o q e' d cj ctxj s oj sb Hi Hj Ha Hs Hcap Hq].
  - split_and!; try done. cbn [bc_ths]. rewrite ths_call. by left.
  - split_and!; try done. simpl. rewrite elem_of_union, elem_of_singleton. intros [->|?]; done.
  - by split_and!.
  - assert (i0 < length (bc_ths cf)) by by eapply lookup_lt_Some.
    pose proof (tr_next _ _ _ _ _ _ _ _ Ht) as Hn.
    destruct (decide (i0 = i)) as [->|Hne].
    + exfalso. simplify_eq. inversion Ht; subst; simplify_eq.
    + unfold left_behind. cbn [bc_ths bc_st]. split; [rewrite ths_step by done; by right; left|].
      split; [by eapply good_tr|].
      destruct (tr_env _ _ _ _ _ _ _ _ Ht) as [Ecan _]. destruct H2 as [H2 H2'].
      rewrite Ecan.
      destruct Ht; simpl in *; try (by split_and!).
      * split_and!; try done; try lia. intros [= E]. lia.
      * split_and!; try done; try lia.
        -- rewrite lookup_insert_ne by lia. done.
        -- intros [= E]. lia.
      * split_and!; try done. rewrite elem_of_union, elem_of_singleton. intros [->|?]; done.
      * rewrite get_queue_2 in *. unfold pub_make in *. destruct (m_topics (bs_mem (bc_st cf)) !! t); simpl in *; split_and!; try done; lia.
      * rewrite sub_make_eq in *. simpl in *. split_and!; try done; try lia.
        intros s sb. rewrite lookup_app_Some, list_lookup_singleton_Some. intros [Hs|(_ & _ & <-)]; [by eapply H8|done].
      * split_and!; try done. rewrite elem_of_union, elem_of_singleton. intros [->|?]; [|done]. by eapply H2'.
      * split_and!; try done. intros s' sb'. rewrite list_lookup_insert_Some. intros [(-> & <- & _)|[_ Hs]]; [|by eapply H8].
        simpl. by eapply H8.
      * split_and!; try done. rewrite lookup_insert_ne; [done|]. intros ->. by eapply H8.
      * split_and!; try done. rewrite lookup_insert_ne; [done|]. intros ->. by simplify_eq.
  - assert (i0 < length (bc_ths cf)) by by eapply lookup_lt_Some.
    assert (j < length (bc_ths cf)) by by eapply lookup_lt_Some.
    assert (Hne : i0 <> j) by by eapply meet_ne.
    split_and!; try done. cbn [bc_ths]. rewrite ths_meet by done. right; right.
    split_and!; [| |done]; intros ->; simplify_eq.
  - assert (i0 < length (bc_ths cf)) by by eapply lookup_lt_Some.
    assert (j < length (bc_ths cf)) by by eapply lookup_lt_Some.
    assert (Hne : i0 <> j) by by eapply meet_ne.
    split_and!; try done. cbn [bc_ths]. rewrite ths_meet by done. right; right.
    split_and!; [| |done]; intros ->; simplify_eq.
Qed.
Lemma left_behind_exec ctx i e ctl cf ls cf' es' : left_behind ctx i e ctl cf -> LCancel ctx ∉ ls ->
  bexec cf ls = Some (cf', es') -> left_behind ctx i e ctl cf'.
Proof.
  revert cf es'. induction ls as [|l ls IH]; intros cf es' H Hn He; [simpl in He; by simplify_eq|].
  apply bexec_cons in He as (cf1 & es1 & es2 & Hs%bstep_step & He & _). apply not_elem_of_cons in Hn as [Hn1 Hn2].
  eapply IH; [|done|done]. eapply left_behind_step; [done|done|]. congruence.
Qed.
