(** Sessions: exit channels, the lock, who closes a session and why. *)
From Verif.Proof Require Export BrokerP3.

(** A channel that is no subscriber's exit channel. *)
Definition good_exit (b : bstate) (e : nat) : Prop :=
  e < bs_next b /\ forall s sb, bs_heap b !! s = Some sb -> s_exit sb <> e.
(** Session exit channels the state and a goroutine refer to. *)
Definition st_exit (b : bstate) (e : nat) : Prop :=
  m_exit (bs_mem b) = Some e \/
  (exists t q, m_topics (bs_mem b) !! t = Some q /\ q_exit q = Some e) \/
  (exists s sb, bs_heap b !! s = Some sb /\ q_exit (s_queue sb) = Some e).
Definition pc_exit (p : pc) (e : nat) : Prop :=
  match p with
  | PPubSel q => q_exit q = Some e
  | PPubWait q e' _ => q_exit q = Some e \/ e' = Some e
  | PRunCtl e' | PRunWait e' _ => e' = Some e
  | _ => False
  end.
Record sinv (b : bstate) : Prop := {
  si_conn : m_connected (bs_mem b) = true -> exists e, m_exit (bs_mem b) = Some e /\ e ∉ bs_closed b;
  si_clt : forall e, e ∈ bs_closed b -> e < bs_next b;
  si_hlt : forall s sb, bs_heap b !! s = Some sb -> s_exit sb < bs_next b;
  si_inj : forall s sb s' sb', bs_heap b !! s = Some sb -> bs_heap b !! s' = Some sb' ->
    s_exit sb = s_exit sb' -> s = s';
  si_good : forall e, st_exit b e -> good_exit b e;
}.
Lemma tr_next b c p ch b' p' sp acts : tr b c p ch b' p' sp acts -> bs_next b <= bs_next b'.
Proof.
  destruct 1; simpl; try lia.
  - rewrite get_queue_2. unfold pub_make. destruct (m_topics (bs_mem b) !! t); simpl; lia.
  - rewrite sub_make_eq. simpl. unfold sub_exit. destruct (m_topics (bs_mem b) !! t); lia.
Qed.
Lemma sub_exit_ge b t : bs_next b <= sub_exit b t.
Proof. unfold sub_exit. destruct (m_topics (bs_mem b) !! t); lia. Qed.
Lemma good_tr b c p ch b' p' sp acts e : tr b c p ch b' p' sp acts -> good_exit b e -> good_exit b' e.
Proof.
  intros H [H1 H2]. pose proof (tr_next _ _ _ _ _ _ _ _ H). split; [lia|].
  intros s sb' Hs. destruct (tr_heap_new _ _ _ _ _ _ _ _ _ _ H Hs) as [(sb & Hs' & Hsame)|(-> & _ & t & _ & ->)].
  - destruct Hsame as (_ & _ & _ & _ & -> & _). by eapply H2.
  - simpl. pose proof (sub_exit_ge b t). lia.
Qed.
(** The heap changes only by Sub and Unsubscribe. *)
Lemma sinv_heap b b' : sinv b ->
  bs_heap b' = bs_heap b -> bs_next b <= bs_next b' ->
  (m_connected (bs_mem b') = true -> exists e, m_exit (bs_mem b') = Some e /\ e ∉ bs_closed b') ->
  (forall e, e ∈ bs_closed b' -> e < bs_next b') ->
  (forall e, st_exit b' e -> st_exit b e \/ bs_next b <= e < bs_next b') ->
  sinv b'.
Proof.
  intros S Hh Hn Hc Hl Hg. split; [done|done|..].
  - intros s sb. rewrite Hh. intros H. apply (si_hlt _ S) in H. lia.
  - rewrite Hh. apply (si_inj _ S).
  - intros e He. apply Hg in He as [He|He].
    + destruct (si_good _ S _ He) as [G1 G2]. split; [lia|]. by rewrite Hh.
    + split; [lia|]. intros s sb. rewrite Hh. intros H. apply (si_hlt _ S) in H. lia.
Qed.
Lemma st_exit_queue b t e : st_exit b e \/ q_exit (sub_queue b t) <> Some e \/ st_exit b e.
Proof.
  destruct (decide (q_exit (sub_queue b t) = Some e)) as [E|]; [|by right; left].
  left. unfold sub_queue in E. destruct (m_topics (bs_mem b) !! t) as [q|] eqn:Eq.
  - right; left. eauto.
  - left. done.
Qed.
Lemma sub_queue_exit b t e : q_exit (sub_queue b t) = Some e -> st_exit b e.
Proof. destruct (st_exit_queue b t e) as [?|[?|?]]; naive_solver. Qed.
Lemma st_exit_topics b t e :
  (exists t' q, sub_topics b t !! t' = Some q /\ q_exit q = Some e) -> st_exit b e.
Proof.
  intros (t' & q & Hq & He). unfold sub_topics in Hq.
  destruct (m_topics (bs_mem b) !! t) eqn:E; [right; left; eauto|].
  rewrite lookup_insert_Some in Hq. destruct Hq as [[-> <-]|[_ Hq]]; [by left|right; left; eauto].
Qed.
Lemma sinv_tr b c p ch b' p' sp acts : sinv b -> (forall e, pc_exit p e -> good_exit b e) ->
  tr b c p ch b' p' sp acts -> sinv b'.
Proof.
  intros S P H. pose proof (tr_next _ _ _ _ _ _ _ _ H) as Hn.
  destruct H; try exact S; try (by destruct S as [S1 S2 S3 S4 S5]; split).
  - (* open set *) eapply sinv_heap; [done|done|done|..]; simpl.
    + intros _. eexists. split; [done|]. intros Hin%(si_clt _ S). lia.
    + intros e He%(si_clt _ S). lia.
    + intros e [He|He]; simpl in He.
      * simplify_eq. right. lia.
      * left. by right.
  - eapply sinv_heap; [done|done|done|..]; simpl.
    + apply (si_conn _ S).
    + intros e He%(si_clt _ S). lia.
    + intros e He. by left.
  - (* close *) eapply sinv_heap; [done|done|done|..]; simpl; [done|..].
    + intros e'. rewrite elem_of_union, elem_of_singleton. intros [->|He]; [|by apply (si_clt _ S)].
      apply (si_good _ S). by left.
    + intros e' [He|[(t & q & Hq & He)|He]]; simpl in *.
      * left. by left.
      * left. right; left. rewrite close_topics_lookup in Hq. destruct (m_subs (bs_mem b) !! t); [done|]. eauto.
      * left. by right; right.
  - (* pub *) rewrite get_queue_2 in *. unfold pub_make in *.
    destruct (m_topics (bs_mem b) !! t) eqn:E; [done|].
    eapply sinv_heap; [done|done|done|..]; simpl.
    + apply (si_conn _ S).
    + intros e He%(si_clt _ S). lia.
    + intros e [He|[He|He]]; left.
      * by left.
      * apply (st_exit_topics b t). unfold sub_topics. by rewrite E.
      * by right; right.
  - (* sub *) rewrite sub_make_eq in *. simpl in Hn. pose proof (sub_exit_ge b t) as Hge. split; simpl.
    + apply (si_conn _ S).
    + intros e He%(si_clt _ S). lia.
    + intros s sb. rewrite lookup_app_Some, list_lookup_singleton_Some.
      intros [Hs|(_ & _ & <-)]; [apply (si_hlt _ S) in Hs|simpl]; lia.
    + intros s sb s' sb'. rewrite !lookup_app_Some, !list_lookup_singleton_Some.
      intros [Hs|(? & ? & <-)] [Hs'|(? & ? & <-)] E; simpl in E.
      * by eapply (si_inj _ S).
      * apply (si_hlt _ S) in Hs. lia.
      * apply (si_hlt _ S) in Hs'. lia.
      * lia.
    + intros e He.
      assert (He' : st_exit b e).
      { destruct He as [He|[He|(s & sb & Hs & He)]]; simpl in *.
        - by left.
        - by eapply st_exit_topics.
        - rewrite lookup_app_Some, list_lookup_singleton_Some in Hs. destruct Hs as [Hs|(_ & _ & <-)].
          + right; right. eauto.
          + by apply (sub_queue_exit b t). }
      destruct (si_good _ S _ He') as [G1 G2]. split; simpl; [lia|].
      intros s sb. rewrite lookup_app_Some, list_lookup_singleton_Some.
      intros [Hs|(_ & _ & <-)]; [by eapply G2|simpl; lia].
  - (* unsub close *) destruct S as [S1 S2 S3 S4 S5]; split; simpl; auto.
    + intros Hc. destruct (S1 Hc) as (e & He & Hn'). exists e. split; [done|].
      rewrite elem_of_union, elem_of_singleton. intros [->|?]; [|done].
      destruct (S5 (s_exit sb)) as [_ G]; [by left|]. by eapply G.
    + intros e. rewrite elem_of_union, elem_of_singleton. intros [->|He]; [by eapply S3|by apply S2].
  - (* unsub set *) destruct S as [S1 S2 S3 S4 S5].
    assert (Hl : forall s' sb', <[s:=deactivate sb]> (bs_heap b) !! s' = Some sb' ->
      exists sb0, bs_heap b !! s' = Some sb0 /\ s_exit sb' = s_exit sb0 /\ s_queue sb' = s_queue sb0).
    { intros s' sb'. rewrite list_lookup_insert_Some. intros [(-> & <- & _)|[_ Hs]]; eauto. }
    split; simpl; auto.
    + intros s' sb' (sb0 & Hs & -> & _)%Hl. by eapply S3.
    + intros s1 sb1 s2 sb2 (x1 & Hx1 & -> & _)%Hl (x2 & Hx2 & -> & _)%Hl. by apply S4.
    + intros e He. assert (He' : st_exit b e).
      { destruct He as [He|[He|(s' & sb' & Hs & He)]]; simpl in *.
        - by left.
        - by right; left.
        - apply Hl in Hs as (sb0 & Hs & _ & Eq). right; right. rewrite Eq in He. eauto. }
      destruct (S5 _ He') as [G1 G2]. split; [done|]. simpl. intros s' sb' (sb0 & Hs & -> & _)%Hl. by eapply G2.
Qed.

Lemma pc_exit_tr b c p ch b' p' sp acts e : tr b c p ch b' p' sp acts -> pc_exit p' e ->
  st_exit b e \/ pc_exit p e.
Proof.
  destruct 1; simpl; try done; try (by left; left); try (by right); try (destruct c; done).
  - rewrite get_queue_1. left. by eapply sub_queue_exit.
  - intros [?|?]; [by right|by left; left].
  - by destruct c, e0.
Qed.

(** Invariant of the whole machine. *)
Record sess (cf : bconf) (es : list event) : Prop := {
  se_st : sinv (bc_st cf);
  se_pc : forall i c p e, bc_ths cf !! i = Some (c, p) -> pc_exit p e -> good_exit (bc_st cf) e;
  se_conn : m_connected (bs_mem (bc_st cf)) = true <-> in_session es;
  se_closed : forall e, e ∈ bs_closed (bc_st cf) ->
    (exists s sb, bs_heap (bc_st cf) !! s = Some sb /\ s_exit sb = e /\
       exists i, ECall i (CUnsub s) ∈ es) \/ (exists k, EAct k AClosed ∈ es);
  se_canc : forall ctx, ctx ∈ bs_cancelled (bc_st cf) <-> ECancel ctx ∈ es;
  se_now : bs_now (bc_st cf) = elapsed es;
  se_lock : bs_locked (bc_st cf) = true -> exists i ctx, bc_ths cf !! i = Some (COpen ctx, POpenCtl);
  se_cpub : forall i ctx t m o, bc_ths cf !! i = Some (CPub ctx t m o, PCloseGo) -> ECancel ctx ∈ es;
  se_crun : forall i ctx, bc_ths cf !! i = Some (CRun ctx, PCloseGo) ->
    ECancel ctx ∈ es \/ exists k, EAct k AClosed ∈ es;
  se_run : forall i ctx p, bc_ths cf !! i = Some (CRun ctx, p) ->
    exists j, bc_ths cf !! j = Some (COpen ctx, PDone (Ok None));
  se_panic : forall i c x, bc_ths cf !! i = Some (c, PPanicked x) -> exists s, c = CUnsub s;
}.

Lemma in_session_app es es' : in_session (es ++ es') <->
  match last (omap session_event es') with Some x => x = true | None => in_session es end.
Proof.
  unfold in_session. rewrite omap_app, last_app.
  destruct (last (omap session_event es')) as [x|]; [|done]. split; [by intros [= ->]|by intros ->].
Qed.
Lemma elapsed_app es es' : elapsed (es ++ es') = (elapsed es + elapsed es')%Z.
Proof.
  unfold elapsed. rewrite omap_app, foldr_app.
  generalize (foldr Z.add 0%Z (omap (λ e, match e with ETick d => Some (Z.of_N d) | _ => None end) es')).
  induction (omap (λ e, match e with ETick d => Some (Z.of_N d) | _ => None end) es) as [|x l IH]; intros z; simpl; [lia|].
  rewrite IH. lia.
Qed.
Lemma elapsed_acts i acts p : elapsed ((EAct i <$> acts) ++ ret_event i p) = 0%Z.
Proof.
  rewrite elapsed_app. assert (elapsed (ret_event i p) = 0%Z) as -> by by destruct p.
  rewrite Z.add_0_r. induction acts as [|a acts IH]; [done|]. unfold elapsed in *. by simpl.
Qed.
Lemma session_acts i acts p : omap session_event ((EAct i <$> acts) ++ ret_event i p) =
  omap (fun a => match a with AOpened => Some true | AClosed => Some false | _ => None end) acts.
Proof.
  rewrite omap_app. assert (omap session_event (ret_event i p) = []) as -> by by destruct p.
  rewrite app_nil_r. induction acts as [|a acts IH]; [done|]. simpl. destruct a; simpl; try apply IH; f_equal; apply IH.
Qed.
Lemma tr_session b c p ch b' p' sp acts : tr b c p ch b' p' sp acts ->
  match last (omap (fun a => match a with AOpened => Some true | AClosed => Some false | _ => None end) acts) with
  | Some x => m_connected (bs_mem b') = x
  | None => m_connected (bs_mem b') = m_connected (bs_mem b)
  end.
Proof.
  destruct 1; simpl; try done.
  - rewrite get_queue_2. unfold pub_make. by destruct (m_topics (bs_mem b) !! t).
  - by rewrite sub_make_eq.
Qed.
Lemma tr_env b c p ch b' p' sp acts : tr b c p ch b' p' sp acts ->
  bs_cancelled b' = bs_cancelled b /\ bs_now b' = bs_now b.
Proof.
  destruct 1; simpl; try done.
  - rewrite get_queue_2. unfold pub_make. by destruct (m_topics (bs_mem b) !! t).
  - by rewrite sub_make_eq.
Qed.
Lemma tr_closed b c p ch b' p' sp acts e : tr b c p ch b' p' sp acts -> e ∈ bs_closed b' ->
  e ∈ bs_closed b \/ AClosed ∈ acts \/ exists s sb, c = CUnsub s /\ bs_heap b !! s = Some sb /\ s_exit sb = e.
Proof.
  destruct 1; simpl; try (by left).
  - intros _. right; left. left.
  - rewrite get_queue_2. unfold pub_make. destruct (m_topics (bs_mem b) !! t); by left.
  - rewrite sub_make_eq. by left.
  - rewrite elem_of_union, elem_of_singleton. intros [->|?]; [|by left]. right; right. eauto.
Qed.
Lemma tr_locked b c p ch b' p' sp acts : tr b c p ch b' p' sp acts -> wf_pc c p -> bs_locked b' = true ->
  (bs_locked b = true /\ p <> POpenCtl) \/ (p' = POpenCtl /\ exists ctx, c = COpen ctx).
Proof.
  destruct 1; simpl; try congruence; intros Hw Hl; try (by left).
  - right. split; [done|]. destruct c; try done. eauto.
  - rewrite get_queue_2 in Hl. unfold pub_make in Hl. destruct (m_topics (bs_mem b) !! t); simpl in Hl; congruence.
  - rewrite sub_make_eq in Hl. simpl in Hl. congruence.
Qed.
Lemma tr_to_close b c p ch b' p' sp acts : tr b c p ch b' p' sp acts -> p' = PCloseGo ->
  b' = b /\ acts = [] /\ ((exists ctx t m o, c = CPub ctx t m o /\ ctx ∈ bs_cancelled b) \/
  (exists ctx, c = CRun ctx /\ ctx ∈ bs_cancelled b) \/
  (exists e ctl, p = PRunWait (Some e) ctl /\ e ∈ bs_closed b)).
Proof.
  destruct 1; try done; intros E; try (by destruct c); try (by destruct c, e); split_and!; try done; eauto 10.
Qed.
Lemma tr_panic b c p ch b' p' sp acts x : sinv b -> tr b c p ch b' p' sp acts -> p' = PPanicked x ->
  exists s, c = CUnsub s.
Proof.
  intros S. destruct 1; try done; intros E; try (by destruct c); try (by destruct c, e); eauto.
  destruct (si_conn _ S) as (e & He & Hn); [done|]. exfalso. by apply Hn, H1.
Qed.
Lemma good_step cf l cf' es' e : step cf l cf' es' -> good_exit (bc_st cf) e -> good_exit (bc_st cf') e.
Proof. destruct 1; try done. by eapply good_tr. Qed.

(** Where a goroutine found after a step was before it. *)
Inductive before (cf cf' : bconf) (es' : list event) (i : nat) (c : call) (p : pc) : Prop :=
| bf_same : bc_ths cf !! i = Some (c, p) -> before cf cf' es' i c p
| bf_call : i = length (bc_ths cf) -> p = pc_start c -> client (bc_st cf) c = true ->
    before cf cf' es' i c p
| bf_spawn k ck pk ch b' p' acts : i = length (bc_ths cf) -> p = pc_start c ->
    bc_ths cf !! k = Some (ck, pk) -> tr (bc_st cf) ck pk ch b' p' (Some c) acts -> bc_st cf' = b' ->
    bc_ths cf' !! k = Some (ck, p') -> before cf cf' es' i c p
| bf_tr p0 ch sp acts : bc_ths cf !! i = Some (c, p0) -> tr (bc_st cf) c p0 ch (bc_st cf') p sp acts ->
    es' = (EAct i <$> acts) ++ ret_event i p -> before cf cf' es' i c p
| bf_send q e d ctx t m o : bc_ths cf !! i = Some (c, PPubWait q e d) -> c = CPub ctx t m o ->
    p = PDone (Ok None) -> EAct i (ASend (q_msg q) m) ∈ es' -> bc_st cf' = bc_st cf -> before cf cf' es' i c p
| bf_take m d x : bc_ths cf !! i = Some (c, PRecvWait d) -> p = PRecvHandle m ->
    EAct i (ATake x m) ∈ es' -> bc_st cf' = bc_st cf -> before cf cf' es' i c p
| bf_drop m x : bc_ths cf !! i = Some (c, PRecvDrop) -> p = PDone (Err BrokerErrTimeout) ->
    EAct i (ATake x m) ∈ es' -> bc_st cf' = bc_st cf -> before cf cf' es' i c p.
Lemma step_before cf l cf' es' i c p : step cf l cf' es' -> bc_ths cf' !! i = Some (c, p) ->
  before cf cf' es' i c p.
Proof.
  destruct 1 as [c0 Hc|ctx|d|i0 ch c0 p0 b' p' sp acts Hi Ht|
    i0 j ctx t m0 o q e d cj ctxj s oj sb dj Hi Hj Ha Hs Hcap Hq|
    i0 j ctx t m0 o q e d cj ctxj s oj sb Hi Hj Ha Hs Hcap Hq]; simpl; intros Hl.
  - rewrite ths_call in Hl. destruct Hl as [?|[-> [= -> ->]]]; [by apply bf_same|by eapply bf_call].
  - by apply bf_same.
  - by apply bf_same.
  - assert (Hlt : i0 < length (bc_ths cf)) by by eapply lookup_lt_Some.
    rewrite ths_step in Hl by done.
    destruct Hl as [[-> [= -> ->]]|[[? ?]|[-> (c1 & -> & [= -> ->])]]].
    + by eapply bf_tr.
    + by apply bf_same.
    + eapply bf_spawn; eauto. cbn [bc_ths]. rewrite (ths_step _ _ _ _ (Some c1)) by done. by left.
  - assert (Hlti : i0 < length (bc_ths cf)) by by eapply lookup_lt_Some.
    assert (Hltj : j < length (bc_ths cf)) by by eapply lookup_lt_Some.
    assert (Hne : i0 <> j) by by eapply meet_ne.
    rewrite ths_meet in Hl by done.
    destruct Hl as [[-> [= -> ->]]|[[-> [= -> ->]]|(? & ? & ?)]].
    + eapply (bf_take _ _ _ _ _ _ m0 dj (q_msg q)); eauto. set_solver.
    + eapply bf_send; eauto. set_solver.
    + by apply bf_same.
  - assert (Hlti : i0 < length (bc_ths cf)) by by eapply lookup_lt_Some.
    assert (Hltj : j < length (bc_ths cf)) by by eapply lookup_lt_Some.
    assert (Hne : i0 <> j) by by eapply meet_ne.
    rewrite ths_meet in Hl by done.
    destruct Hl as [[-> [= -> ->]]|[[-> [= -> ->]]|(? & ? & ?)]].
    + eapply (bf_drop _ _ _ _ _ _ m0 (q_msg q)); eauto. set_solver.
    + eapply bf_send; eauto. set_solver.
    + by apply bf_same.
Qed.
(** What a step does to the shared state. *)
Inductive st_change (cf cf' : bconf) (es' : list event) : Prop :=
| sc_tr i c p ch p' sp acts : bc_ths cf !! i = Some (c, p) -> tr (bc_st cf) c p ch (bc_st cf') p' sp acts ->
    es' = (EAct i <$> acts) ++ ret_event i p' -> bc_ths cf' = <[i := (c, p')]> (bc_ths cf) ++ spawned sp ->
    st_change cf cf' es'
| sc_same : bc_st cf' = bc_st cf -> elapsed es' = 0%Z -> (forall ctx, ECancel ctx ∉ es') ->
    omap session_event es' = [] -> (forall i c, bc_ths cf !! i = Some (c, POpenCtl) -> bc_ths cf' !! i = Some (c, POpenCtl)) ->
    st_change cf cf' es'
| sc_cancel ctx : cf' = BConf (set_cancelled (bc_st cf) ({[ctx]} ∪ bs_cancelled (bc_st cf))) (bc_ths cf) ->
    es' = [ECancel ctx] -> st_change cf cf' es'
| sc_tick d : cf' = BConf (set_now (bc_st cf) (bs_now (bc_st cf) + Z.of_N d)) (bc_ths cf) ->
    es' = [ETick d] -> st_change cf cf' es'.
Lemma step_change cf l cf' es' : step cf l cf' es' -> st_change cf cf' es'.
Proof.
  destruct 1 as [c0 Hc|ctx|d|i0 ch c0 p0 b' p' sp acts Hi Ht|
    i0 j ctx t m0 o q e d cj ctxj s oj sb dj Hi Hj Ha Hs Hcap Hq|
    i0 j ctx t m0 o q e d cj ctxj s oj sb Hi Hj Ha Hs Hcap Hq].
  - apply sc_same; simpl; try done; [set_solver|]. intros. rewrite ths_call. by left.
  - by eapply sc_cancel.
  - by eapply sc_tick.
  - by eapply sc_tr.
  - assert (Hlti : i0 < length (bc_ths cf)) by by eapply lookup_lt_Some.
    assert (Hltj : j < length (bc_ths cf)) by by eapply lookup_lt_Some.
    assert (Hne : i0 <> j) by by eapply meet_ne.
    apply sc_same; simpl; try done; [set_solver|]. intros. rewrite ths_meet by done.
    right; right. split_and!; [| |done]; intros ->; by simplify_eq.
  - assert (Hlti : i0 < length (bc_ths cf)) by by eapply lookup_lt_Some.
    assert (Hltj : j < length (bc_ths cf)) by by eapply lookup_lt_Some.
    assert (Hne : i0 <> j) by by eapply meet_ne.
    apply sc_same; simpl; try done; [set_solver|]. intros. rewrite ths_meet by done.
    right; right. split_and!; [| |done]; intros ->; by simplify_eq.
Qed.

Lemma sinv_same b b' : bs_mem b' = bs_mem b -> bs_next b' = bs_next b -> bs_closed b' = bs_closed b ->
  bs_heap b' = bs_heap b -> sinv b -> sinv b'.
Proof.
  intros Hm Hn Hc Hh S. eapply sinv_heap; [exact S|done|lia|..].
  - rewrite Hm, Hc. apply S.
  - rewrite Hn, Hc. apply S.
  - intros e He. left. unfold st_exit in *. by rewrite Hm, Hh in He.
Qed.
Lemma step_sinv cf es l cf' es' : sess cf es -> step cf l cf' es' -> sinv (bc_st cf').
Proof.
  intros S H. destruct (step_change _ _ _ _ H) as [i c p ch p' sp acts Hi Ht _ _| -> _ _|ctx -> ->|d -> ->]; simpl.
  - eapply sinv_tr; [apply S| |done]. intros e. by eapply se_pc.
  - apply S.
  - eapply sinv_same; [..|apply S]; done.
  - eapply sinv_same; [..|apply S]; done.
Qed.
Lemma pc_exit_start c e : pc_exit (pc_start c) e -> False.
Proof. by destruct c. Qed.
Lemma tr_spawn_inv b c p ch b' p' c0 acts : tr b c p ch b' p' (Some c0) acts ->
  (exists ctx, c = COpen ctx /\ c0 = CRun ctx /\ p = POpenCtl /\ p' = PDone (Ok None)) \/
  (exists s, c = CUnsub s /\ c0 = CAsync s /\ p = PUnsubSpawn).
Proof. inversion 1; subst; eauto 10. Qed.

Lemma sess_step cf es l cf' es' : base cf es -> sess cf es -> step cf l cf' es' -> sess cf' (es ++ es').
Proof.
  intros B S H. pose proof (base_step _ _ _ _ _ B H) as B'.
  assert (Hmono : forall i c r, bc_ths cf !! i = Some (c, PDone r) -> bc_ths cf' !! i = Some (c, PDone r))
    by (intros; by eapply ths_done_step).
  pose proof (step_sinv _ _ _ _ _ S H) as S'.
  pose proof (step_change _ _ _ _ H) as Hch.
  assert (Hcanc : forall ctx, ctx ∈ bs_cancelled (bc_st cf') <-> ECancel ctx ∈ es ++ es').
  { intros ctx. rewrite elem_of_app, <- (se_canc _ _ S).
    destruct Hch as [i c p ch p' sp acts Hi Ht -> _| -> _ Hno _ _|ctx' -> ->|d -> ->]; simpl.
    - destruct (tr_env _ _ _ _ _ _ _ _ Ht) as [-> _]. split; [by left|]. intros [?|F]; [done|].
      by apply elem_acts_cancel in F.
    - split; [by left|]. intros [?|F]; [done|by apply Hno in F].
    - rewrite elem_of_union, elem_of_singleton, elem_of_list_singleton. naive_solver.
    - rewrite elem_of_list_singleton. naive_solver. }
  assert (Hin : forall ctx, ctx ∈ bs_cancelled (bc_st cf) -> ECancel ctx ∈ es ++ es').
  { intros ctx. rewrite (se_canc _ _ S), elem_of_app. by left. }
  assert (Hcl : forall e, e ∈ bs_closed (bc_st cf) -> good_exit (bc_st cf) e -> exists k, EAct k AClosed ∈ es ++ es').
  { intros e He [_ G]. destruct (se_closed _ _ S _ He) as [(s & sb & Hs & <- & _)|(k & Hk)].
    - by eapply G in Hs.
    - exists k. rewrite elem_of_app. by left. }
  split; try done.
  - intros i c p e Hi He. destruct (step_before _ _ _ _ _ _ _ H Hi) as
      [Hi0| -> -> _|k ck pk ch b' p' acts -> -> _ _ _ _|p0 ch sp acts Hi0 Ht _|q e' d ctx t m o _ -> -> _ _|m d x _ -> _ _|m x _ -> _ _];
      try (by apply pc_exit_start in He); try done.
    + eapply good_step; [done|]. by eapply se_pc.
    + eapply good_step; [done|]. destruct (pc_exit_tr _ _ _ _ _ _ _ _ _ Ht He).
      * by apply (si_good _ (se_st _ _ S)).
      * by eapply se_pc.
  - rewrite in_session_app. destruct Hch as [i c p ch p' sp acts Hi Ht -> _| -> _ _ -> _|ctx' -> ->|d -> ->]; simpl;
      [|apply S..].
    rewrite session_acts. pose proof (tr_session _ _ _ _ _ _ _ _ Ht) as Hs.
    destruct (last _) as [x|]; rewrite Hs; [done|apply S].
  - intros e He.
    assert (Hold : e ∈ bs_closed (bc_st cf) -> (exists s sb, bs_heap (bc_st cf') !! s = Some sb /\ s_exit sb = e /\
       exists i, ECall i (CUnsub s) ∈ es ++ es') \/ (exists k, EAct k AClosed ∈ es ++ es')).
    { intros Hold. destruct (se_closed _ _ S _ Hold) as [(s & sb & Hs & Hx & i & Hi)|(k & Hk)].
      - left. destruct (heap_mono_step _ _ _ _ _ _ H Hs) as (sb' & Hs' & Hsame). exists s, sb'.
        split; [done|]. split; [|exists i; rewrite elem_of_app; by left].
        rewrite <- Hx. by destruct Hsame as (_ & _ & _ & _ & -> & _).
      - right. exists k. rewrite elem_of_app. by left. }
    destruct Hch as [i c p ch p' sp acts Hi Ht -> _|Hsame _ _ _ _|ctx' -> ->|d -> ->]; simpl in *.
    + destruct (tr_closed _ _ _ _ _ _ _ _ _ Ht He) as [?|[Ha|(s & sb & -> & Hs & Hx)]]; [by apply Hold|..].
      * right. exists i. rewrite elem_of_app, elem_acts_act. by right.
      * left. destruct (heap_mono_step _ _ _ _ _ _ H Hs) as (sb' & Hs' & Hsame). exists s, sb'.
        split; [done|]. split; [rewrite <- Hx; by destruct Hsame as (_ & _ & _ & _ & -> & _)|].
        exists i. rewrite elem_of_app. left. rewrite (base_call _ _ B). split; [done|]. eauto.
    + rewrite Hsame in He. by apply Hold.
    + by apply Hold.
    + by apply Hold.
  - rewrite elapsed_app, <- (se_now _ _ S).
    destruct Hch as [i c p ch p' sp acts Hi Ht -> _| -> -> _ _ _|ctx' -> ->|d -> ->]; simpl.
    + destruct (tr_env _ _ _ _ _ _ _ _ Ht) as [_ ->]. rewrite elapsed_acts. lia.
    + lia.
    + unfold elapsed. simpl. lia.
    + unfold elapsed. simpl. lia.
  - intros Hl. destruct Hch as [i c p ch p' sp acts Hi Ht -> Hths|Hb _ _ _ Hths|ctx' -> ->|d -> ->]; simpl in *.
    + assert (i < length (bc_ths cf)) by by eapply lookup_lt_Some.
      destruct (tr_locked _ _ _ _ _ _ _ _ Ht (base_wf _ _ B _ _ _ Hi) Hl) as [[Hlk Hp]|(-> & ctx & ->)].
      * destruct (se_lock _ _ S Hlk) as (j & ctx & Hj). exists j, ctx. rewrite Hths, ths_step by done.
        right; left. split; [|done]. intros ->. by simplify_eq.
      * exists i, ctx. rewrite Hths, ths_step by done. by left.
    + rewrite Hb in Hl. destruct (se_lock _ _ S Hl) as (j & ctx & Hj). eauto.
    + by apply (se_lock _ _ S).
    + by apply (se_lock _ _ S).
  - intros i ctx t m o Hi. destruct (step_before _ _ _ _ _ _ _ H Hi) as
      [Hi0| _ ? _|k ck pk ch b' p' acts _ ? _ _ _ _|p0 ch sp acts Hi0 Ht _|q e' d ctx' t' m' o' _ _ ? _ _|m' d x _ ? _ _|m' x _ ? _ _];
      try done.
    + rewrite elem_of_app. left. by eapply se_cpub.
    + destruct (tr_to_close _ _ _ _ _ _ _ _ Ht) as (_ & _ & [(? & ? & ? & ? & ? & ?)|[(? & ? & ?)|(e & ctl & -> & _)]]);
        simplify_eq; [done|by apply Hin|]. apply (base_wf _ _ B) in Hi0. done.
  - intros i ctx Hi. destruct (step_before _ _ _ _ _ _ _ H Hi) as
      [Hi0| _ ? _|k ck pk ch b' p' acts _ ? _ _ _ _|p0 ch sp acts Hi0 Ht _|q e' d ctx' t' m' o' _ ? ? _ _|m' d x _ ? _ _|m' x _ ? _ _];
      try done.
    + destruct (se_crun _ _ S _ _ Hi0) as [?|(k & Hk)]; [left|right; exists k]; rewrite elem_of_app; by left.
    + destruct (tr_to_close _ _ _ _ _ _ _ _ Ht) as (_ & _ & [(? & ? & ? & ? & ? & ?)|[(? & ? & ?)|(e & ctl & -> & He)]]);
        simplify_eq; [done|left; by apply Hin|]. right. apply (Hcl e); [done|]. eapply (se_pc _ _ S); [done|]. done.
  - intros i ctx p Hi. destruct (step_before _ _ _ _ _ _ _ H Hi) as
      [Hi0| _ ? ?|k ck pk ch b' p' acts _ ? Hk Ht _ Hk'|p0 ch sp acts Hi0 Ht _|q e' d ctx' t' m' o' _ ? ? _ _|m' d x Hi0 _ _ _|m' x Hi0 _ _ _];
      try done.
    + destruct (se_run _ _ S _ _ _ Hi0) as (j & Hj). eauto.
    + destruct (tr_spawn_inv _ _ _ _ _ _ _ _ Ht) as [(ctx' & -> & [= ->] & -> & ->)|(s & _ & ? & _)]; [|done]. eauto.
    + destruct (se_run _ _ S _ _ _ Hi0) as (j & Hj). eauto.
    + by apply (base_wf _ _ B) in Hi0.
    + by apply (base_wf _ _ B) in Hi0.
  - intros i c x Hi. destruct (step_before _ _ _ _ _ _ _ H Hi) as
      [Hi0| _ ? ?|k ck pk ch b' p' acts _ ? Hk Ht _ Hk'|p0 ch sp acts Hi0 Ht _|q e' d ctx' t' m' o' _ ? ? _ _|m' d x' _ ? _ _|m' x' _ ? _ _];
      try done.
    + by eapply se_panic.
    + by destruct c.
    + by destruct c.
    + eapply tr_panic; [apply S|done|done].
Qed.
Lemma sess_init uuid opts : sess (broker_init uuid opts) [].
Proof.
  split; simpl; try done; try set_solver.
  - split; simpl; try done; try set_solver.
    intros e [He|[(t & q & Hq & _)|(s & sb & Hs & _)]]; simpl in *; done.
Qed.
Lemma sess_exec uuid opts ls cf es : bexec (broker_init uuid opts) ls = Some (cf, es) -> base cf es /\ sess cf es.
Proof.
  apply (with_base sess); [apply sess_init|]. intros. by eapply sess_step.
Qed.
