(** What a call does that starts after a given history. *)
From Verif.Proof Require Export BrokerP4.

Lemma exec_all uuid opts ls cf es : bexec (broker_init uuid opts) ls = Some (cf, es) ->
  base cf es /\ sess cf es /\ exists T, chans T cf es.
Proof.
  intros H. destruct (sess_exec _ _ _ _ _ H). by destruct (chans_exec _ _ _ _ _ H).
Qed.
Lemma exec_two uuid opts ls1 cf1 es1 ls2 cf2 es2 : bexec (broker_init uuid opts) ls1 = Some (cf1, es1) ->
  bexec cf1 ls2 = Some (cf2, es2) -> bexec (broker_init uuid opts) (ls1 ++ ls2) = Some (cf2, es1 ++ es2).
Proof. intros H1 H2. by rewrite bexec_app, H1, H2. Qed.
Lemma bexec_call cf c ls cf' es : bexec cf (LCall c :: ls) = Some (cf', es) ->
  client (bc_st cf) c = true /\ exists es',
  bexec (BConf (bc_st cf) (bc_ths cf ++ [(c, pc_start c)])) ls = Some (cf', es') /\
  es = ECall (length (bc_ths cf)) c :: es'.
Proof.
  simpl. unfold bstep. destruct (crashed cf); [done|]. destruct (client (bc_st cf) c); [|done].
  destruct (bexec _ ls) as [[cf1 es1]|] eqn:E; [|done]. intros [= <- <-]. eauto.
Qed.
Lemma bexec_snoc cf ls l cf' es : bexec cf (ls ++ [l]) = Some (cf', es) ->
  exists cf1 es1 es2, bexec cf ls = Some (cf1, es1) /\ bstep cf1 l = Some (cf', es2) /\ es = es1 ++ es2.
Proof.
  rewrite bexec_app. destruct (bexec cf ls) as [[cf1 es1]|]; [|done]. cbn [bexec].
  destruct (bstep cf1 l) as [[cf2 es2]|] eqn:E; [|done]. intros [= <- <-]. rewrite app_nil_r. eauto 10.
Qed.

(** Evolution of the execution from a reachable state. *)
Section from.
  Context (I : bconf -> list event -> Prop) (es1 : list event).
  Lemma exec_from cf1 es ls cf2 es2 :
    base cf1 (es1 ++ es) -> sess cf1 (es1 ++ es) -> I cf1 es ->
    (forall cf es l cf' es', base cf (es1 ++ es) -> sess cf (es1 ++ es) -> I cf es -> crashed cf = false ->
       step cf l cf' es' -> I cf' (es ++ es')) ->
    bexec cf1 ls = Some (cf2, es2) -> base cf2 (es1 ++ es ++ es2) /\ sess cf2 (es1 ++ es ++ es2) /\ I cf2 (es ++ es2).
  Proof.
    intros B S H0 Hs H.
    apply (bexec_ind_from (fun cf es => base cf (es1 ++ es) /\ sess cf (es1 ++ es) /\ I cf es) cf1 es ls cf2 es2).
    - clear -Hs. intros cf es l cf' es' (B & S & H) Hc Hst. rewrite app_assoc. split_and!.
      + by eapply base_step.
      + by eapply sess_step.
      + by eapply Hs.
    - done.
    - done.
  Qed.
End from.

(** How the goroutine of a running call moves. *)
Inductive moves (cf cf' : bconf) (es' : list event) (i : nat) (c : call) (p : pc) : pc -> Prop :=
| mv_stay : moves cf cf' es' i c p p
| mv_tr p' ch sp acts : tr (bc_st cf) c p ch (bc_st cf') p' sp acts ->
    es' = (EAct i <$> acts) ++ ret_event i p' -> moves cf cf' es' i c p p'
| mv_send q e d ctx t m o : p = PPubWait q e d -> c = CPub ctx t m o ->
    EAct i (ASend (q_msg q) m) ∈ es' -> bc_st cf' = bc_st cf -> moves cf cf' es' i c p (PDone (Ok None))
| mv_take m d x : p = PRecvWait d -> EAct i (ATake x m) ∈ es' -> bc_st cf' = bc_st cf ->
    moves cf cf' es' i c p (PRecvHandle m)
| mv_drop m x : p = PRecvDrop -> EAct i (ATake x m) ∈ es' -> bc_st cf' = bc_st cf ->
    moves cf cf' es' i c p (PDone (Err BrokerErrTimeout)).
Lemma step_moves cf l cf' es' i c p : step cf l cf' es' -> bc_ths cf !! i = Some (c, p) ->
  exists p', bc_ths cf' !! i = Some (c, p') /\ moves cf cf' es' i c p p'.
Proof.
  intros H Hi. destruct (ths_mono_step _ _ _ _ _ _ _ H Hi) as (p' & Hp'). exists p'. split; [done|].
  assert (i < length (bc_ths cf)) by by eapply lookup_lt_Some.
  destruct (step_before _ _ _ _ _ _ _ H Hp'); simplify_eq; try lia.
  - apply mv_stay.
  - by eapply mv_tr.
  - by eapply mv_send.
  - by eapply mv_take.
  - by eapply mv_drop.
Qed.

Section call.
  Context (i : nat) (c : call) (P : bconf -> list event -> pc -> Prop).
  Lemma call_from uuid opts ls1 cf1 es1 ls2 cf2 es2 :
    bexec (broker_init uuid opts) ls1 = Some (cf1, es1) ->
    bexec cf1 (LCall c :: ls2) = Some (cf2, es2) ->
    i = length (bc_ths cf1) ->
    P (BConf (bc_st cf1) (bc_ths cf1 ++ [(c, pc_start c)])) [ECall i c] (pc_start c) ->
    (forall cf es l cf' es' p p', base cf (es1 ++ es) -> sess cf (es1 ++ es) ->
       bc_ths cf !! i = Some (c, p) -> P cf es p -> step cf l cf' es' -> moves cf cf' es' i c p p' ->
       bc_ths cf' !! i = Some (c, p') -> P cf' (es ++ es') p') ->
    base cf2 (es1 ++ es2) /\ sess cf2 (es1 ++ es2) /\ exists p, bc_ths cf2 !! i = Some (c, p) /\ P cf2 es2 p.
  Proof.
    intros H1 H2 Hi H0 Hs. destruct (sess_exec _ _ _ _ _ H1) as [B S].
    apply bexec_call in H2 as (Hcl & es' & H2 & ->). rewrite <- Hi.
    set (cf1' := BConf (bc_st cf1) (bc_ths cf1 ++ [(c, pc_start c)])) in *.
    assert (Hst : step cf1 (LCall c) cf1' [ECall i c]) by (rewrite Hi; by apply st_call).
    change (ECall i c :: es') with ([ECall i c] ++ es').
    apply (exec_from (fun cf es => exists p, bc_ths cf !! i = Some (c, p) /\ P cf es p) es1 cf1' [ECall i c] ls2).
    - by eapply base_step.
    - by eapply sess_step.
    - exists (pc_start c). split; [|done]. unfold cf1'. simpl. rewrite ths_call. right. done.
    - clear -Hs. intros cf es l cf' es' B S (p & Hp & HP) _ Hst.
      destruct (step_moves _ _ _ _ _ _ _ Hst Hp) as (p' & Hp' & Hm). exists p'. split; [done|]. by eapply Hs.
    - done.
  Qed.
End call.

(** Pub returning nil without having sent. *)
Lemma closed_in_app_l es es' : closed_in es -> closed_in (es ++ es').
Proof. intros (k & Hk). exists k. rewrite elem_of_app. by left. Qed.
Definition pub_path (ctx : nat) (m : message) (i : nat) (es1 : list event)
    (cf : bconf) (es : list event) (p : pc) : Prop :=
  match p with
  | PPubQueue | PPubSel _ => m_connected (bs_mem (bc_st cf)) = true \/ closed_in es
  | PPubWait _ (Some e) _ => e ∉ bs_closed (bc_st cf) \/ closed_in es
  | PCloseGo => ECancel ctx ∈ es1 ++ es
  | PDone (Ok _) => (exists c, EAct i (ASend c m) ∈ es) \/ ECancel ctx ∈ es1 ++ es \/ closed_in es
  | _ => True
  end.
Lemma step_connected cf l cf' es' : step cf l cf' es' -> m_connected (bs_mem (bc_st cf)) = true ->
  m_connected (bs_mem (bc_st cf')) = true \/ closed_in es'.
Proof.
  intros H Hc. destruct (step_change _ _ _ _ H) as [i c p ch p' sp acts Hi Ht -> _| -> _ _ _ _|ctx' -> ->|d -> ->];
    try (by left).
  destruct Ht; try (by left).
  - right. exists i. rewrite elem_acts_act. split; [done|]. left.
  - left. rewrite get_queue_2. unfold pub_make. by destruct (m_topics (bs_mem (bc_st cf)) !! t).
  - left. by rewrite sub_make_eq.
Qed.
Lemma step_not_closed cf es l cf' es' e : sess cf es -> step cf l cf' es' -> good_exit (bc_st cf) e ->
  e ∉ bs_closed (bc_st cf) -> e ∉ bs_closed (bc_st cf') \/ closed_in es'.
Proof.
  intros S H [_ G] Hn. destruct (decide (e ∈ bs_closed (bc_st cf'))) as [Hin|]; [|by left].
  destruct (step_change _ _ _ _ H) as [i c p ch p' sp acts Hi Ht -> _|Hb _ _ _ _|ctx' -> ->|d -> ->]; simpl in *.
  - destruct (tr_closed _ _ _ _ _ _ _ _ _ Ht Hin) as [?|[Ha|(s & sb & _ & Hs & Hx)]]; [done| |].
    + right. exists i. by rewrite elem_acts_act.
    + by eapply G in Hs.
  - by rewrite Hb in Hin.
  - done.
  - done.
Qed.
Lemma elem_acts_ctx ctx es1 es es' : ECancel ctx ∈ es1 ++ es -> ECancel ctx ∈ es1 ++ es ++ es'.
Proof. rewrite !elem_of_app. tauto. Qed.
Lemma pub_path_step ctx t m o i es1 cf es l cf' es' p p' :
  base cf (es1 ++ es) -> sess cf (es1 ++ es) -> bc_ths cf !! i = Some (CPub ctx t m o, p) ->
  pub_path ctx m i es1 cf es p -> step cf l cf' es' -> moves cf cf' es' i (CPub ctx t m o) p p' ->
  bc_ths cf' !! i = Some (CPub ctx t m o, p') -> pub_path ctx m i es1 cf' (es ++ es') p'.
Proof.
  intros B S Hi HP Hst Hm Hi'.
  assert (Hcl : closed_in es -> closed_in (es ++ es')) by apply closed_in_app_l.
  assert (Hcl' : closed_in es' -> closed_in (es ++ es')).
  { intros (k & Hk). exists k. rewrite elem_of_app. by right. }
  assert (Hw : wf_pc (CPub ctx t m o) p) by by eapply base_wf.
  pose proof (step_connected _ _ _ _ Hst) as Hcon.
  destruct Hm as [|p' ch sp acts Ht ->|q e d ctx' t' m' o' -> [= <- <- <- <-] Ha _|m' d x -> _ _|m' x -> _ _];
    try done.
  - destruct p; simpl in *; try done.
    + by apply elem_acts_ctx.
    + destruct HP as [HP|HP]; [destruct (Hcon HP); auto|auto].
    + destruct HP as [HP|HP]; [destruct (Hcon HP); auto|auto].
    + destruct e as [e|]; [|done]. destruct HP as [HP|HP]; [|auto].
      assert (G : good_exit (bc_st cf) e) by (eapply (se_pc _ _ S); [done|]; simpl; by right).
      destruct (step_not_closed _ _ _ _ _ e S Hst G HP); auto.
    + destruct r; [|done..]. destruct HP as [(c & Hc)|[HP|HP]].
      * left. exists c. rewrite elem_of_app. by left.
      * right; left. by apply elem_acts_ctx.
      * auto.
  - inversion Ht; subst; simpl in *; try done.
    + right; left. by apply elem_acts_ctx.
    + right; left. by apply elem_acts_ctx.
    + left. congruence.
    + destruct HP as [HP|HP]; [destruct (Hcon HP); auto|auto].
    + destruct HP as [HP|HP]; [|destruct (m_exit (bs_mem (bc_st cf))); auto].
      destruct (si_conn _ (se_st _ _ S) HP) as (e & He & Hn). rewrite He. left. congruence.
    + apply elem_acts_ctx. apply (se_canc _ _ S). congruence.
    + destruct HP as [HP|HP]; [|auto]. exfalso. apply HP. congruence.
    + left. exists (q_msg q). rewrite elem_of_app. right. simpl. set_solver.
  - simpl. left. exists (q_msg q). rewrite elem_of_app. by right.
Qed.

(** Pub and Sub when no session is open. *)
Definition needs_session (c : call) : bool := match c with CPub _ _ _ _ | CSub _ => true | _ => false end.
Definition refused (c : call) (i : nat) (cf : bconf) (es : list event) (p : pc) : Prop :=
  (exists k, EAct k AOpened ∈ es) \/
  (m_connected (bs_mem (bc_st cf)) = false /\ (p = pc_start c \/ p = PDone (Err BrokerErrNotConnected)) /\
   forall a, EAct i a ∉ es).
Lemma step_disconnected cf l cf' es' : step cf l cf' es' -> m_connected (bs_mem (bc_st cf)) = false ->
  m_connected (bs_mem (bc_st cf')) = false \/ exists k, EAct k AOpened ∈ es'.
Proof.
  intros H Hc. destruct (step_change _ _ _ _ H) as [i c p ch p' sp acts Hi Ht -> _| -> _ _ _ _|ctx' -> ->|d -> ->];
    try (by left).
  destruct Ht; try (by left); try (simpl in *; congruence).
  - right. exists i. rewrite elem_acts_act. split; [done|]. left.
  - left. rewrite get_queue_2. unfold pub_make. by destruct (m_topics (bs_mem (bc_st cf)) !! t).
  - left. by rewrite sub_make_eq.
Qed.
Lemma step_acts_other cf l cf' es' i a : step cf l cf' es' -> EAct i a ∈ es' ->
  exists c p, bc_ths cf !! i = Some (c, p) /\
   ((exists ch b' p' sp acts, tr (bc_st cf) c p ch b' p' sp acts /\ a ∈ acts) \/
    (exists q e d, p = PPubWait q e d) \/ recv_args c <> None).
Proof.
  intros H Ha. destruct H as [c0 Hc|ctx|d|i0 ch c0 p0 b' p' sp acts Hi Ht|
    i0 j ctx t m0 o q e d cj ctxj s oj sb dj Hi Hj Har Hs Hcap Hq|
    i0 j ctx t m0 o q e d cj ctxj s oj sb Hi Hj Har Hs Hcap Hq]; try set_solver.
  - rewrite elem_acts_act in Ha. destruct Ha as [-> Ha]. eauto 15.
Qed.
Lemma refused_step c i es1 cf es l cf' es' p p' : needs_session c = true ->
  base cf (es1 ++ es) -> sess cf (es1 ++ es) -> bc_ths cf !! i = Some (c, p) ->
  refused c i cf es p -> step cf l cf' es' -> moves cf cf' es' i c p p' ->
  bc_ths cf' !! i = Some (c, p') -> refused c i cf' (es ++ es') p'.
Proof.
  intros Hc B S Hi [(k & Hk)|(Hcon & Hp & Ha)] Hst Hm Hi'.
  { left. exists k. rewrite elem_of_app. by left. }
  destruct (step_disconnected _ _ _ _ Hst Hcon) as [Hcon'|(k & Hk)].
  2: { left. exists k. rewrite elem_of_app. by right. }
  right. split; [done|].
  assert (Hno : forall ch b' p' sp acts, tr (bc_st cf) c p ch b' p' sp acts ->
    p' = PDone (Err BrokerErrNotConnected) /\ acts = []).
  { intros ch b' q sp acts Ht. destruct Hp as [-> | ->]; [|by inversion Ht].
    destruct c; try done; inversion Ht; subst; try done; congruence. }
  split.
  - destruct Hm as [|p' ch sp acts Ht ->|q e d ctx' t' m' o' -> -> _ _|m' d x -> _ _|m' x -> _ _]; [done|..].
    + right. by eapply Hno.
    + by destruct Hp.
    + destruct Hp as [Hp|Hp]; [|done]. by destruct c.
    + destruct Hp as [Hp|Hp]; [|done]. by destruct c.
  - intros a. rewrite elem_of_app. intros [?|Hin]; [by eapply Ha|].
    destruct (step_acts_other _ _ _ _ _ _ Hst Hin) as (c' & q & Hi2 & H). simplify_eq.
    destruct H as [(ch & b' & p1 & sp & acts & Ht & Hin')|[(q & e & d & ->)|H]].
    + apply Hno in Ht as [_ ->]. by apply elem_of_nil in Hin'.
    + destruct Hp as [Hp|Hp]; [|done]. by destruct c.
    + by destruct c.
Qed.

(** Once unsubscribed, a subscriber stays so. *)
Definition inactive (cf : bconf) (s : nat) : Prop :=
  exists sb, bs_heap (bc_st cf) !! s = Some sb /\ s_active sb = false.
