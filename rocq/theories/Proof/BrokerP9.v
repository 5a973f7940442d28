(** Empty-handed receives, deliveries after Unsubscribe, races on unprotected fields. *)
From Verif.Proof Require Export BrokerP8.

Lemma with_all (I : bconf -> list event -> Prop) uuid opts ls cf es :
  I (broker_init uuid opts) [] ->
  (forall cf es l cf' es', base cf es -> sess cf es -> I cf es -> crashed cf = false -> step cf l cf' es' -> I cf' (es ++ es')) ->
  bexec (broker_init uuid opts) ls = Some (cf, es) -> base cf es /\ sess cf es /\ I cf es.
Proof.
  intros H0 Hs. apply (bexec_ind (fun cf es => base cf es /\ sess cf es /\ I cf es)).
  - split; [apply base_init|]. split; [apply sess_init|done].
  - intros cf1 es1 l cf2 es2 (? & ? & ?) ? ?. split; [by eapply base_step|]. split; [by eapply sess_step|by eapply Hs].
Qed.

(** ** A Receive that returned nil *)
Definition excused (i ctx s : nat) (es : list event) : Prop :=
  EAct i (AHandled None) ∈ es \/ ECancel ctx ∈ es \/ closed_in es \/ exists j, ECall j (CUnsub s) ∈ es.
Lemma excused_app i ctx s es es' : excused i ctx s es -> excused i ctx s (es ++ es').
Proof.
  unfold excused, closed_in. intros [?|[?|[[k ?]|[j ?]]]].
  - left. set_solver.
  - right; left. set_solver.
  - right; right; left. exists k. set_solver.
  - right; right; right. exists j. set_solver.
Qed.
Definition recv_ok (cf : bconf) (es : list event) : Prop :=
  forall i ctx s o, bc_ths cf !! i = Some (CRecv ctx s o, PDone (Ok None)) -> excused i ctx s es.
Lemma closed_why cf es s sb : sess cf es -> bs_heap (bc_st cf) !! s = Some sb -> s_exit sb ∈ bs_closed (bc_st cf) ->
  closed_in es \/ exists j, ECall j (CUnsub s) ∈ es.
Proof.
  intros S Hs Hc. destruct (se_closed _ _ S _ Hc) as [(s' & sb' & Hs' & He & Hj)|Hk]; [|by left].
  assert (s' = s) as -> by (by eapply (si_inj _ (se_st _ _ S))). by right.
Qed.
Lemma recv_ok_step cf es l cf' es' : base cf es -> sess cf es -> recv_ok cf es -> step cf l cf' es' -> recv_ok cf' (es ++ es').
Proof.
  intros B S R H i ctx s o Hi. destruct (step_before _ _ _ _ _ _ _ H Hi) as
    [Hj0| _ ? _|k ck pk ch b' p' acts _ ? _ _ _ _|p0 ch sp acts Hj0 Ht Hes|q e' d ctx' t m o' _ ? _ _ _|m d x _ ? _ _|m x Hj0 ? _ _];
    try done.
  - apply excused_app. by eapply R.
  - pose proof (base_wf _ _ B _ _ _ Hj0) as Hw.
    inversion Ht; subst; simplify_eq/=; try done.
    + right; left. apply elem_of_app. left. by apply (se_canc _ _ S).
    + apply excused_app. right; right; left.
      assert (Hg : good_exit (bc_st cf) e).
      { apply (si_good _ (se_st _ _ S)). right; right. eauto. }
      destruct (se_closed _ _ S e) as [(s' & sb' & Hs' & He & _)|?]; [congruence| |done].
      destruct Hg as [_ Hg]. by destruct (Hg s' sb').
    + apply excused_app. right; right. apply (closed_why cf es _ sb S); congruence.
    + destruct e as [n|]; [done|]. left. apply elem_of_app. right. simpl. left.
Qed.
Lemma recv_ok_exec uuid opts ls cf es : bexec (broker_init uuid opts) ls = Some (cf, es) -> recv_ok cf es.
Proof.
  intros H. apply (with_all recv_ok) in H as (_ & _ & H); [done|by intros i ctx s o Hi|].
  intros. by eapply recv_ok_step.
Qed.

(** ** Deliveries by calls that were under way when Unsubscribe returned *)
Definition may_deliver (p : pc) : nat := match p with PRecvWait _ => 1 | _ => 0 end.
Definition handles_of (i : nat) (es : list event) : nat := length (handled_by i es).
Lemma handled_by_app i es es' : handled_by i (es ++ es') = handled_by i es ++ handled_by i es'.
Proof. apply omap_app. Qed.
Lemma handled_by_none i es : (forall m, EAct i (AHandle m) ∉ es) -> handled_by i es = [].
Proof.
  intros H. destruct (handled_by i es) as [|m l] eqn:E; [done|]. exfalso.
  assert (Hin : m ∈ handled_by i es) by (rewrite E; left). unfold handled_by in Hin.
  apply elem_of_list_omap in Hin as ([| | | |k [| |m'| | |]] & Hin & Hk); try done.
  destruct (Nat.eqb_spec k i) as [->|]; [|done]. simplify_eq. by eapply H.
Qed.
Lemma deliver_step cf es l cf' es' i c ctx s o p p' : base cf es -> recv_args c = Some (ctx, s, o) -> inactive cf s ->
  bc_ths cf !! i = Some (c, p) -> step cf l cf' es' -> bc_ths cf' !! i = Some (c, p') ->
  length (handled_by i es') + may_deliver p' <= may_deliver p.
Proof.
  intros B Ha Hin Hi H Hi'.
  assert (Hx : handled_by i es' = [] \/ (exists d m, p = PRecvWait d /\ p' = PRecvHandle m /\ handled_by i es' = [m])).
  { destruct H as [c0 Hc|cx|d|i0 ch c0 p0 b' p1 sp acts Hi0 Ht|
      i0 j cx t m0 o' q e d cj ctxj sj oj sb dj Hi0 Hj Har Hs Hcap Hq|
      i0 j cx t m0 o' q e d cj ctxj sj oj sb Hi0 Hj Har Hs Hcap Hq]; try (left; apply handled_by_none; set_solver).
    - destruct (decide (i0 = i)) as [->|Hne].
      + simplify_eq. assert (Hlt : i < length (bc_ths cf)) by by eapply lookup_lt_Some.
        simpl in Hi'. rewrite lookup_app_l in Hi' by (by rewrite insert_length).
        rewrite list_lookup_insert in Hi' by done. simplify_eq.
        rewrite handled_by_app. assert (E : handled_by i (ret_event i p') = []) by (by destruct p'). rewrite E, app_nil_r.
        inversion Ht; subst; try (left; done); try (left; simpl; by rewrite ?Nat.eqb_refl).
        right. do 2 eexists. split; [done|]. split; [done|]. unfold handled_by. simpl. by rewrite Nat.eqb_refl.
      + left. apply handled_by_none. intros m Hm. apply elem_acts_act in Hm as [? _]. done.
    - destruct (decide (j = i)) as [->|Hne].
      + simplify_eq. right. simpl in Hi'.
        assert (Hlt : i < length (bc_ths cf)) by by eapply lookup_lt_Some.
        rewrite list_lookup_insert in Hi' by (by rewrite insert_length). simplify_eq.
        do 2 eexists. split; [done|]. split; [done|]. unfold handled_by. simpl. by rewrite Nat.eqb_refl.
      + left. apply handled_by_none. intros m Hm. set_solver. }
  destruct Hx as [->|(d & m & -> & -> & ->)]; [|done]. simpl.
  destruct (step_moves _ _ _ _ _ _ _ H Hi) as (p2 & Hp2 & Hm). simplify_eq.
  destruct Hm; try done; simpl; try lia.
  destruct Hin as (sb & Hs & Hact).
  match goal with Ht : tr _ _ _ _ _ _ _ _ |- _ => inversion Ht; subst; simpl; try lia; try (destruct c; simpl in *; simplify_eq; simpl; lia) end.
  - exfalso. congruence.
  - destruct e; destruct c; simpl in *; simplify_eq; simpl; lia.
Qed.
Lemma deliver_once cf es ls cf2 es2 i c ctx s o p : base cf es -> recv_args c = Some (ctx, s, o) ->
  inactive cf s -> bc_ths cf !! i = Some (c, p) -> bexec cf ls = Some (cf2, es2) ->
  length (handled_by i es2) <= 1.
Proof.
  intros B Ha Hin Hi H.
  assert (G : length (handled_by i es2) <= may_deliver p); [|destruct p; simpl in G; lia].
  revert cf es es2 p B Hin Hi H. induction ls as [|l ls IH]; intros cf es es2 p B Hin Hi H.
  - simpl in H. simplify_eq. simpl. lia.
  - destruct (bexec_cons _ _ _ _ _ H) as (cf1 & es1 & es' & H1 & H2 & ->). apply bstep_step in H1.
    destruct (step_moves _ _ _ _ _ _ _ H1 Hi) as (p' & Hi' & _).
    pose proof (deliver_step _ _ _ _ _ _ _ _ _ _ _ _ B Ha Hin Hi H1 Hi').
    assert (length (handled_by i es') <= may_deliver p').
    { eapply IH; [by eapply base_step|by eapply inactive_step|done|done]. }
    rewrite handled_by_app, app_length. lia.
Qed.

(** ** Executions with a single Open *)
Definition in_use (c : call) (p : pc) : bool :=
  match c, p with
  | CRun _, _ | _, PPubQueue | _, PPubSel _ | _, PPubWait _ _ _ => true
  | _, _ => false
  end.
Record lone (cf : bconf) : Prop := {
  lo_conn : m_connected (bs_mem (bc_st cf)) = true ->
    exists i ctx p, bc_ths cf !! i = Some (COpen ctx, p) /\ (p = POpenCtl \/ exists r, p = PDone r);
  lo_lock : forall i ctx, bc_ths cf !! i = Some (COpen ctx, POpenCtl) -> bs_locked (bc_st cf) = true;
  lo_use : forall j c p, bc_ths cf !! j = Some (c, p) -> in_use c p = true ->
    exists i ctx r, bc_ths cf !! i = Some (COpen ctx, PDone r);
}.
Lemma tr_locked b c p ch b' p' sp acts : tr b c p ch b' p' sp acts ->
  bs_locked b' = bs_locked b \/ (p = POpenSet /\ bs_locked b' = true) \/ p = POpenCtl.
Proof.
  destruct 1; try (by left); try (by right; left); try (by right; right).
  - left. rewrite get_queue_2. unfold pub_make. by destruct (m_topics (bs_mem b) !! t).
  - left. rewrite sub_make_eq. done.
Qed.
Lemma tr_conn b c p ch b' p' sp acts : tr b c p ch b' p' sp acts -> m_connected (bs_mem b') = true ->
  m_connected (bs_mem b) = true \/ (p = POpenSet /\ p' = POpenCtl).
Proof.
  destruct 1; simpl; try (by left); try (by right).
  - left. rewrite get_queue_2 in *. unfold pub_make in *. by destruct (m_topics (bs_mem b) !! t).
  - left. rewrite sub_make_eq in *. done.
Qed.
Lemma lone_step cf es l cf' es' : lone_open (es ++ es') -> base cf es -> base cf' (es ++ es') -> lone cf -> step cf l cf' es' -> lone cf'.
Proof.
  intros Hone B B' L H.
  assert (Huniq : forall i j ctx ctx' p p', bc_ths cf' !! i = Some (COpen ctx, p) -> bc_ths cf' !! j = Some (COpen ctx', p') -> i = j).
  { intros i j ctx ctx' p p' Hi Hj. apply (Hone i j ctx ctx'); apply (base_call _ _ B'); split; eauto. }
  assert (Hdone : forall i ctx r, bc_ths cf !! i = Some (COpen ctx, PDone r) -> bc_ths cf' !! i = Some (COpen ctx, PDone r)).
  { intros. by eapply ths_done_step. }
  (* what the step did to the state *)
  assert (Hst : bc_st cf' = bc_st cf \/ (exists x, bc_st cf' = set_cancelled (bc_st cf) x) \/ (exists x, bc_st cf' = set_now (bc_st cf) x) \/
    exists i c p ch p' sp acts, bc_ths cf !! i = Some (c, p) /\ bc_ths cf' !! i = Some (c, p') /\ tr (bc_st cf) c p ch (bc_st cf') p' sp acts).
  { destruct H; simpl; eauto. right; right; right. do 7 eexists. split; [done|]. split; [|done].
    rewrite lookup_app_l by (rewrite insert_length; by eapply lookup_lt_Some). apply list_lookup_insert. by eapply lookup_lt_Some. }
  split.
  - intros Hc.
    assert (Hpre : m_connected (bs_mem (bc_st cf)) = true \/ exists i ctx, bc_ths cf' !! i = Some (COpen ctx, POpenCtl)).
    { destruct Hst as [E|[[x E]|[[x E]|(i & c & p & ch & p' & sp & acts & Hi & Hi' & Ht)]]]; try (left; by rewrite E in Hc).
      destruct (tr_conn _ _ _ _ _ _ _ _ Ht Hc) as [?|[-> ->]]; [by left|]. right.
      pose proof (base_wf _ _ B _ _ _ Hi) as Hw. destruct c; try done. eauto. }
    destruct Hpre as [Hpre|(i & ctx & Hi)]; [|exists i, ctx, POpenCtl; eauto].
    destruct (lo_conn _ L Hpre) as (i & ctx & p & Hi & Hp). exists i, ctx.
    destruct (step_moves _ _ _ _ _ _ _ H Hi) as (p' & Hi' & Hm). exists p'. split; [done|].
    destruct Hp as [->|[r ->]].
    + destruct Hm as [|? ? ? ? Ht|? ? ? ? ? ? ? E|? ? ? E|? ? E]; try done; [by left|].
      inversion Ht; subst; right; eauto.
    + right. exists r. apply Hdone in Hi. by simplify_eq.
  - intros i ctx Hi. destruct (step_before _ _ _ _ _ _ _ H Hi) as
      [Hj0| _ ? _|k ck pk ch b' p' acts _ ? _ _ _ _|p0 ch sp acts Hj0 Ht Hes|q e' d ctx' t m o' _ ? ? _ _|m d x _ ? _ _|m x Hj0 ? _ _]; try done.
    + pose proof (lo_lock _ L _ _ Hj0) as Hl.
      destruct Hst as [E|[[x E]|[[x E]|(k & c & p & ch & p' & sp & acts & Hk & Hk' & Ht)]]]; try (by rewrite E).
      destruct (tr_locked _ _ _ _ _ _ _ _ Ht) as [E|[[-> ?]| ->]]; [by rewrite E|done|].
      pose proof (base_wf _ _ B _ _ _ Hk) as Hw. destruct c; try done.
      assert (k = i) as -> by (by eapply Huniq). simplify_eq. inversion Ht.
    + inversion Ht; subst; simpl; try done.
  - intros j c p Hj Hu. destruct (step_before _ _ _ _ _ _ _ H Hj) as
      [Hj0| _ -> Hcl|k ck pk ch b' p' acts _ -> Hk Ht _ Hk'|p0 ch sp acts Hj0 Ht Hes|q e' d ctx' t m o' _ -> -> _ _|m d x Hj0 -> _ _|m x Hj0 -> _ _].
    + destruct (lo_use _ L _ _ _ Hj0 Hu) as (i & ctx & r & Hi). eauto.
    + by destruct c.
    + inversion Ht; subst; [|done]. exists k, ctx, (Ok None). done.
    + assert (Hx : in_use c p0 = true \/ (bs_locked (bc_st cf) = false /\ m_connected (bs_mem (bc_st cf)) = true)).
      { pose proof (base_wf _ _ B _ _ _ Hj0) as Hw. destruct (in_use c p0) eqn:E; [by left|]. right.
        inversion Ht; subst; simpl in *; try done; try (destruct c; simpl in *; try done; destruct e; simpl in *; done); destruct c; done. }
      destruct Hx as [Hx|[Hlk Hcn]].
      * destruct (lo_use _ L _ _ _ Hj0 Hx) as (i & ctx & r & Hi). eauto.
      * destruct (lo_conn _ L Hcn) as (i & ctx & p' & Hi & [->|[r ->]]); [|eauto].
        apply (lo_lock _ L) in Hi. congruence.
    + done.
    + pose proof (base_wf _ _ B _ _ _ Hj0) as Hw. by destruct c.
    + pose proof (base_wf _ _ B _ _ _ Hj0) as Hw. by destruct c.
Qed.
Lemma lone_exec uuid opts ls cf es : bexec (broker_init uuid opts) ls = Some (cf, es) -> lone_open es -> lone cf.
Proof.
  intros H. apply (with_base (fun cf es => lone_open es -> lone cf)) in H as [_ H]; [done| |].
  - intros _. split; simpl; intros; try done.
  - clear. intros cf es l cf' es' B IH _ Hst Hone. eapply lone_step; [done|done|by eapply base_step| |done].
    apply IH. intros i j ctx ctx' Hi Hj. apply (Hone i j ctx ctx'); set_solver.
Qed.
