(** What becomes of unsubscribed subscribers and of the broker's goroutine. *)
From Verif.Proof Require Export BrokerP9.

(** ** Subscribers are numbered by the UUID source *)
Definition idents (uuid : nat -> string) (b : bstate) : Prop :=
  bs_uuid b = uuid /\ bs_cnt b = length (bs_heap b) /\
  forall s sb, bs_heap b !! s = Some sb -> s_id sb = uuid s.
Lemma tr_idents uuid b c p ch b' p' sp acts : tr b c p ch b' p' sp acts -> idents uuid b -> idents uuid b'.
Proof.
  intros H (H1 & H2 & H3). destruct H; try done.
  - rewrite get_queue_2. unfold pub_make. by destruct (m_topics (bs_mem b) !! t).
  - rewrite sub_make_eq. split; [done|]. cbn. split; [rewrite app_length; simpl; lia|].
    intros s sb Hs. apply lookup_app_Some in Hs as [Hs|[Hl Hs]]; [by eapply H3|].
    apply list_lookup_singleton_Some in Hs as [Hz <-]. simpl. rewrite H1, H2. assert (s = length (bs_heap b)) as -> by lia. done.
  - split; [done|]. cbn. split; [by rewrite insert_length|]. intros s' sb' Hs.
    destruct (decide (s' = s)) as [->|Hn].
    + rewrite list_lookup_insert in Hs by by eapply lookup_lt_Some. injection Hs as <-. by eapply (H3 s sb).
    + rewrite list_lookup_insert_ne in Hs by done. by apply H3.
Qed.
Lemma idents_exec uuid opts ls cf es : bexec (broker_init uuid opts) ls = Some (cf, es) -> idents uuid (bc_st cf).
Proof.
  intros H. apply (bexec_ind (fun cf _ => idents uuid (bc_st cf))) in H; [done| |].
  - split; [done|]. split; [done|]. intros s sb Hs. cbn in Hs. by destruct s.
  - clear. intros cf es l cf' es' I _ H. destruct H; try done. by eapply tr_idents.
Qed.

(** ** Control channels *)
Record ctl_wf (b : bstate) : Prop := {
  cw_lt : forall c, is_Some (bs_ctls b !! c) -> c < bs_next b;
  cw_mem : forall c, m_ctl (bs_mem b) = Some c -> is_Some (bs_ctls b !! c);
  cw_sub : forall s sb c, bs_heap b !! s = Some sb -> s_ctl sb = Some c -> is_Some (bs_ctls b !! c);
}.
Lemma is_Some_insert {A} (m : gmap nat A) k x c : is_Some (m !! c) -> is_Some (<[k := x]> m !! c).
Proof.
  intros H. destruct (decide (k = c)) as [->|Hn]; [rewrite lookup_insert; eauto|by rewrite lookup_insert_ne].
Qed.
Lemma tr_ctl_wf b c p ch b' p' sp acts : tr b c p ch b' p' sp acts -> ctl_wf b -> ctl_wf b'.
Proof.
  intros H W. pose proof (tr_next _ _ _ _ _ _ _ _ H) as Hn. destruct W as [W1 W2 W3].
  destruct H; try (by split).
  - split; simpl; [|done|done]. intros c0 Hc. apply W1 in Hc. lia.
  - split; simpl.
    + intros c0 Hc. destruct (decide (c0 = bs_next b)) as [->|Hne]; [lia|].
      rewrite lookup_insert_ne in Hc by done. apply W1 in Hc. lia.
    + intros c0 [= <-]. rewrite lookup_insert. eauto.
    + intros s sb c0 Hs Hc. apply is_Some_insert. by eapply W3.
  - rewrite get_queue_2 in *. unfold pub_make in *. destruct (m_topics (bs_mem b) !! t); [by split|].
    split; simpl; [|done|done]. intros c0 Hc. apply W1 in Hc. lia.
  - rewrite sub_make_eq in *. split; simpl in *; [|done|].
    + intros c0 Hc. apply W1 in Hc. pose proof (sub_exit_ge b t). lia.
    + intros s sb c0 Hs Hc. apply lookup_app_Some in Hs as [Hs|[Hl Hs]]; [by eapply W3|].
      apply list_lookup_singleton_Some in Hs as [_ <-]. by apply W2.
  - split; simpl; [done|done|]. intros s' sb' c0 Hs Hc. destruct (decide (s' = s)) as [->|Hne].
    + rewrite list_lookup_insert in Hs by by eapply lookup_lt_Some. injection Hs as <-. by eapply W3.
    + rewrite list_lookup_insert_ne in Hs by done. by eapply W3.
  - split; simpl.
    + intros c0 Hc. destruct (decide (c0 = ctl)) as [->|Hne]; [|rewrite lookup_insert_ne in Hc by done; by apply W1].
      apply W1. by eapply W3.
    + intros c0 Hc. apply is_Some_insert. by apply W2.
    + intros s0 sb0 c0 Hs Hc. apply is_Some_insert. by eapply W3.
  - split; simpl.
    + intros c0 Hc. destruct (decide (c0 = ctl)) as [->|Hne]; [apply W1; eauto|rewrite lookup_insert_ne in Hc by done; by apply W1].
    + intros c0 Hc. apply is_Some_insert. by apply W2.
    + intros s0 sb0 c0 Hs Hc. apply is_Some_insert. by eapply W3.
Qed.
Lemma ctl_wf_exec uuid opts ls cf es : bexec (broker_init uuid opts) ls = Some (cf, es) -> ctl_wf (bc_st cf).
Proof.
  intros H. apply (bexec_ind (fun cf _ => ctl_wf (bc_st cf))) in H; [done| |].
  - split; simpl; try done. intros c [x Hx]. by rewrite lookup_empty in Hx.
  - clear. intros cf es l cf' es' I _ H. destruct H; try (by destruct I). by eapply tr_ctl_wf.
Qed.

(** ** Removal orders: on their way from Unsubscribe to the registry *)
Definition order_for (cf : bconf) (es : list event) (x : string * string) : Prop :=
  exists s sb, bs_heap (bc_st cf) !! s = Some sb /\ x = (s_id sb, s_topic sb) /\ s_active sb = false /\
    exists j, ECall j (CUnsub s) ∈ es.
Record orders (cf : bconf) (es : list event) : Prop := {
  or_async : forall k s p, bc_ths cf !! k = Some (CAsync s, p) ->
    inactive cf s /\ exists j, ECall j (CUnsub s) ∈ es;
  or_buf : forall c buf x, bs_ctls (bc_st cf) !! c = Some buf -> x ∈ buf -> order_for cf es x;
  or_del : forall k c id t, bc_ths cf !! k = Some (c, PRunDel id t) -> order_for cf es (id, t);
}.
Lemma order_for_step cf es l cf' es' x : step cf l cf' es' -> order_for cf es x -> order_for cf' (es ++ es') x.
Proof.
  intros H (s & sb & Hs & -> & Ha & j & Hj). destruct (heap_mono_step _ _ _ _ _ _ H Hs) as (sb' & Hs' & E1 & E2 & E3 & E4 & E5 & E6).
  exists s, sb'. split; [done|]. split; [by rewrite E1, E2|]. split; [by apply E6|]. exists j. set_solver.
Qed.
Lemma tr_ctls b c p ch b' p' sp acts x buf y : tr b c p ch b' p' sp acts -> bs_ctls b' !! x = Some buf -> y ∈ buf ->
  (exists buf0, bs_ctls b !! x = Some buf0 /\ y ∈ buf0) \/
  exists s sb, c = CAsync s /\ bs_heap b !! s = Some sb /\ y = (s_id sb, s_topic sb) /\ s_ctl sb = Some x.
Proof.
  intros H Hb Hy. destruct H; try (by left; eauto); simpl in Hb.
  - destruct (decide (x = bs_next b)) as [->|Hn]; [rewrite lookup_insert in Hb; simplify_eq; by apply elem_of_nil in Hy|].
    rewrite lookup_insert_ne in Hb by done. eauto.
  - rewrite get_queue_2 in Hb. unfold pub_make in Hb. destruct (m_topics (bs_mem b) !! t); eauto.
  - rewrite sub_make_eq in Hb. simpl in Hb. eauto.
  - destruct (decide (x = ctl)) as [->|Hn].
    + rewrite lookup_insert in Hb. injection Hb as <-. apply elem_of_app in Hy as [Hy|Hy].
      * left. destruct (bs_ctls b !! ctl) as [buf0|]; simpl in Hy; [eauto|by apply elem_of_nil in Hy].
      * right. apply elem_of_list_singleton in Hy as ->. eauto 10.
    + rewrite lookup_insert_ne in Hb by done. eauto.
  - destruct (decide (x = ctl)) as [->|Hn].
    + rewrite lookup_insert in Hb. injection Hb as <-. left. eexists. split; [done|]. by right.
    + rewrite lookup_insert_ne in Hb by done. eauto.
Qed.
Lemma orders_step cf es l cf' es' : base cf es -> udone cf es -> orders cf es -> step cf l cf' es' -> orders cf' (es ++ es').
Proof.
  intros B U O H. split.
  - intros k s p Hk. destruct (step_before _ _ _ _ _ _ _ H Hk) as
      [Hj0| _ -> Hc|k0 ck pk ch b' p' acts _ -> Hk0 Ht _ _|p0 ch sp acts Hj0 Ht _|q e' d ctx t m o Hj0 ? _ _ _|m d x Hj0 -> _ _|m x Hj0 -> _ _]; try done.
    2:{ inversion Ht; subst. split.
        - eapply inactive_step; [done|]. eapply (U k0); eauto.
        - exists k0. apply elem_of_app. left. apply (base_call _ _ B). split; [done|]. eauto. }
    all: destruct (or_async _ _ O _ _ _ Hj0) as [Hi [j Hj]]; (split; [by eapply inactive_step|exists j; set_solver]).
  - intros x buf y Hb Hy. assert (Hold : (exists buf0, bs_ctls (bc_st cf) !! x = Some buf0 /\ y ∈ buf0) -> order_for cf' (es ++ es') y).
    { intros (buf0 & Hb0 & Hy0). eapply order_for_step; [done|]. by eapply or_buf. }
    destruct (step_change _ _ _ _ H) as [i c p ch p' sp acts Hi Ht _ _|E _ _ _ _|ctx -> _|d -> _].
    + destruct (tr_ctls _ _ _ _ _ _ _ _ _ _ _ Ht Hb Hy) as [?|(s & sb & -> & Hs & -> & _)]; [by apply Hold|].
      eapply order_for_step; [done|]. destruct (or_async _ _ O _ _ _ Hi) as [(sb' & Hs' & Ha) Hj]. simplify_eq.
      exists s, sb. eauto.
    + rewrite E in Hb. eauto.
    + eauto.
    + eauto.
  - intros k c id t Hk. destruct (step_before _ _ _ _ _ _ _ H Hk) as
      [Hj0| _ Hp _|k0 ck pk ch b' p' acts _ Hp _ _ _ _|p0 ch sp acts Hj0 Ht _|q e' d ctx t0 m o Hj0 ? ? _ _|m d x Hj0 ? _ _|m x Hj0 ? _ _]; try done.
    + eapply order_for_step; [done|]. by eapply or_del.
    + by destruct c.
    + by destruct c.
    + eapply order_for_step; [done|]. inversion Ht; subst; try (by destruct c); try (destruct c; simpl in *; simplify_eq; done); try (destruct c, e; simpl in *; simplify_eq; done).
      eapply or_buf; [done|done|]. by left.
Qed.
Lemma orders_exec uuid opts ls cf es : bexec (broker_init uuid opts) ls = Some (cf, es) -> orders cf es.
Proof.
  intros H. apply (with_base (fun cf es => udone cf es /\ orders cf es)) in H as [_ [_ H]]; [done| |].
  - split; [by intros j s p Hj|]. split; simpl; try done.
  - clear. intros cf es l cf' es' B [U O] _ H. split; [by eapply udone_step|by eapply orders_step].
Qed.

(** ** Unsubscribed subscribers that are still listed have an order under way *)
Definition in_registry (b : bstate) (s : nat) (sb : subscriber) : Prop :=
  exists inner, m_subs (bs_mem b) !! s_topic sb = Some inner /\ inner !! s_id sb = Some s.
Lemma tr_registry b c p ch b' p' sp acts s sb : tr b c p ch b' p' sp acts -> s < length (bs_heap b) ->
  in_registry b' s sb -> in_registry b s sb.
Proof.
  intros H Hs (inner & H1 & H2). destruct H; try (by exists inner); simpl in H1.
  - rewrite get_queue_2 in H1. unfold pub_make in H1. destruct (m_topics (bs_mem b) !! t); by exists inner.
  - rewrite sub_make_eq in H1. simpl in H1. destruct (decide (t = s_topic sb)) as [->|Hn].
    + rewrite lookup_insert in H1. injection H1 as <-. destruct (decide (bs_uuid b (bs_cnt b) = s_id sb)) as [E|E].
      * rewrite E, lookup_insert in H2. injection H2 as <-. lia.
      * rewrite lookup_insert_ne in H2 by done. unfold sub_inner in H2.
        destruct (default ∅ (m_subs (bs_mem b) !! s_topic sb) !! bs_uuid b (bs_cnt b)); [|by rewrite lookup_empty in H2].
        destruct (m_subs (bs_mem b) !! s_topic sb) as [i0|] eqn:Ei; simpl in H2; [by exists i0|by rewrite lookup_empty in H2].
    + rewrite lookup_insert_ne in H1 by done. by exists inner.
  - destruct (decide (t = s_topic sb)) as [->|Hn].
    + rewrite lookup_insert in H1. injection H1 as <-. apply lookup_delete_Some in H2 as [_ H2]. by exists inner0.
    + rewrite lookup_insert_ne in H1 by done. by exists inner.
Qed.
Definition pending (cf : bconf) (s : nat) (sb : subscriber) : Prop :=
  (exists k, bc_ths cf !! k = Some (CUnsub s, PUnsubSpawn)) \/
  (exists k, bc_ths cf !! k = Some (CAsync s, PAsync)) \/
  (exists ctl buf, s_ctl sb = Some ctl /\ bs_ctls (bc_st cf) !! ctl = Some buf /\ (s_id sb, s_topic sb) ∈ buf) \/
  (exists k c, bc_ths cf !! k = Some (c, PRunDel (s_id sb) (s_topic sb))).
Definition pends (cf : bconf) (es : list event) : Prop :=
  forall s sb, bs_heap (bc_st cf) !! s = Some sb -> s_active sb = false -> in_registry (bc_st cf) s sb ->
    closed_in es \/ pending cf s sb.
Lemma tr_ctls_keep b c p ch b' p' sp acts x buf y : ctl_wf b -> tr b c p ch b' p' sp acts ->
  bs_ctls b !! x = Some buf -> y ∈ buf ->
  (exists buf', bs_ctls b' !! x = Some buf' /\ y ∈ buf') \/ p' = PRunDel y.1 y.2.
Proof.
  intros W H Hb Hy. destruct H; try (by left; eauto); simpl.
  - left. exists buf. rewrite lookup_insert_ne; [done|]. assert (x < bs_next b) by (apply (cw_lt _ W); eauto). lia.
  - left. rewrite get_queue_2. unfold pub_make. destruct (m_topics (bs_mem b) !! t); eauto.
  - left. rewrite sub_make_eq. simpl. eauto.
  - left. destruct (decide (ctl = x)) as [->|Hn].
    + rewrite lookup_insert. eexists. split; [done|]. rewrite Hb. simpl. set_solver.
    + rewrite lookup_insert_ne by done. eauto.
  - destruct (decide (ctl = x)) as [->|Hn].
    + simplify_eq. apply elem_of_cons in Hy as [->|Hy]; [by right|]. left. rewrite lookup_insert. eauto.
    + left. rewrite lookup_insert_ne by done. eauto.
Qed.
Lemma step_registry cf l cf' es' s sb : step cf l cf' es' -> s < length (bs_heap (bc_st cf)) ->
  in_registry (bc_st cf') s sb -> in_registry (bc_st cf) s sb.
Proof. intros H. destruct H; try done. by eapply tr_registry. Qed.
Lemma in_registry_same b s sb sb' : same_sub sb sb' -> in_registry b s sb' <-> in_registry b s sb.
Proof. unfold in_registry. intros (-> & -> & _). done. Qed.
Lemma closed_why_queue cf es s sb e : sess cf es -> bs_heap (bc_st cf) !! s = Some sb -> q_exit (s_queue sb) = Some e ->
  e ∈ bs_closed (bc_st cf) -> closed_in es.
Proof.
  intros S Hs He Hc. assert (Hg : good_exit (bc_st cf) e).
  { apply (si_good _ (se_st _ _ S)). right; right. eauto. }
  destruct (se_closed _ _ S e) as [(s' & sb' & Hs' & Hx & _)|?]; [done| |done].
  destruct Hg as [_ Hg]. by destruct (Hg s' sb').
Qed.
Lemma step_spawns cf l cf' es' k s : step cf l cf' es' -> bc_ths cf !! k = Some (CUnsub s, PUnsubSpawn) ->
  bc_ths cf' !! k = Some (CUnsub s, PUnsubSpawn) \/ exists k', bc_ths cf' !! k' = Some (CAsync s, PAsync).
Proof.
  intros H Hk. destruct H as [c0 Hc|ctx|d|i0 ch0 c0 p0 b' p1 sp0 acts0 Hi Ht0|
      i0 j ctx t m0 o q e d cj ctxj s0 oj sb0 dj Hi Hj Hx Hs0 Hcap Hq|
      i0 j ctx t m0 o q e d cj ctxj s0 oj sb0 Hi Hj Hx Hs0 Hcap Hq]; cbn [bc_ths]; try (by left).
  - left. rewrite ths_call. by left.
  - assert (Hlt : i0 < length (bc_ths cf)) by by eapply lookup_lt_Some.
    destruct (decide (k = i0)) as [->|Hne].
    + right. simplify_eq. inversion Ht0; subst. exists (length (bc_ths cf)). rewrite ths_step by done.
      right; right. split; [done|]. by eexists.
    + left. rewrite ths_step by done. by right; left.
  - left. assert (Hlti : i0 < length (bc_ths cf)) by by eapply lookup_lt_Some.
    assert (Hltj : j < length (bc_ths cf)) by by eapply lookup_lt_Some.
    assert (Hne : i0 <> j) by by eapply meet_ne. rewrite ths_meet by done.
    right; right. split_and!; [| |done]; intros ->; by simplify_eq.
  - left. assert (Hlti : i0 < length (bc_ths cf)) by by eapply lookup_lt_Some.
    assert (Hltj : j < length (bc_ths cf)) by by eapply lookup_lt_Some.
    assert (Hne : i0 <> j) by by eapply meet_ne. rewrite ths_meet by done.
    right; right. split_and!; [| |done]; intros ->; by simplify_eq.
Qed.
Lemma pends_step cf es l cf' es' : base cf es -> sess cf es -> ctl_wf (bc_st cf) -> pends cf es -> step cf l cf' es' ->
  pends cf' (es ++ es').
Proof.
  intros B S W P H s sb' Hs' Ha' Hr'.
  assert (Hold : exists sb, bs_heap (bc_st cf) !! s = Some sb /\ same_sub sb sb').
  { destruct (step_change _ _ _ _ H) as [i c p ch p' sp acts Hi Ht _ _|E _ _ _ _|ctx -> _|d -> _].
    - destruct (tr_heap_new _ _ _ _ _ _ _ _ _ _ Ht Hs') as [?|(_ & _ & t & _ & ->)]; [done|by simpl in Ha'].
    - exists sb'. rewrite <- E. split; [done|apply same_sub_refl].
    - exists sb'. split; [done|apply same_sub_refl].
    - exists sb'. split; [done|apply same_sub_refl]. }
  destruct Hold as (sb & Hs & Hsame). assert (Hlt : s < length (bs_heap (bc_st cf))) by by eapply lookup_lt_Some.
  apply (in_registry_same _ _ _ _ Hsame) in Hr'. pose proof (step_registry _ _ _ _ _ _ H Hlt Hr') as Hr.
  destruct Hsame as (E1 & E2 & E3 & E4 & E5 & E6). unfold pending. rewrite E1, E2, E4.
  destruct (s_active sb) eqn:Ha.
  { right; left. destruct (step_change _ _ _ _ H) as [i c p ch p' sp acts Hi Ht _ Hth|E _ _ _ _|ctx -> _|d -> _];
      [|rewrite E in Hs'|..]; simpl in *; try congruence.
    destruct (tr_unsub_only _ _ _ _ _ _ _ _ _ _ _ Ht Hs Hs' Ha Ha') as [-> ->]. exists i.
    inversion Ht; subst. rewrite Hth, ths_step by by eapply lookup_lt_Some. by left. }
  destruct (P _ _ Hs Ha Hr) as [Hcl|[(k & Hk)|[(k & Hk)|[(ctl & buf & Hc & Hb & Hin)|(k & c & Hk)]]]].
  - left. by apply closed_in_app_l.
  - right. destruct (step_spawns _ _ _ _ _ _ H Hk) as [?|?]; eauto.
  - destruct (step_moves _ _ _ _ _ _ _ H Hk) as (p' & Hk' & Hm). destruct Hm as [|? ? ? ? Ht|? ? ? ? ? ? ? E|? ? ? E|? ? E]; try done.
    + right; right; left. eauto.
    + inversion Ht; subst; simplify_eq.
      * right; right; right; left. exists ctl. eexists. split; [done|]. simpl. rewrite lookup_insert.
        split; [done|]. set_solver.
      * left. apply closed_in_app_l. by eapply closed_why_queue.
  - right. right; right. destruct (step_change _ _ _ _ H) as [i c p ch p' sp acts Hi Ht _ Hth|E _ _ _ _|ctx -> _|d -> _].
    + destruct (tr_ctls_keep _ _ _ _ _ _ _ _ _ _ _ W Ht Hb Hin) as [(buf' & ? & ?)| ->]; [left; eauto|]. right. exists i, c.
      rewrite Hth, ths_step by by eapply lookup_lt_Some. by left.
    + left. rewrite E. eauto.
    + left. eauto.
    + left. eauto.
  - destruct (step_moves _ _ _ _ _ _ _ H Hk) as (p' & Hk' & Hm). destruct Hm as [|? ? ? ? Ht|? ? ? ? ? ? ? E|? ? ? E|? ? E]; try done.
    + right; right; right; right. eauto.
    + exfalso. destruct Hr' as (inner & Hi1 & Hi2). destruct Hr as (inner0 & Hi3 & Hi4). inversion Ht; subst; [|congruence].
      match goal with Hx : _ = bc_st cf' |- _ => rewrite <- Hx in Hi1 | Hx : bc_st cf' = _ |- _ => rewrite Hx in Hi1 end. simpl in Hi1. rewrite lookup_insert in Hi1.
      injection Hi1 as <-. by rewrite lookup_delete in Hi2.
Qed.
Lemma pends_exec uuid opts ls cf es : bexec (broker_init uuid opts) ls = Some (cf, es) -> pends cf es.
Proof.
  intros H. apply (with_all (fun cf es => ctl_wf (bc_st cf) /\ pends cf es)) in H as (_ & _ & _ & H); [done| |].
  - split; [|intros s sb Hs; cbn in Hs; by destruct s].
    split; simpl; try done. intros c [x Hx]. by rewrite lookup_empty in Hx.
  - clear. intros cf es l cf' es' B S [W P] _ H. split; [|by eapply pends_step].
    destruct H; try (by destruct W). by eapply tr_ctl_wf.
Qed.

(** ** Executions with a single Open, continued *)
Definition opened (cf : bconf) : Prop := exists i ctx r, bc_ths cf !! i = Some (COpen ctx, PDone r).
Record lone2 (cf : bconf) (es : list event) : Prop := {
  l2_mid : forall k c, bc_ths cf !! k = Some (c, POpenCtl) -> is_Some (m_exit (bs_mem (bc_st cf)));
  l2_open : opened cf -> is_Some (m_ctl (bs_mem (bc_st cf))) /\ is_Some (m_exit (bs_mem (bc_st cf))) /\ bs_locked (bc_st cf) = false;
  l2_heap : forall s sb, bs_heap (bc_st cf) !! s = Some sb ->
    opened cf /\ s_ctl sb = m_ctl (bs_mem (bc_st cf)) /\ q_exit (s_queue sb) = m_exit (bs_mem (bc_st cf));
  l2_topics : forall t q, m_topics (bs_mem (bc_st cf)) !! t = Some q -> opened cf /\ q_exit q = m_exit (bs_mem (bc_st cf));
  l2_sub : forall k c, bc_ths cf !! k = Some (c, PSubMake) -> opened cf;
  l2_ctl : forall k c e, bc_ths cf !! k = Some (c, PRunCtl e) -> e = m_exit (bs_mem (bc_st cf));
  l2_wait : forall k c e ctl, bc_ths cf !! k = Some (c, PRunWait e ctl) ->
    e = m_exit (bs_mem (bc_st cf)) /\ ctl = m_ctl (bs_mem (bc_st cf));
  l2_closed : closed_in es -> opened cf /\ exists e, m_exit (bs_mem (bc_st cf)) = Some e /\ e ∈ bs_closed (bc_st cf);
  l2_run : opened cf -> exists k ctx p, bc_ths cf !! k = Some (CRun ctx, p) /\
    (m_connected (bs_mem (bc_st cf)) = true -> forall r, p <> PDone r);
}.
Lemma opened_step cf l cf' es' : step cf l cf' es' -> opened cf -> opened cf'.
Proof. intros H (i & ctx & r & Hi). exists i, ctx, r. by eapply ths_done_step. Qed.
Lemma free_opened cf : lone cf -> bs_locked (bc_st cf) = false -> m_connected (bs_mem (bc_st cf)) = true -> opened cf.
Proof.
  intros L Hl Hc. destruct (lo_conn _ L Hc) as (i & ctx & p & Hi & [->|[r ->]]).
  - apply (lo_lock _ L) in Hi. congruence.
  - by exists i, ctx, r.
Qed.
Lemma tr_mem b c p ch b' p' sp acts : tr b c p ch b' p' sp acts -> p <> POpenSet -> p <> POpenCtl ->
  m_exit (bs_mem b') = m_exit (bs_mem b) /\ m_ctl (bs_mem b') = m_ctl (bs_mem b) /\ bs_locked b' = bs_locked b.
Proof.
  intros H H1 H2. destruct H; try done.
  - rewrite get_queue_2. unfold pub_make. by destruct (m_topics (bs_mem b) !! t).
  - by rewrite sub_make_eq.
Qed.
Lemma tr_exit_some b c p ch b' p' sp acts : tr b c p ch b' p' sp acts ->
  is_Some (m_exit (bs_mem b)) -> is_Some (m_exit (bs_mem b')).
Proof.
  intros H He. destruct H; try done; try by eexists.
  - rewrite get_queue_2. unfold pub_make. by destruct (m_topics (bs_mem b) !! t).
  - by rewrite sub_make_eq.
Qed.
Lemma closed_mono cf l cf' es' e : step cf l cf' es' -> e ∈ bs_closed (bc_st cf) -> e ∈ bs_closed (bc_st cf').
Proof.
  intros H He. destruct H; try done. cbn [bc_st]. destruct H0; try done; try (cbn; set_solver).
  - rewrite get_queue_2. unfold pub_make. by destruct (m_topics (bs_mem (bc_st cf)) !! t).
  - by rewrite sub_make_eq.
Qed.
Lemma tr_topics b c p ch b' p' sp acts t q : tr b c p ch b' p' sp acts -> m_topics (bs_mem b') !! t = Some q ->
  m_topics (bs_mem b) !! t = Some q \/ (q_exit q = m_exit (bs_mem b) /\ (p = PPubQueue \/ p = PSubMake)).
Proof.
  intros H Hq. destruct H; try (by left); simpl in Hq.
  - rewrite close_topics_lookup in Hq. destruct (m_subs (bs_mem b) !! t); [done|by left].
  - rewrite get_queue_2 in Hq. unfold pub_make in Hq. destruct (m_topics (bs_mem b) !! t0) eqn:E; [by left|].
    simpl in Hq. apply lookup_insert_Some in Hq as [[_ <-]|[_ ?]]; [|by left]. right. by eauto.
  - rewrite sub_make_eq in Hq. simpl in Hq. unfold sub_topics in Hq. destruct (m_topics (bs_mem b) !! t0) eqn:E; [by left|].
    apply lookup_insert_Some in Hq as [[_ <-]|[_ ?]]; [|by left]. right. by eauto.
Qed.
Lemma lone2_step cf es l cf' es' : lone_open es -> base cf es -> lone cf -> lone2 cf es -> step cf l cf' es' -> lone2 cf' (es ++ es').
Proof.
  intros Hone B L I H.
  assert (Hno : opened cf -> forall i c p, bc_ths cf !! i = Some (c, p) -> p <> POpenSet /\ p <> POpenCtl).
  { intros (i & ctx & r & Hi) j c p Hj. pose proof (base_wf _ _ B _ _ _ Hj) as Hw.
    assert (Hx : forall ctx', c = COpen ctx' -> j = i).
    { intros ctx' ->. apply (Hone j i ctx' ctx); apply (base_call _ _ B); split; eauto. }
    split; intros ->; destruct c; try done; rewrite (Hx _ eq_refl) in Hj; congruence. }
  assert (K : opened cf -> m_exit (bs_mem (bc_st cf')) = m_exit (bs_mem (bc_st cf)) /\
     m_ctl (bs_mem (bc_st cf')) = m_ctl (bs_mem (bc_st cf)) /\ bs_locked (bc_st cf') = bs_locked (bc_st cf)).
  { intros Ho. destruct (step_change _ _ _ _ H) as [i c p ch p' sp acts Hi Ht _ Hth|E _ _ _ _|ctx -> _|d -> _]; [|by rewrite E|done|done].
    destruct (Hno Ho _ _ _ Hi). by eapply tr_mem. }
  assert (Hops : opened cf -> opened cf') by by eapply opened_step.
  assert (Hnew : opened cf' -> opened cf \/ exists i ctx, bc_ths cf !! i = Some (COpen ctx, POpenCtl) /\
     bc_st cf' = open_ctl (bc_st cf) /\ exists k, bc_ths cf' !! k = Some (CRun ctx, PRunExit)).
  { intros (i & ctx & r & Hi). destruct (step_change _ _ _ _ H) as [i0 c p ch p' sp acts Hi0 Ht _ Hth|E _ _ _ _|x -> _|d -> _].
    - assert (Hlt : i0 < length (bc_ths cf)) by by eapply lookup_lt_Some.
      rewrite Hth, ths_step in Hi by done.
      destruct Hi as [[-> [= <- <-]]|[[_ Hi]|(_ & c0 & _ & [= <- Hi])]]; [|left; by exists i, ctx, r|by simpl in Hi].
      pose proof (base_wf _ _ B _ _ _ Hi0) as Hw. inversion Ht; subst; try done.
      + left. by apply free_opened.
      + right. exists i0, ctx. split; [done|]. split; [done|]. exists (length (bc_ths cf)). rewrite Hth, ths_step by done.
        right; right. split; [done|]. by eexists.
    - left. destruct (step_before _ _ _ _ _ _ _ H Hi) as
      [Hj0| _ ? _|k ck pk ch b' p' acts _ ? _ _ _ _|p0 ch sp acts Hj0 Ht Hes|q e' d ctx' t m o' _ ? ? _ _|m d x _ ? _ _|m x Hj0 ? _ _]; try done.
      + by exists i, ctx, r.
      + pose proof (base_wf _ _ B _ _ _ Hj0) as Hw. inversion Ht; subst; try done.
        * by apply free_opened.
        * exfalso. match goal with Hx : _ = bc_st cf' |- _ => rewrite <- Hx in E | Hx : bc_st cf' = _ |- _ => rewrite Hx in E end.
          pose proof (f_equal bs_next E) as En. simpl in En. lia.
      + pose proof (base_wf _ _ B _ _ _ Hj0) as Hw. done.
    - left. by exists i, ctx, r.
    - left. by exists i, ctx, r. }
  split.
  - assert (Hx : is_Some (m_exit (bs_mem (bc_st cf))) -> is_Some (m_exit (bs_mem (bc_st cf')))).
    { destruct (step_change _ _ _ _ H) as [i c p ch p' sp acts Hi Ht _ Hth|E _ _ _ _|ctx -> _|d -> _]; [|by rewrite E|done|done].
      by eapply tr_exit_some. }
    intros k c Hk. destruct (step_before _ _ _ _ _ _ _ H Hk) as
      [Hj0| _ Hp _|k0 ck pk ch b' p' acts _ Hp _ _ _ _|p0 ch sp acts Hj0 Ht Hes|q e' d ctx' t m o' _ ? ? _ _|m d x _ ? _ _|m x Hj0 ? _ _];
      try done; try (by destruct c).
    + apply Hx. by eapply (l2_mid _ _ I).
    + inversion Ht; subst; try (destruct c; done); try (destruct c, e; simpl in *; simplify_eq; done).
  - intros Ho. destruct (Hnew Ho) as [Ho'|(i & ctx & Hi & -> & _)].
    + destruct (K Ho') as (-> & -> & ->). by apply (l2_open _ _ I).
    + simpl. split; [by eexists|]. split; [by apply (l2_mid _ _ I) in Hi|done].
  - intros s sb' Hs'.
    assert (Hx : opened cf /\ s_ctl sb' = m_ctl (bs_mem (bc_st cf)) /\ q_exit (s_queue sb') = m_exit (bs_mem (bc_st cf))).
    { destruct (step_change _ _ _ _ H) as [i c p ch p' sp acts Hi Ht _ Hth|E _ _ _ _|ctx -> _|d -> _].
      - destruct (tr_heap_new _ _ _ _ _ _ _ _ _ _ Ht Hs') as [(sb & Hs & (_ & _ & -> & -> & _))|(_ & Hp' & t & -> & ->)].
        + by eapply (l2_heap _ _ I).
        + assert (Hp : p = PSubMake).
          { destruct (tr_sub_done _ _ _ _ _ _ _ _ _ Ht Hp') as (t' & _ & Hb & _). pose proof (base_wf _ _ B _ _ _ Hi) as Hw.
            subst p'. inversion Ht; subst; try done; try (destruct e; done). }
          subst p. split; [by eapply (l2_sub _ _ I)|]. split; [done|]. simpl.
          unfold sub_queue. destruct (m_topics (bs_mem (bc_st cf)) !! t) as [q|] eqn:E; [|done].
          by apply (l2_topics _ _ I) in E as [_ ?].
      - rewrite E in Hs'. by apply (l2_heap _ _ I) in Hs'.
      - by apply (l2_heap _ _ I) in Hs'.
      - by apply (l2_heap _ _ I) in Hs'. }
    destruct Hx as (Ho & -> & ->). destruct (K Ho) as (-> & -> & _). auto.
  - intros t q Hq.
    assert (Hx : opened cf /\ q_exit q = m_exit (bs_mem (bc_st cf))).
    { destruct (step_change _ _ _ _ H) as [i c p ch p' sp acts Hi Ht _ Hth|E _ _ _ _|ctx -> _|d -> _].
      - destruct (tr_topics _ _ _ _ _ _ _ _ _ _ Ht Hq) as [?|[? [->| ->]]]; [by eapply (l2_topics _ _ I)|..].
        + split; [|done]. destruct (lo_use _ L _ _ _ Hi) as (j & ctx & r & Hj); [by destruct c|]. by exists j, ctx, r.
        + split; [by eapply (l2_sub _ _ I)|done].
      - rewrite E in Hq. by apply (l2_topics _ _ I) in Hq.
      - by apply (l2_topics _ _ I) in Hq.
      - by apply (l2_topics _ _ I) in Hq. }
    destruct Hx as (Ho & ->). destruct (K Ho) as (-> & _). auto.
  - intros k c Hk. destruct (step_before _ _ _ _ _ _ _ H Hk) as
      [Hj0| _ Hp _|k0 ck pk ch b' p' acts _ Hp _ _ _ _|p0 ch sp acts Hj0 Ht Hes|q e' d ctx' t m o' _ ? ? _ _|m d x _ ? _ _|m x Hj0 ? _ _];
      try done; try (by destruct c).
    + apply Hops. by eapply (l2_sub _ _ I).
    + inversion Ht; subst; try (destruct c; done); try (destruct c, e; simpl in *; simplify_eq; done).
      apply Hops. by apply free_opened.
  - intros k c e Hk. destruct (step_before _ _ _ _ _ _ _ H Hk) as
      [Hj0| _ Hp _|k0 ck pk ch b' p' acts _ Hp _ _ _ _|p0 ch sp acts Hj0 Ht Hes|q e' d ctx' t m o' _ ? ? _ _|m d x _ ? _ _|m x Hj0 ? _ _];
      try done; try (by destruct c).
    + pose proof (base_wf _ _ B _ _ _ Hj0) as Hw. destruct (lo_use _ L _ _ _ Hj0) as (j & ctx & r & Hj); [by destruct c|].
      destruct K as (-> & _); [by exists j, ctx, r|]. by eapply (l2_ctl _ _ I).
    + inversion Ht; subst; try (destruct c; done); try (destruct c, e0; simpl in *; simplify_eq; done).
  - intros k c e ctl Hk. destruct (step_before _ _ _ _ _ _ _ H Hk) as
      [Hj0| _ Hp _|k0 ck pk ch b' p' acts _ Hp _ _ _ _|p0 ch sp acts Hj0 Ht Hes|q e' d ctx' t m o' _ ? ? _ _|m d x _ ? _ _|m x Hj0 ? _ _];
      try done; try (by destruct c).
    + pose proof (base_wf _ _ B _ _ _ Hj0) as Hw. destruct (lo_use _ L _ _ _ Hj0) as (j & ctx & r & Hj); [by destruct c|].
      destruct K as (-> & -> & _); [by exists j, ctx, r|]. by eapply (l2_wait _ _ I).
    + inversion Ht; subst; try (destruct c; done); try (destruct c, e0; simpl in *; simplify_eq; done).
      pose proof (l2_ctl _ _ I _ _ _ Hj0). split; congruence.
  - intros [k Hk]. apply elem_of_app in Hk as [Hk|Hk].
    + destruct (l2_closed _ _ I) as (Ho & e & He & Hc); [by exists k|]. split; [auto|]. destruct (K Ho) as (-> & _).
      exists e. split; [done|]. by eapply closed_mono.
    + destruct H as [c0 Hc|ctx|d|i0 ch0 c0 p0 b' p1 sp0 acts0 Hi Ht0| |];
        try (by repeat (apply elem_of_cons in Hk as [Hk|Hk]; [discriminate|]); apply elem_of_nil in Hk).
      apply elem_acts_act in Hk as [-> Hk].
      inversion Ht0; subst; try (by repeat (apply elem_of_cons in Hk as [Hk|Hk]; [discriminate|]); apply elem_of_nil in Hk).
      split; [by apply Hops, free_opened|]. cbn. eexists. split; [done|]. clear. set_solver.
  - intros Ho'. destruct (Hnew Ho') as [Ho|(i & ctx & Hi & _ & k & Hk)]; [|exists k, ctx, PRunExit; done].
    destruct (l2_run _ _ I Ho) as (k & ctx & p & Hk & Hp). destruct (step_moves _ _ _ _ _ _ _ H Hk) as (p' & Hk' & Hm).
    exists k, ctx, p'. split; [done|]. intros Hc' r ->.
    assert (Hc : m_connected (bs_mem (bc_st cf)) = true).
    { destruct (step_change _ _ _ _ H) as [i c p0 ch p' sp acts Hi Ht _ Hth|E _ _ _ _|x -> _|d -> _]; [|by rewrite E in Hc'|done|done].
      destruct (tr_conn _ _ _ _ _ _ _ _ Ht Hc') as [?|[-> _]]; [done|]. by destruct (Hno Ho _ _ _ Hi). }
    specialize (Hp Hc). pose proof (base_wf _ _ B _ _ _ Hk) as Hw. inversion Hm; subst; try done; [by eapply Hp|].
    match goal with Ht : tr _ _ _ _ _ _ _ _ |- _ => inversion Ht; subst; try done end; try congruence.
    match goal with Hx : _ = bc_st cf' |- _ => by rewrite <- Hx in Hc' end.
Qed.
Lemma lone2_exec uuid opts ls cf es : bexec (broker_init uuid opts) ls = Some (cf, es) -> lone_open es -> lone2 cf es.
Proof.
  intros H. apply (with_base (fun cf es => lone_open es -> lone cf /\ lone2 cf es)) in H as [_ H]; [by intros H1; apply H| |].
  - intros _. split; [by split; simpl; intros|]. split; simpl; try done.
    + intros (i & ctx & r & Hi). by destruct i.
    + intros [k Hk]. by apply elem_of_nil in Hk.
    + intros (i & ctx & r & Hi). by destruct i.
  - clear. intros cf es l cf' es' B IH _ Hst Hone.
    assert (Hone' : lone_open es) by (intros i j ctx ctx' Hi Hj; apply (Hone i j ctx ctx'); set_solver).
    destruct (IH Hone') as [L I]. split; [by eapply lone_step; [done|done|by eapply base_step| |done]|by eapply lone2_step].
Qed.
