(** Unsubscribing, timeouts, bounded and unblocked calls. *)
From Verif.Proof Require Export BrokerP5.

(** ** A returned Unsubscribe left the subscriber inactive *)
Definition udone (cf : bconf) (_ : list event) : Prop :=
  forall j s p, bc_ths cf !! j = Some (CUnsub s, p) -> (p = PUnsubSpawn \/ exists r, p = PDone r) -> inactive cf s.
Lemma inactive_step cf l cf' es' s : step cf l cf' es' -> inactive cf s -> inactive cf' s.
Proof.
  intros H (sb & Hs & Ha). destruct (heap_mono_step _ _ _ _ _ _ H Hs) as (sb' & Hs' & Hsame).
  exists sb'. split; [done|]. destruct Hsame as (_ & _ & _ & _ & _ & Hi). auto.
Qed.
Lemma udone_step cf es l cf' es' : base cf es -> udone cf es -> step cf l cf' es' -> udone cf' (es ++ es').
Proof.
  intros B U H j s p Hj Hp. destruct (step_before _ _ _ _ _ _ _ H Hj) as
    [Hj0| _ -> _|k ck pk ch b' p' acts _ -> _ _ _ _|p0 ch sp acts Hj0 Ht _|q e' d ctx t m o _ ? _ _ _|m d x _ -> _ _|m x Hj0 -> _ _];
    try done.
  - eapply inactive_step; [done|]. by eapply U.
  - destruct Hp as [?|[r ?]]; done.
  - destruct Hp as [?|[r ?]]; done.
  - pose proof (base_wf _ _ B _ _ _ Hj0) as Hw.
    inversion Ht; subst; destruct Hp as [Hp|[r Hp]]; simplify_eq/=; try done;
      try (eapply inactive_step; [done|]; eapply U; [done|by eauto]).
    + eapply inactive_step; [done|]. by exists sb.
    + unfold inactive. match goal with E : _ = bc_st cf' |- _ => rewrite <- E end.
      exists (deactivate sb). simpl. split; [|done]. rewrite list_lookup_insert; [done|]. by eapply lookup_lt_Some.
  - destruct Hp as [?|[r ?]]; done.
  - by apply (base_wf _ _ B) in Hj0.
Qed.
Lemma udone_exec uuid opts ls cf es : bexec (broker_init uuid opts) ls = Some (cf, es) -> udone cf es.
Proof.
  intros H. apply (with_base udone) in H as [_ H]; [done|by intros j s p Hj|]. intros. by eapply udone_step.
Qed.
Lemma unsub_returned uuid opts ls cf es j s r : bexec (broker_init uuid opts) ls = Some (cf, es) ->
  ECall j (CUnsub s) ∈ es -> ERet j r ∈ es -> inactive cf s.
Proof.
  intros H Hc Hr. destruct (sess_exec _ _ _ _ _ H) as [B _]. apply (base_call _ _ B) in Hc as (_ & p & Hp).
  apply (base_ret _ _ B) in Hr as (c & Hr). simplify_eq. eapply (udone_exec _ _ _ _ _ H); [done|]. eauto.
Qed.

(** ** A Receive or Digest on an inactive subscriber *)
Definition inert (i s : nat) (cf : bconf) (es : list event) (p : pc) : Prop :=
  inactive cf s /\ (p = PRecvCheck \/ p = PDone (Err BrokerErrSubscriptionInactive)) /\ forall a, EAct i a ∉ es.
Lemma step_acts_mine cf l cf' es' i a c p : step cf l cf' es' -> bc_ths cf !! i = Some (c, p) -> EAct i a ∈ es' ->
  (exists ch b' p' sp acts, tr (bc_st cf) c p ch b' p' sp acts /\ a ∈ acts) \/
  (exists q e d, p = PPubWait q e d) \/ (exists d, p = PRecvWait d) \/ p = PRecvDrop.
Proof.
  intros H Hi Ha. destruct H as [c0 Hc|ctx|d|i0 ch c0 p0 b' p' sp acts Hi0 Ht|
    i0 j ctx t m0 o q e d cj ctxj s oj sb dj Hi0 Hj Har Hs Hcap Hq|
    i0 j ctx t m0 o q e d cj ctxj s oj sb Hi0 Hj Har Hs Hcap Hq].
  - set_solver.
  - set_solver.
  - set_solver.
  - rewrite elem_acts_act in Ha. destruct Ha as [-> Ha]. simplify_eq. left. eauto 10.
  - assert (i = i0 \/ i = j) as [-> | ->] by set_solver; simplify_eq; right; eauto.
  - assert (i = i0 \/ i = j) as [-> | ->] by set_solver; simplify_eq; right; eauto.
Qed.
Lemma inert_step i c ctx s o es1 cf es l cf' es' p p' : recv_args c = Some (ctx, s, o) ->
  base cf (es1 ++ es) -> sess cf (es1 ++ es) -> bc_ths cf !! i = Some (c, p) ->
  inert i s cf es p -> step cf l cf' es' -> moves cf cf' es' i c p p' ->
  bc_ths cf' !! i = Some (c, p') -> inert i s cf' (es ++ es') p'.
Proof.
  intros Hr _ _ Hi (Hin & Hp & Ha) Hst Hm Hi'.
  assert (Hno : forall ch b' p' sp acts, tr (bc_st cf) c p ch b' p' sp acts ->
    p' = PDone (Err BrokerErrSubscriptionInactive) /\ acts = []).
  { intros ch b' q sp acts Ht. destruct Hin as (sb & Hs & Hsa).
    destruct Hp as [-> | ->]; [|by inversion Ht].
    inversion Ht; subst; simplify_eq; first [congruence|by rewrite ?recv_return_err]. }
  split; [by eapply inactive_step|]. split.
  - destruct Hm as [|p' ch sp acts Ht ->|q e d ctx' t' m' o' -> -> _ _|m' d x -> _ _|m' x -> _ _]; [done|..].
    + right. by eapply Hno.
    + done.
    + by destruct Hp.
    + by destruct Hp.
  - intros a. rewrite elem_of_app. intros [?|Hin']; [by eapply Ha|].
    destruct (step_acts_mine _ _ _ _ _ _ _ _ Hst Hi Hin') as [(ch & b' & p1 & sp & acts & Ht & Hel)|H].
    + apply Hno in Ht as [_ ->]. by apply elem_of_nil in Hel.
    + destruct Hp as [-> | ->]; naive_solver.
Qed.

(** ** Timeouts *)
Lemma now_mono cf l cf' es' : step cf l cf' es' -> (bs_now (bc_st cf) <= bs_now (bc_st cf'))%Z.
Proof.
  intros H. destruct (step_change _ _ _ _ H) as [i c p ch p' sp acts Hi Ht -> _| -> _ _ _ _|ctx' -> ->|d -> ->]; simpl; try lia.
  destruct (tr_env _ _ _ _ _ _ _ _ Ht) as [_ ->]. lia.
Qed.
Definition waited (t0 T : Z) (cf : bconf) (p : pc) : Prop :=
  (t0 <= bs_now (bc_st cf))%Z /\
  match p with
  | PPubWait _ _ d | PRecvWait d => (t0 + T <= d)%Z
  | PRecvDrop | PDone (Err BrokerErrTimeout) => (t0 + T <= bs_now (bc_st cf))%Z
  | _ => True
  end.
Definition timeout_of (m : memory) (c : call) : Z :=
  match c with
  | CPub _ _ _ o => pub_timeout m o
  | CRecv _ _ o => recv_timeout o
  | _ => default_timeout
  end.
Lemma waited_step m t0 i c es1 cf es l cf' es' p p' :
  m_timeout (bs_mem (bc_st cf)) = m_timeout m ->
  base cf (es1 ++ es) -> bc_ths cf !! i = Some (c, p) ->
  waited t0 (timeout_of m c) cf p -> step cf l cf' es' -> moves cf cf' es' i c p p' ->
  waited t0 (timeout_of m c) cf' p'.
Proof.
  intros Hmt B Hi [Ht0 Hp] Hst Hm. pose proof (now_mono _ _ _ _ Hst) as Hn.
  assert (Hw : wf_pc c p) by by eapply base_wf.
  split; [lia|].
  destruct Hm as [|p' ch sp acts Ht ->|q e d ctx' t' m' o' -> -> _ _|m' d x -> _ _|m' x -> _ _]; [|..|done|done|].
  - destruct p; try done; [lia|]. destruct r; try done. destruct e; try done. lia.
  - inversion Ht; subst; simpl in *; try done; try lia;
      try (destruct c; try done; try (destruct e; done)).
    + unfold pub_timeout in *. rewrite Hmt. lia.
    + match goal with E : recv_args _ = Some _ |- _ => inversion E; subst end. simpl. lia.
    + match goal with E : recv_args _ = Some _ |- _ => inversion E; subst end.
      unfold recv_timeout. simpl. lia.
  - lia.
Qed.

(** ** Calls take few steps *)
Definition left_to_do (p : pc) : nat :=
  match p with
  | PDone _ | PPanicked _ => 0
  | POpenCheck => 3 | POpenSet => 2 | POpenCtl => 1
  | PCloseGo => 1
  | PPubCheck => 5 | PPubQueue => 4 | PPubSel _ => 3 | PPubWait _ _ _ => 2
  | PSubCheck => 2 | PSubMake => 1
  | PUnsubCheck => 4 | PUnsubClose => 3 | PUnsubSet => 2 | PUnsubSpawn => 1
  | PAsync => 1
  | PRecvCheck => 3 | PRecvWait _ => 2 | PRecvDrop => 1 | PRecvHandle _ => 1
  | PRunExit | PRunCtl _ | PRunWait _ _ | PRunDel _ _ => 0
  end.
Definition looping (c : call) : bool := match c with CDigest _ _ | CRun _ => true | _ => false end.
Lemma tr_left b c p ch b' p' sp acts : looping c = false -> wf_pc c p ->
  tr b c p ch b' p' sp acts -> left_to_do p' < left_to_do p.
Proof.
  intros Hl Hw H. destruct H; simpl in *; try lia; try done; try (by destruct c);
    try (by destruct c; try done; simpl; lia); destruct c; try done; destruct e; simpl; lia.
Qed.
(** After Unsubscribe returned this also holds for Digest. *)
Definition left_inactive (p : pc) : nat :=
  match p with
  | PDone _ | PPanicked _ => 0
  | PRecvCheck => 1 | PRecvWait _ => 3 | PRecvDrop => 1 | PRecvHandle _ => 2
  | _ => 0
  end.
Lemma tr_left_inactive b c ctx s o sb p ch b' p' sp acts : recv_args c = Some (ctx, s, o) -> wf_pc c p ->
  bs_heap b !! s = Some sb -> s_active sb = false ->
  tr b c p ch b' p' sp acts -> left_inactive p' < left_inactive p.
Proof.
  intros Hr Hw Hs Ha H. destruct H; simplify_eq; simpl in *; try lia; try done; try (by destruct c); try congruence;
    try (by destruct c; try done; simpl; lia); destruct c; try done; destruct e; simpl; lia.
Qed.
Definition when (b : bool) (n : nat) : nat := if b then n else 0.
Lemma own_step_gen (M : pc -> nat) cf l cf' es' i c p p' :
  (forall ch b' p' sp acts, tr (bc_st cf) c p ch b' p' sp acts -> M p' < M p) ->
  (forall q e d, p = PPubWait q e d -> M (PDone (Ok None)) < M p) ->
  (forall d m, p = PRecvWait d -> M (PRecvHandle m) < M p) ->
  (p = PRecvDrop -> M (PDone (Err BrokerErrTimeout)) < M p) ->
  bc_ths cf !! i = Some (c, p) -> step cf l cf' es' -> bc_ths cf' !! i = Some (c, p') ->
  M p' + when (own i l) 1 <= M p.
Proof.
  intros H1 H2 H3 H4 Hi Hst Hi'.
  assert (Hlt : i < length (bc_ths cf)) by by eapply lookup_lt_Some.
  destruct Hst as [c0 Hc|ctx|d|i0 ch c0 p0 b' p0' sp acts Hi0 Ht|
    i0 j ctx t m0 o q e d cj ctxj s oj sb dj Hi0 Hj Har Hs Hcap Hq|
    i0 j ctx t m0 o q e d cj ctxj s oj sb Hi0 Hj Har Hs Hcap Hq]; simpl in *.
  - rewrite ths_call in Hi'. destruct Hi' as [?|[-> _]]; [simplify_eq; lia|lia].
  - simplify_eq. lia.
  - simplify_eq. lia.
  - assert (i0 < length (bc_ths cf)) by by eapply lookup_lt_Some.
    rewrite ths_step in Hi' by done. destruct Hi' as [[-> [= ->]]|[[Hne ?]|[-> _]]]; simplify_eq.
    + rewrite Nat.eqb_refl. simpl. apply H1 in Ht. lia.
    + destruct (Nat.eqb_spec i0 i); [done|]. simpl. lia.
    + lia.
  - assert (i0 < length (bc_ths cf)) by by eapply lookup_lt_Some.
    assert (j < length (bc_ths cf)) by by eapply lookup_lt_Some.
    assert (Hne : i0 <> j) by by eapply meet_ne.
    rewrite ths_meet in Hi' by done. destruct Hi' as [[-> [= -> ->]]|[[-> [= -> ->]]|(Hn1 & Hn2 & ?)]]; simplify_eq.
    + rewrite Nat.eqb_refl, orb_true_r. simpl. pose proof (H3 _ m0 eq_refl). lia.
    + rewrite Nat.eqb_refl. simpl. pose proof (H2 _ _ _ eq_refl). lia.
    + destruct (Nat.eqb_spec i0 i); [done|]. destruct (Nat.eqb_spec j i); [done|]. simpl. lia.
  - assert (i0 < length (bc_ths cf)) by by eapply lookup_lt_Some.
    assert (j < length (bc_ths cf)) by by eapply lookup_lt_Some.
    assert (Hne : i0 <> j) by by eapply meet_ne.
    rewrite ths_meet in Hi' by done. destruct Hi' as [[-> [= -> ->]]|[[-> [= -> ->]]|(Hn1 & Hn2 & ?)]]; simplify_eq.
    + rewrite Nat.eqb_refl, orb_true_r. simpl. pose proof (H4 eq_refl). lia.
    + rewrite Nat.eqb_refl. simpl. pose proof (H2 _ _ _ eq_refl). lia.
    + destruct (Nat.eqb_spec i0 i); [done|]. destruct (Nat.eqb_spec j i); [done|]. simpl. lia.
Qed.
Lemma own_steps_cons i l ls : own_steps i (l :: ls) = when (own i l) 1 + own_steps i ls.
Proof. unfold own_steps. simpl. by destruct (own i l). Qed.
Lemma bexec_cons cf l ls cf2 es2 : bexec cf (l :: ls) = Some (cf2, es2) ->
  exists cf1 es es', bstep cf l = Some (cf1, es) /\ bexec cf1 ls = Some (cf2, es') /\ es2 = es ++ es'.
Proof.
  simpl. destruct (bstep cf l) as [[cf1 es]|] eqn:E; [|done].
  destruct (bexec cf1 ls) as [[cf3 es3]|] eqn:E3; [|done]. intros [= <- <-]. eauto 10.
Qed.
Lemma own_steps_bound cf es ls cf2 es2 i c p : base cf es -> looping c = false ->
  bc_ths cf !! i = Some (c, p) -> bexec cf ls = Some (cf2, es2) ->
  exists p', bc_ths cf2 !! i = Some (c, p') /\ left_to_do p' + own_steps i ls <= left_to_do p.
Proof.
  intros B Hl. revert cf es p es2 B. induction ls as [|l ls IH]; intros cf es p es2 B Hi H.
  - simpl in H. simplify_eq. exists p. split; [done|]. unfold own_steps. simpl. lia.
  - apply bexec_cons in H as (cf1 & es1 & es' & Hs%bstep_step & H & ->).
    destruct (ths_mono_step _ _ _ _ _ _ _ Hs Hi) as (p1 & Hp1).
    destruct (IH cf1 (es ++ es1) p1 es') as (p' & Hp' & Hle); [by eapply base_step|done|done|].
    exists p'. split; [done|]. rewrite own_steps_cons.
    assert (left_to_do p1 + when (own i l) 1 <= left_to_do p); [|lia].
    eapply own_step_gen; [..|done|done|done].
    + intros. eapply tr_left; [done|by eapply base_wf|done].
    + intros q e d ->. simpl. lia.
    + intros d m ->. simpl. lia.
    + intros ->. simpl. lia.
Qed.
Lemma own_steps_inactive cf es ls cf2 es2 i c ctx s o p : base cf es -> recv_args c = Some (ctx, s, o) ->
  inactive cf s -> bc_ths cf !! i = Some (c, p) -> bexec cf ls = Some (cf2, es2) ->
  exists p', bc_ths cf2 !! i = Some (c, p') /\ left_inactive p' + own_steps i ls <= left_inactive p.
Proof.
  intros B Hr. revert cf es p es2 B. induction ls as [|l ls IH]; intros cf es p es2 B Hin Hi H.
  - simpl in H. simplify_eq. exists p. split; [done|]. unfold own_steps. simpl. lia.
  - apply bexec_cons in H as (cf1 & es1 & es' & Hs%bstep_step & H & ->).
    destruct (ths_mono_step _ _ _ _ _ _ _ Hs Hi) as (p1 & Hp1).
    destruct (IH cf1 (es ++ es1) p1 es') as (p' & Hp' & Hle); [by eapply base_step|by eapply inactive_step|done|done|].
    exists p'. split; [done|]. rewrite own_steps_cons.
    assert (left_inactive p1 + when (own i l) 1 <= left_inactive p); [|lia].
    destruct Hin as (sb & Hsb & Ha).
    eapply own_step_gen; [..|done|done|done].
    + intros. eapply tr_left_inactive; [done|by eapply base_wf|done..].
    + intros q e d ->. apply (base_wf _ _ B) in Hi. by destruct c.
    + intros d m ->. simpl. lia.
    + intros ->. simpl. lia.
Qed.
