(** Runs of the goroutines that end sessions and empty the registry. *)
From Verif.Proof Require Export BrokerP10.

Definition reach (uuid : nat -> string) (opts : list broker_option) (cf : bconf) (es : list event) : Prop :=
  exists ls, bexec (broker_init uuid opts) ls = Some (cf, es).
Lemma reach_exec uuid opts cf es ls cf' es' : reach uuid opts cf es -> bexec cf ls = Some (cf', es') ->
  reach uuid opts cf' (es ++ es').
Proof. intros [ls0 H0] H. exists (ls0 ++ ls). by eapply exec_two. Qed.
Lemma steps_no_call ls : forall cf cf' es', Forall run_label ls -> bexec cf ls = Some (cf', es') -> forall i c, ECall i c ∉ es'.
Proof.
  induction ls as [|l ls IH]; intros cf cf' es' Hr H i c Hi.
  - simpl in H. simplify_eq. by apply elem_of_nil in Hi.
  - destruct (bexec_cons _ _ _ _ _ H) as (cf1 & es1 & es2 & H1 & H2 & ->). inversion Hr as [|? ? Hl Hr' E]; subst.
    apply elem_of_app in Hi as [Hi|Hi]; [|by eapply IH].
    apply bstep_step in H1. inversion H1; subst; try done. by apply elem_acts_call in Hi.
Qed.
Lemma lone_open_steps es es' : (forall i c, ECall i c ∉ es') -> lone_open es -> lone_open (es ++ es').
Proof.
  intros Hn H i j ctx ctx' Hi Hj. apply elem_of_app in Hi as [Hi|Hi]; [|by apply Hn in Hi].
  apply elem_of_app in Hj as [Hj|Hj]; [|by apply Hn in Hj]. by eapply H.
Qed.
Lemma go_one uuid opts cf es k ch c p o : reach uuid opts cf es -> crashed cf = false -> bc_ths cf !! k = Some (c, p) ->
  tstep (bc_st cf) c p ch = Some o -> (forall x, o_pc o <> PPanicked x) ->
  exists cf' es', bexec cf [LStep k ch] = Some (cf', es') /\ reach uuid opts cf' (es ++ es') /\ crashed cf' = false /\
    bc_ths cf' !! k = Some (c, o_pc o) /\ bc_st cf' = o_st o /\
    (forall j, j <> k -> is_Some (bc_ths cf !! j) -> bc_ths cf' !! j = bc_ths cf !! j) /\
    (forall i c0, ECall i c0 ∉ es') /\
    (forall c0, o_spawn o = Some c0 -> bc_ths cf' !! length (bc_ths cf) = Some (c0, pc_start c0)).
Proof.
  intros R Hc Hk Ht Hp. destruct (bstep_one _ _ _ _ _ _ Hc Hk Ht) as (cf' & es' & He & Hk' & Hst & Hcr & Hoth).
  exists cf', es'. split; [done|]. split; [by eapply reach_exec|]. split; [destruct Hcr as [?|[x Hx]]; [done|by apply Hp in Hx]|].
  split; [done|]. split; [done|]. split; [done|]. split; [eapply steps_no_call; [|done]; by repeat constructor|].
  intros c0 Hs. cbn [bexec] in He. unfold bstep in He. rewrite Hc, Hk, Ht in He. simplify_eq. cbn [bc_ths].
  rewrite ths_step by by eapply lookup_lt_Some. right; right. eauto.
Qed.

(** Letting a half-done Open finish. *)
Lemma unlock uuid opts cf es : reach uuid opts cf es -> crashed cf = false ->
  exists ls' cf' es', Forall run_label ls' /\ length ls' <= 1 /\ bexec cf ls' = Some (cf', es') /\ reach uuid opts cf' (es ++ es') /\
    crashed cf' = false /\ bs_locked (bc_st cf') = false /\ bs_cancelled (bc_st cf') = bs_cancelled (bc_st cf) /\
    (forall j c p, bc_ths cf !! j = Some (c, p) -> p <> POpenCtl -> bc_ths cf' !! j = Some (c, p)).
Proof.
  intros R Hc. destruct (bs_locked (bc_st cf)) eqn:Hl.
  - destruct R as [ls R]. destruct (sess_exec _ _ _ _ _ R) as [_ S]. destruct (se_lock _ _ S Hl) as (i & ctx & Hi).
    destruct (go_one uuid opts cf es i ChGo (COpen ctx) POpenCtl _ (ex_intro _ ls R) Hc Hi eq_refl) as
      (cf' & es' & He & R' & Hc' & Hi' & Hst & Hoth & _ & _); [done|].
    exists [LStep i ChGo], cf', es'. split; [by repeat constructor|]. split; [simpl; lia|]. split; [done|]. split; [done|]. split; [done|].
    split; [by rewrite Hst|]. split; [by rewrite Hst|]. intros j c p Hj Hn. rewrite Hoth; [done| |by rewrite Hj].
    intros ->. by simplify_eq.
  - exists [], cf, []. rewrite app_nil_r. split_and!; try done. simpl. lia.
Qed.

(** The goroutine of Open leaves when its context or its session has ended. *)
Definition run_rank (p : pc) : nat :=
  match p with PRunDel _ _ => 5 | PRunExit => 4 | PRunCtl _ => 3 | PRunWait _ _ => 2 | PCloseGo => 1 | _ => 0 end.
Definition leaves (b : bstate) (ctx : nat) (p : pc) : Prop :=
  ctx ∈ bs_cancelled b \/
  exists e, m_exit (bs_mem b) = Some e /\ e ∈ bs_closed b /\
    match p with PRunCtl e' | PRunWait e' _ => e' = Some e | _ => True end.
Lemma run_ends uuid opts n : forall cf es k ctx p, run_rank p = n -> reach uuid opts cf es -> crashed cf = false ->
  bs_locked (bc_st cf) = false -> bc_ths cf !! k = Some (CRun ctx, p) -> leaves (bc_st cf) ctx p ->
  exists ls' cf' es', Forall (step_of k) ls' /\ length ls' <= n /\ bexec cf ls' = Some (cf', es') /\ reach uuid opts cf' (es ++ es') /\
    crashed cf' = false /\ bc_ths cf' !! k = Some (CRun ctx, PDone (Ok None)) /\ (0 < n -> m_connected (bs_mem (bc_st cf')) = false).
Proof.
  induction (lt_wf n) as [n _ IH]. intros cf es k ctx p Hn R Hc Hl Hk Hlv.
  assert (Hgo : forall ch o, tstep (bc_st cf) (CRun ctx) p ch = Some o -> 0 < run_rank (o_pc o) < n ->
     (forall x, o_pc o <> PPanicked x) -> bs_locked (o_st o) = false -> leaves (o_st o) ctx (o_pc o) ->
     exists ls' cf' es', Forall (step_of k) ls' /\ length ls' <= n /\ bexec cf ls' = Some (cf', es') /\ reach uuid opts cf' (es ++ es') /\
       crashed cf' = false /\ bc_ths cf' !! k = Some (CRun ctx, PDone (Ok None)) /\ (0 < n -> m_connected (bs_mem (bc_st cf')) = false)).
  { intros ch o Ht Hr Hp Hlo Hlv'.
    destruct (go_one _ _ _ _ _ _ _ _ _ R Hc Hk Ht Hp) as (cf1 & es1 & He1 & R1 & Hc1 & Hk1 & Hst1 & _).
    destruct (IH (run_rank (o_pc o)) ltac:(lia) cf1 (es ++ es1) k ctx (o_pc o) eq_refl R1 Hc1) as
      (ls' & cf' & es' & Hf & Hlen & He & R' & Hc' & Hk' & Hcon); [by rewrite Hst1|done|by rewrite Hst1|].
    exists ([LStep k ch] ++ ls'), cf', (es1 ++ es'). split; [apply Forall_app; split; [repeat constructor; by exists ch|done]|].
    split; [simpl; lia|]. split; [by rewrite bexec_app, He1, He|]. rewrite app_assoc. split; [done|]. split; [done|]. split; [done|].
    intros _. apply Hcon. lia. }
  destruct R as [ls R]. destruct (sess_exec _ _ _ _ _ R) as [B S]. pose proof (base_wf _ _ B _ _ _ Hk) as Hw.
  destruct p; try done; simpl in Hn; subst n.
  - (* Close *)
    destruct (m_connected (bs_mem (bc_st cf))) eqn:Hcon.
    + destruct (si_conn _ (se_st _ _ S) Hcon) as (e & He & Hnc).
      destruct (go_one uuid opts cf es k ChGo (CRun ctx) PCloseGo (Out (close_st (bc_st cf) e) (PDone (Ok None)) None [AClosed])
        (ex_intro _ ls R) Hc Hk) as (cf1 & es1 & He1 & R1 & Hc1 & Hk1 & Hst1 & _); [|done|].
      { cbn [tstep]. unfold mem_close, close_st, chan_closed. rewrite Hl, Hcon, He. simpl. by rewrite bool_decide_eq_false_2. }
      exists [LStep k ChGo], cf1, es1. split; [repeat constructor; by exists ChGo|]. split; [simpl; lia|]. split; [done|]. split; [done|].
      split; [done|]. split; [done|]. intros _. by rewrite Hst1.
    + destruct (go_one uuid opts cf es k ChGo (CRun ctx) PCloseGo (Out (bc_st cf) (PDone (Ok None)) None [])
        (ex_intro _ ls R) Hc Hk) as (cf1 & es1 & He1 & R1 & Hc1 & Hk1 & Hst1 & _); [|done|].
      { cbn [tstep]. rewrite Hl. unfold mem_close. by rewrite Hcon. }
      exists [LStep k ChGo], cf1, es1. split; [repeat constructor; by exists ChGo|]. split; [simpl; lia|]. split; [done|]. split; [done|].
      split; [done|]. split; [done|]. intros _. by rewrite Hst1.
  - (* the select reads exit *)
    eapply (Hgo ChGo); [cbn; done|simpl; lia|done|done|]. cbn [o_st o_pc].
    destruct Hlv as [?|(e & He & Hcl & _)]; [by left|right]. eauto.
  - eapply (Hgo ChGo); [cbn; done|simpl; lia|done|done|]. cbn [o_st o_pc].
    destruct Hlv as [?|(e' & He & Hcl & ?)]; [by left|right]. eauto.
  - destruct Hlv as [Hcx|(e' & He & Hcl & Hx)].
    + eapply (Hgo ChCtx); [cbn [tstep]; unfold ctx_done; by rewrite bool_decide_eq_true_2|simpl; lia|done|done|by left].
    + eapply (Hgo ChExit); [cbn [tstep]; rewrite Hx; unfold chan_closed; by rewrite bool_decide_eq_true_2|simpl; lia|done|done|].
      right. eauto.
  - destruct (m_subs (bs_mem (bc_st cf)) !! topic) as [inner|] eqn:E.
    + eapply (Hgo ChGo); [cbn [tstep]; by rewrite Hl, E|simpl; lia|done|done|]. cbn [o_st o_pc].
      destruct Hlv as [?|(e' & He & Hcl & _)]; [by left|right]. eauto.
    + eapply (Hgo ChGo); [cbn [tstep]; by rewrite Hl, E|simpl; lia|done|done|]. cbn [o_st o_pc].
      destruct Hlv as [?|(e' & He & Hcl & _)]; [by left|right]. eauto.
  - exists [], cf, []. rewrite app_nil_r. split; [done|]. split; [done|]. split; [done|]. split; [by exists ls|]. split; [done|].
    split; [|simpl; lia]. destruct r as [[?|]|?|]; done.
  - exfalso. by eapply crashed_not in Hk.
Qed.

(** The goroutine of Open works off the removal orders. *)
Definition run_left (p : pc) (buf : list (string * string)) : nat :=
  5 * length buf + match p with PRunDel _ _ => 3 | PRunExit => 2 | PRunCtl _ => 1 | _ => 0 end.
Definition drained (cf cf' : bconf) (k ctx ctl : nat) : Prop :=
  m_subs (bs_mem (bc_st cf')) = ∅ \/
  exists e, bc_ths cf' !! k = Some (CRun ctx, PRunWait e (Some ctl)) /\ bs_ctls (bc_st cf') !! ctl = Some [] /\
    m_connected (bs_mem (bc_st cf')) = true /\
    (forall j, j <> k -> is_Some (bc_ths cf !! j) -> bc_ths cf' !! j = bc_ths cf !! j).
Lemma drain uuid opts n : forall cf es k ctx p ctl buf, run_left p buf = n -> reach uuid opts cf es -> crashed cf = false ->
  lone_open es -> opened cf -> m_connected (bs_mem (bc_st cf)) = true ->
  bc_ths cf !! k = Some (CRun ctx, p) -> (forall r, p <> PDone r) ->
  m_ctl (bs_mem (bc_st cf)) = Some ctl -> bs_ctls (bc_st cf) !! ctl = Some buf ->
  exists ls' cf' es', Forall run_label ls' /\ bexec cf ls' = Some (cf', es') /\ reach uuid opts cf' (es ++ es') /\
    crashed cf' = false /\ bs_heap (bc_st cf') = bs_heap (bc_st cf) /\ drained cf cf' k ctx ctl.
Proof.
  induction (lt_wf n) as [n _ IH]. intros cf es k ctx p ctl buf Hn R Hc Hone Ho Hcon Hk Hnd Hctl Hbuf.
  assert (Hgo : forall ch o buf', tstep (bc_st cf) (CRun ctx) p ch = Some o -> run_left (o_pc o) buf' < n ->
     (forall x, o_pc o <> PPanicked x) -> (forall x, o_pc o <> PDone x) -> m_connected (bs_mem (o_st o)) = true ->
     m_ctl (bs_mem (o_st o)) = Some ctl -> bs_ctls (o_st o) !! ctl = Some buf' -> bs_heap (o_st o) = bs_heap (bc_st cf) ->
     exists ls' cf' es', Forall run_label ls' /\ bexec cf ls' = Some (cf', es') /\ reach uuid opts cf' (es ++ es') /\
       crashed cf' = false /\ bs_heap (bc_st cf') = bs_heap (bc_st cf) /\ drained cf cf' k ctx ctl).
  { intros ch o buf' Ht Hr Hp Hd Hcon' Hctl' Hbuf' Hheap.
    destruct (go_one _ _ _ _ _ _ _ _ _ R Hc Hk Ht Hp) as (cf1 & es1 & He1 & R1 & Hc1 & Hk1 & Hst1 & Hoth1 & Hnc1 & _).
    destruct (IH _ Hr cf1 (es ++ es1) k ctx (o_pc o) ctl buf' eq_refl R1 Hc1) as (ls' & cf' & es' & Hf & He & R' & Hc' & Hh & Hdr).
    - by apply lone_open_steps.
    - destruct Ho as (i & ctx0 & r & Hi). exists i, ctx0, r. rewrite Hoth1; [done| |by rewrite Hi]. intros ->. by simplify_eq.
    - by rewrite Hst1.
    - done.
    - done.
    - by rewrite Hst1.
    - by rewrite Hst1.
    - exists ([LStep k ch] ++ ls'), cf', (es1 ++ es'). split; [apply Forall_app; split; [by repeat constructor|done]|].
      split; [by rewrite bexec_app, He1, He|]. rewrite app_assoc. split; [done|]. split; [done|]. split; [by rewrite Hh, Hst1|].
      destruct Hdr as [?|(e & H1 & H2 & H4 & H3)]; [by left|right]. exists e. split; [done|]. split; [done|]. split; [done|].
      intros j Hj Hs. rewrite H3; [by apply Hoth1|done|]. rewrite Hoth1; done. }
  destruct R as [ls R]. destruct (sess_exec _ _ _ _ _ R) as [B S]. pose proof (base_wf _ _ B _ _ _ Hk) as Hw.
  pose proof (lone2_exec _ _ _ _ _ R Hone) as I. destruct (l2_open _ _ I Ho) as (_ & _ & Hl).
  destruct p; try done; simpl in Hn; subst n.
  - destruct (si_conn _ (se_st _ _ S) Hcon) as (e & He & Hnc).
    destruct (go_one uuid opts cf es k ChGo (CRun ctx) PCloseGo (Out (close_st (bc_st cf) e) (PDone (Ok None)) None [AClosed])
        (ex_intro _ ls R) Hc Hk) as (cf1 & es1 & He1 & R1 & Hc1 & Hk1 & Hst1 & _); [|done|].
    { cbn [tstep]. unfold mem_close, close_st, chan_closed. rewrite Hl, Hcon, He. simpl. by rewrite bool_decide_eq_false_2. }
    exists [LStep k ChGo], cf1, es1. split; [by repeat constructor|]. split; [done|]. split; [done|].
    split; [done|]. split; [by rewrite Hst1|]. left. by rewrite Hst1.
  - eapply (Hgo ChGo _ buf); [cbn; done|unfold run_left; simpl; lia|done|done|done|done|done|done].
  - eapply (Hgo ChGo _ buf); [cbn; done|unfold run_left; simpl; lia|done|done|done|done|done|done].
  - destruct (l2_wait _ _ I _ _ _ _ Hk) as [_ ->]. rewrite Hctl in *. destruct buf as [|[id t] buf].
    + exists [], cf, []. rewrite app_nil_r. split; [done|]. split; [done|]. split; [by exists ls|]. split; [done|]. split; [done|].
      right. exists e. split; [done|]. done.
    + eapply (Hgo ChRecv _ buf); [cbn [tstep]; by rewrite Hbuf|unfold run_left; simpl; lia|done|done|done|done| |done].
      cbn [o_st set_ctls bs_ctls]. by rewrite lookup_insert.
  - destruct (m_subs (bs_mem (bc_st cf)) !! topic) as [inner|] eqn:E.
    + eapply (Hgo ChGo _ buf); [cbn [tstep]; by rewrite Hl, E|unfold run_left; simpl; lia|done|done|done|done|done|done].
    + eapply (Hgo ChGo _ buf); [cbn [tstep]; by rewrite Hl, E|unfold run_left; simpl; lia|done|done|done|done|done|done].
  - by destruct (Hnd r).
  - exfalso. by eapply crashed_not in Hk.
Qed.

(** ** Leaving the registry *)
Lemma kept_eq cf s : kept cf s <-> exists sb, bs_heap (bc_st cf) !! s = Some sb /\ in_registry (bc_st cf) s sb.
Proof. unfold kept, in_registry. naive_solver. Qed.
Lemma kept_dec cf s : kept cf s \/ ~ kept cf s.
Proof.
  rewrite kept_eq. unfold in_registry. destruct (bs_heap (bc_st cf) !! s) as [sb|]; [|right; naive_solver].
  destruct (m_subs (bs_mem (bc_st cf)) !! s_topic sb) as [inner|] eqn:E; [|right; naive_solver].
  destruct (decide (inner !! s_id sb = Some s)); [left|right]; naive_solver.
Qed.
Lemma kept_step cf l cf' es' s : step cf l cf' es' -> s < length (bs_heap (bc_st cf)) -> kept cf' s -> kept cf s.
Proof.
  rewrite !kept_eq. intros H Hs (sb' & Hs' & Hr). apply lookup_lt_is_Some in Hs as [sb Hs].
  destruct (heap_mono_step _ _ _ _ _ _ H Hs) as (sb2 & Hs2 & Hsame). simplify_eq.
  exists sb. split; [done|]. eapply step_registry; [done|by eapply lookup_lt_Some|]. by apply (in_registry_same _ _ _ _ Hsame).
Qed.
Lemma unkept_exec ls : forall cf cf' es' s, bexec cf ls = Some (cf', es') -> s < length (bs_heap (bc_st cf)) ->
  ~ kept cf s -> ~ kept cf' s.
Proof.
  induction ls as [|l ls IH]; intros cf cf' es' s H Hs Hn.
  - simpl in H. by simplify_eq.
  - destruct (bexec_cons _ _ _ _ _ H) as (cf1 & es1 & es2 & H1 & H2 & ->). apply bstep_step in H1.
    eapply IH; [done| |].
    + apply lookup_lt_is_Some in Hs as [sb Hs]. destruct (heap_mono_step _ _ _ _ _ _ H1 Hs) as (sb2 & Hs2 & _). by eapply lookup_lt_Some.
    + intros Hl. apply Hn. by eapply kept_step.
Qed.
Definition can_forget (cf : bconf) (s : nat) : Prop :=
  exists ls' cf' es', Forall run_label ls' /\ bexec cf ls' = Some (cf', es') /\ ~ kept cf' s.
Lemma can_forget_trans cf ls cf1 es1 s : Forall run_label ls -> bexec cf ls = Some (cf1, es1) -> can_forget cf1 s -> can_forget cf s.
Proof.
  intros Hf H (ls' & cf' & es' & Hf' & H' & Hn). exists (ls ++ ls'), cf', (es1 ++ es'). split; [by apply Forall_app|].
  split; [by rewrite bexec_app, H, H'|done].
Qed.
Lemma forget_del uuid opts cf es k c s sb : reach uuid opts cf es -> crashed cf = false -> bs_locked (bc_st cf) = false ->
  bs_heap (bc_st cf) !! s = Some sb -> bc_ths cf !! k = Some (c, PRunDel (s_id sb) (s_topic sb)) -> can_forget cf s.
Proof.
  intros R Hc Hl Hs Hk. destruct (m_subs (bs_mem (bc_st cf)) !! s_topic sb) as [inner|] eqn:E.
  - destruct (go_one uuid opts cf es k ChGo c _ _ R Hc Hk (ltac:(cbn [tstep]; rewrite Hl, E; reflexivity))) as
      (cf1 & es1 & He1 & R1 & Hc1 & Hk1 & Hst1 & _); [done|].
    exists [LStep k ChGo], cf1, es1. split; [by repeat constructor|]. split; [done|].
    intros (sb' & inner' & Hs' & Hi1 & Hi2). rewrite Hst1 in *. cbn [o_st set_mem bs_heap bs_mem mem_subs m_subs] in *. simplify_eq.
    rewrite lookup_insert in Hi1. injection Hi1 as <-. by rewrite lookup_delete in Hi2.
  - exists [], cf, []. split; [done|]. split; [done|]. intros (sb' & inner' & Hs' & Hi1 & Hi2). by simplify_eq.
Qed.
Lemma forget_async uuid opts cf es k ctx e ctl j s : reach uuid opts cf es -> crashed cf = false ->
  lone_open es -> bc_ths cf !! k = Some (CRun ctx, PRunWait e (Some ctl)) -> m_ctl (bs_mem (bc_st cf)) = Some ctl ->
  bs_ctls (bc_st cf) !! ctl = Some [] -> bc_ths cf !! j = Some (CAsync s, PAsync) -> can_forget cf s.
Proof.
  intros R Hc Hone Hk Hctl Hbuf Hj. pose proof R as [ls R0]. pose proof (lone2_exec _ _ _ _ _ R0 Hone) as I.
  destruct (has_sub_exec _ _ _ _ _ R0 _ _ _ _ Hj eq_refl) as [sb Hs]. destruct (l2_heap _ _ I _ _ Hs) as (Ho & Hsc & _).
  destruct (l2_open _ _ I Ho) as (_ & _ & Hl). rewrite Hctl in Hsc.
  destruct (go_one uuid opts cf es j ChSend (CAsync s) PAsync
     (Out (set_ctls (bc_st cf) (<[ctl := [(s_id sb, s_topic sb)]]> (bs_ctls (bc_st cf)))) (PDone (Ok None)) None []) R Hc Hj) as
    (cf1 & es1 & He1 & R1 & Hc1 & Hj1 & Hst1 & Hoth1 & _); [|done|].
  { cbn [tstep]. rewrite Hs, Hsc, Hbuf. reflexivity. }
  assert (Hk1 : bc_ths cf1 !! k = Some (CRun ctx, PRunWait e (Some ctl))).
  { rewrite Hoth1; [done| |by rewrite Hk]. intros ->. by simplify_eq. }
  eapply can_forget_trans; [|exact He1|]; [by repeat constructor|].
  destruct (go_one uuid opts cf1 (es ++ es1) k ChRecv (CRun ctx) (PRunWait e (Some ctl))
     (Out (set_ctls (bc_st cf1) (<[ctl := []]> (bs_ctls (bc_st cf1)))) (PRunDel (s_id sb) (s_topic sb)) None []) R1 Hc1 Hk1) as
    (cf2 & es2 & He2 & R2 & Hc2 & Hk2 & Hst2 & Hoth2 & _); [|done|].
  { cbn [tstep]. rewrite Hst1. cbn [o_st set_ctls bs_ctls]. rewrite lookup_insert. reflexivity. }
  eapply can_forget_trans; [|exact He2|]; [by repeat constructor|].
  eapply forget_del; [exact R2|done| | |exact Hk2]; rewrite Hst2; cbn; rewrite Hst1; done.
Qed.
Lemma forgets uuid opts cf es s : reach uuid opts cf es -> crashed cf = false -> lone_open es ->
  m_connected (bs_mem (bc_st cf)) = true -> inactive cf s -> can_forget cf s.
Proof.
  intros R Hc Hone Hcon (sb & Hs & Ha). pose proof R as [ls R0]. pose proof (lone2_exec _ _ _ _ _ R0 Hone) as I.
  destruct (l2_heap _ _ I _ _ Hs) as (Ho & Hsc & _). destruct (l2_open _ _ I Ho) as ([ctl Hctl] & _ & Hl).
  destruct (l2_run _ _ I Ho) as (k & ctx & p & Hk & Hnd). specialize (Hnd Hcon).
  destruct (cw_mem _ (ctl_wf_exec _ _ _ _ _ R0) _ Hctl) as [buf Hbuf].
  destruct (drain uuid opts _ cf es k ctx p ctl buf eq_refl R Hc Hone Ho Hcon Hk Hnd Hctl Hbuf) as
    (ls1 & cf1 & es1 & Hf1 & He1 & R1 & Hc1 & Hh1 & Hdr).
  eapply can_forget_trans; [exact Hf1|exact He1|].
  destruct Hdr as [Hem|(e & Hk1 & Hb1 & Hcon1 & Hoth1)].
  { exists [], cf1, []. split; [done|]. split; [done|]. intros (sb' & inner & _ & Hi & _). by rewrite Hem, lookup_empty in Hi. }
  destruct (kept_dec cf1 s) as [Hli|Hli]; cycle 1.
  { exists [], cf1, []. done. }
  pose proof R1 as [ls1' R1']. assert (Hone1 : lone_open (es ++ es1)).
  { apply lone_open_steps; [|done]. by eapply steps_no_call. }
  pose proof (lone2_exec _ _ _ _ _ R1' Hone1) as I1. rewrite <- Hh1 in Hs.
  destruct (l2_heap _ _ I1 _ _ Hs) as (Ho1 & Hsc1 & _). destruct (l2_open _ _ I1 Ho1) as (_ & _ & Hl1).
  destruct (l2_wait _ _ I1 _ _ _ _ Hk1) as [_ Hctl1]. symmetry in Hctl1.
  apply kept_eq in Hli as (sb' & Hs' & Hr). simplify_eq.
  destruct (pends_exec _ _ _ _ _ R1' _ _ Hs Ha Hr) as [Hcl|[(j & Hj)|[(j & Hj)|[(ctl' & buf' & E1 & E2 & Hin)|(j & c & Hj)]]]].
  - exfalso. destruct (l2_closed _ _ I1 Hcl) as (_ & e' & He' & Hcl').
    destruct (sess_exec _ _ _ _ _ R1') as [_ S1]. destruct (si_conn _ (se_st _ _ S1) Hcon1) as (e2 & He2 & Hn2). congruence.
  - destruct (go_one uuid opts cf1 (es ++ es1) j ChGo (CUnsub s) PUnsubSpawn _ R1 Hc1 Hj eq_refl) as
      (cf2 & es2 & He2 & R2 & Hc2 & Hj2 & Hst2 & Hoth2 & Hnc2 & Hsp2); [done|].
    eapply can_forget_trans; [|exact He2|]; [by repeat constructor|]. cbn in Hst2.
    eapply (forget_async uuid opts cf2 _ k ctx e ctl (length (bc_ths cf1))); [exact R2|done| | | | |].
    + by apply lone_open_steps.
    + rewrite Hoth2; [done| |by rewrite Hk1]. intros ->. by simplify_eq.
    + by rewrite Hst2.
    + by rewrite Hst2.
    + by apply Hsp2.
  - by eapply forget_async.
  - rewrite Hsc1, Hctl1 in E1. simplify_eq. by apply elem_of_nil in Hin.
  - by eapply forget_del.
Qed.

(** ** What removes a subscriber from the registry *)
Lemma tr_subs b c p ch b' p' sp acts : tr b c p ch b' p' sp acts ->
  m_subs (bs_mem b') = m_subs (bs_mem b) \/ AClosed ∈ acts \/
  (exists t, c = CSub t /\ p' = PDone (Ok (Some (length (bs_heap b)))) /\
     m_subs (bs_mem b') = <[t := <[bs_uuid b (bs_cnt b) := length (bs_heap b)]> (sub_inner b t)]> (m_subs (bs_mem b))) \/
  (exists id t inner, p = PRunDel id t /\ m_subs (bs_mem b) !! t = Some inner /\
     m_subs (bs_mem b') = <[t := delete id inner]> (m_subs (bs_mem b))).
Proof.
  intros H. destruct H; try (by left); try (right; left; set_solver).
  - left. rewrite get_queue_2. unfold pub_make. by destruct (m_topics (bs_mem b) !! t).
  - right; right; left. exists t. rewrite sub_make_eq. done.
  - right; right; right. eauto 10.
Qed.
Lemma leaves_registry uuid opts cf es l cf' es' s : reach uuid opts cf es -> no_repeat uuid -> step cf l cf' es' ->
  kept cf s -> ~ kept cf' s ->
  (exists k, EAct k AClosed ∈ es') \/
  (exists k t s', subscribed es s t /\ ECall k (CSub t) ∈ es /\ ERet k (Ok (Some s')) ∈ es') \/
  exists j, ECall j (CUnsub s) ∈ es.
Proof.
  intros [ls R] Hu H Hk Hn. pose proof (orders_exec _ _ _ _ _ R) as O. pose proof (idents_exec _ _ _ _ _ R) as (_ & _ & Hid).
  destruct (chans_exec _ _ _ _ _ R) as [B [T C]].
  destruct Hk as (sb & inner & Hs & H1 & H2).
  assert (Hsame : m_subs (bs_mem (bc_st cf')) !! s_topic sb = Some inner -> False).
  { intros Hx. destruct (heap_mono_step _ _ _ _ _ _ H Hs) as (sb' & Hs' & E1 & E2 & _). apply Hn. exists sb', inner.
    by rewrite E1, E2. }
  destruct (step_change _ _ _ _ H) as [i c p ch p' sp acts Hi Ht Hes Hth|E _ _ _ _|ctx -> _|d -> _]; cycle 1.
  { rewrite E in Hsame. by destruct Hsame. }
  { by destruct Hsame. }
  { by destruct Hsame. }
  destruct (tr_subs _ _ _ _ _ _ _ _ Ht) as [E|[Hcl|[(t & -> & -> & E)|(id & t & inner' & -> & E' & E)]]].
  - rewrite E in Hsame. by destruct Hsame.
  - left. exists i. rewrite Hes. apply elem_acts_act. done.
  - right; left. destruct (decide (t = s_topic sb)) as [->|Hne]; cycle 1.
    { rewrite E, lookup_insert_ne in Hsame by done. by destruct Hsame. }
    exists i, (s_topic sb), (length (bs_heap (bc_st cf))). split; [|split].
    + destruct (ch_sub2 _ _ _ C _ _ Hs) as (k & Hk). exists k. split; [apply (base_call _ _ B); eauto|apply (base_ret _ _ B); eauto].
    + apply (base_call _ _ B). eauto.
    + rewrite Hes. apply elem_acts_ret. done.
  - destruct (decide (t = s_topic sb)) as [->|Hne]; cycle 1.
    { rewrite E, lookup_insert_ne in Hsame by done. by destruct Hsame. }
    simplify_eq. destruct (decide (id = s_id sb)) as [->|Hne]; cycle 1.
    { exfalso. destruct (heap_mono_step _ _ _ _ _ _ H Hs) as (sb' & Hs' & E1 & E2 & _). apply Hn. exists sb', (delete id inner).
      rewrite E1, E2, E, lookup_insert. split; [done|]. split; [done|]. by rewrite lookup_delete_ne. }
    right; right. destruct (or_del _ _ O _ _ _ _ Hi) as (s' & sb' & Hs' & Hx & _ & Hj). injection Hx as E1 _.
    rewrite (Hid _ _ Hs), (Hid _ _ Hs') in E1. apply Hu in E1 as <-. done.
Qed.
