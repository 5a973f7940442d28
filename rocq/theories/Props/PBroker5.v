(** The in-memory broker, continued: C94 to C96, and more on C72 and C74. *)
From Verif.Model Require Import Broker.
From Verif.Spec Require Import OptionsSpec BrokerSpec.
From Verif.Proof Require Import OptionsP BrokerP BrokerP2 BrokerP3 BrokerP4 BrokerP5 BrokerP6 BrokerP7 BrokerP8 BrokerP9 BrokerP10 BrokerP11.
From Verif.Props Require Import PBroker PBroker3 PBroker4.

(** to check a run by computation without writing out its state *)
Lemma ran (o : option (bconf * list event)) (chk : bconf -> bool) es :
  option_map snd o = Some es -> match o with Some (cf, _) => chk cf | None => false end = true ->
  exists cf, o = Some (cf, es) /\ chk cf = true.
Proof. destruct o as [[cf es']|]; [|done]. intros [= ->] H. by exists cf. Qed.
Definition keptb (cf : bconf) (s : nat) : bool :=
  match bs_heap (bc_st cf) !! s with
  | None => false
  | Some sb => match m_subs (bs_mem (bc_st cf)) !! s_topic sb with
               | None => false
               | Some inner => bool_decide (inner !! s_id sb = Some s)
               end
  end.
Lemma keptb_spec cf s : keptb cf s = true <-> kept cf s.
Proof.
  unfold keptb, kept. destruct (bs_heap (bc_st cf) !! s) as [sb|]; [|naive_solver].
  destruct (m_subs (bs_mem (bc_st cf)) !! s_topic sb) as [inner|] eqn:E; [|naive_solver].
  rewrite bool_decide_eq_true. naive_solver.
Qed.
(** a list of events without certain ones *)
Lemma none_of (f : event -> bool) es e : forallb f es = true -> f e = false -> e ∉ es.
Proof. intros H He Hin. rewrite forallb_forall in H. apply elem_of_list_In, H in Hin. congruence. Qed.
Definition not_unsub (s : nat) (e : event) : bool := match e with ECall _ (CUnsub s') => negb (s =? s')%nat | _ => true end.
Definition open_by (k : nat) (e : event) : bool := match e with ECall i (COpen _) => (i =? k)%nat | _ => true end.
Lemma lone_by k es : forallb (open_by k) es = true -> lone_open es.
Proof.
  intros H i j x x' Hi%elem_of_list_In Hj%elem_of_list_In. rewrite forallb_forall in H.
  apply H in Hi, Hj. simpl in Hi, Hj. apply Nat.eqb_eq in Hi, Hj. congruence.
Qed.
Definition not_closed (e : event) : bool := match e with EAct _ AClosed => false | _ => true end.

(** ** C94 *)
(** When the goroutine started by Open returns it returns nil, the session is closed,
    and either the context of that Open was cancelled or the broker was closed. *)
Theorem c94_run_closes : forall uuid opts ls cf1 es1 l cf2 es2 k ctx p r,
  bexec (broker_init uuid opts) ls = Some (cf1, es1) -> bstep cf1 l = Some (cf2, es2) ->
  bc_ths cf1 !! k = Some (CRun ctx, p) -> ERet k r ∈ es2 ->
  r = Ok None /\ ~ in_session (es1 ++ es2) /\ (ECancel ctx ∈ es1 \/ closed_in es1).
Proof.
  intros uuid opts ls cf1 es1 l cf2 es2 k ctx p r H Hst Hk Hr. destruct (sess_exec _ _ _ _ _ H) as [B S].
  apply bstep_step in Hst as Hs. pose proof (sess_step _ _ _ _ _ B S Hs) as S'.
  destruct Hs as [c0 Hc|cx|d|i0 ch c0 p0 b' p' sp acts Hi Ht|
    i0 j cx t m0 o q e d cj ctxj s oj sb dj Hi Hj Ha Hsb Hcap Hq|
    i0 j cx t m0 o q e d cj ctxj s oj sb Hi Hj Ha Hsb Hcap Hq]; try set_solver.
  - apply elem_acts_ret in Hr as [-> ->]. simplify_eq.
    rewrite <- (se_conn _ _ S'). cbn [bc_st]. pose proof (base_wf _ _ B _ _ _ Hk) as Hw.
    inversion Ht; subst; try done.
    + split; [done|]. split; [congruence|]. by eapply (se_crun _ _ S).
    + split; [done|]. split; [done|]. by eapply (se_crun _ _ S).
Qed.
Print Assumptions c94_run_closes.
(** From the moment the context of an Open is cancelled, no state the broker can be in
    keeps its goroutine from ending the session in a few steps. *)
Theorem c94_can_end : forall uuid opts ls cf es k ctx p,
  bexec (broker_init uuid opts) ls = Some (cf, es) -> crashed cf = false ->
  bc_ths cf !! k = Some (CRun ctx, p) -> (forall r, p <> PDone r) -> ECancel ctx ∈ es ->
  exists ls' cf' es', Forall run_label ls' /\ length ls' <= 6 /\ bexec cf ls' = Some (cf', es') /\
    ERet k (Ok None) ∈ es' /\ ~ in_session (es ++ es').
Proof.
  intros uuid opts ls cf es k ctx p H Hc Hk Hnd Hx. destruct (sess_exec _ _ _ _ _ H) as [B S].
  pose proof (base_wf _ _ B _ _ _ Hk) as Hw.
  destruct (unlock uuid opts cf es) as (ls1 & cf1 & es1 & Hf1 & Hlen1 & He1 & R1 & Hc1 & Hl1 & Hcn1 & Hth1); [by exists ls|done|].
  assert (Hk1 : bc_ths cf1 !! k = Some (CRun ctx, p)) by (apply Hth1; [done|by intros ->]).
  destruct (run_ends uuid opts _ cf1 (es ++ es1) k ctx p eq_refl R1 Hc1 Hl1 Hk1) as
    (ls2 & cf2 & es2 & Hf2 & Hlen2 & He2 & R2 & Hc2 & Hk2 & Hcon2).
  { left. rewrite Hcn1. by apply (se_canc _ _ S). }
  assert (Hrk : 0 < run_rank p <= 5).
  { destruct p; simpl; try lia; try done; [by destruct (Hnd r)|by eapply crashed_not in Hk]. }
  exists (ls1 ++ ls2), cf2, (es1 ++ es2). split.
  { apply Forall_app. split; [done|]. eapply Forall_impl; [exact Hf2|]. by intros l [ch ->]. }
  split; [rewrite app_length; lia|]. split; [by rewrite bexec_app, He1, He2|].
  destruct R2 as [ls3 R2]. destruct (sess_exec _ _ _ _ _ R2) as [B2 S2]. rewrite <- app_assoc in *. split.
  - assert (Hr : ERet k (Ok None) ∈ es ++ es1 ++ es2) by (apply (base_ret _ _ B2); eauto).
    apply elem_of_app in Hr as [Hr|Hr]; [|done]. exfalso. apply (base_ret _ _ B) in Hr as (c & Hr). simplify_eq. by apply (Hnd (Ok None)).
  - rewrite <- (se_conn _ _ S2), Hcon2 by lia. done.
Qed.
Print Assumptions c94_can_end.
(** the goroutine is about to wait when the context is cancelled *)
Definition cancel_ls : list label := open_steps 0 1 ++ [LStep 1 ChGo; LCancel 1].
Example c94_case : exists cf es,
  run_of [] cancel_ls = Some (cf, es) /\ crashed cf = false /\ bc_ths cf !! 1 = Some (CRun 1, PRunCtl (Some 0)) /\
  ECancel 1 ∈ es /\ in_session es /\
  exists cf' es', bexec cf [LStep 1 ChGo; LStep 1 ChCtx] = Some (cf', es') /\
    exists cf2 es2, bstep cf' (LStep 1 ChGo) = Some (cf2, es2) /\ ERet 1 (Ok None) ∈ es2.
Proof.
  do 2 eexists. split; [vm_compute; reflexivity|]. split; [reflexivity|]. split; [reflexivity|]. split; [listed|]. split; [by vm_compute|].
  do 2 eexists. split; [vm_compute; reflexivity|]. do 2 eexists. split; [vm_compute; reflexivity|]. listed.
Qed.

(** ** C72, continued *)
(** With a single Open every goroutine of the broker can end once it was closed. *)
Theorem c72_goroutines_end_partial : forall uuid opts ls cf es k c p,
  bexec (broker_init uuid opts) ls = Some (cf, es) -> crashed cf = false -> lone_open es -> closed_in es ->
  bc_ths cf !! k = Some (c, p) -> (exists ctx, c = CRun ctx) \/ (exists s, c = CAsync s) ->
  exists ls' cf' es', Forall (step_of k) ls' /\ length ls' <= 5 /\ bexec cf ls' = Some (cf', es') /\
    bc_ths cf' !! k = Some (c, PDone (Ok None)).
Proof.
  intros uuid opts ls cf es k c p H Hc Hone Hcl Hk Hg. destruct (sess_exec _ _ _ _ _ H) as [B S].
  pose proof (lone2_exec _ _ _ _ _ H Hone) as I. destruct (l2_closed _ _ I Hcl) as (Ho & e & He & Hec).
  destruct (l2_open _ _ I Ho) as (_ & _ & Hl). pose proof (base_wf _ _ B _ _ _ Hk) as Hw.
  destruct Hg as [[ctx ->]|[s ->]].
  - destruct (run_ends uuid opts _ cf es k ctx p eq_refl (ex_intro _ ls H) Hc Hl Hk) as (ls' & cf' & es' & Hf & Hlen & He' & _ & _ & Hk' & _).
    { right. exists e. split; [done|]. split; [done|]. destruct p; try done.
      - rewrite <- He. by eapply (l2_ctl _ _ I).
      - rewrite <- He. by eapply (l2_wait _ _ I). }
    exists ls', cf', es'. split; [done|]. split; [|done]. assert (run_rank p <= 5) by (destruct p; simpl; lia). lia.
  - destruct (has_sub_exec _ _ _ _ _ H _ _ _ _ Hk eq_refl) as [sb Hs]. destruct (l2_heap _ _ I _ _ Hs) as (_ & _ & Hq).
    destruct p; try done.
    + destruct (go_one uuid opts cf es k ChExit (CAsync s) PAsync (Out (bc_st cf) (PDone (Ok None)) None []) (ex_intro _ ls H) Hc Hk)
        as (cf' & es' & He' & _ & _ & Hk' & _); [|done|].
      { cbn [tstep]. rewrite Hs, Hq, He. unfold chan_closed. by rewrite bool_decide_eq_true_2. }
      exists [LStep k ChExit], cf', es'. split; [repeat constructor; by exists ChExit|]. split; [simpl; lia|]. done.
    + exists [], cf, []. split; [done|]. split; [simpl; lia|]. split; [done|]. destruct r as [[?|]|?|]; done.
Qed.
Print Assumptions c72_goroutines_end_partial.
(** Close overtakes the goroutine of an Unsubscribe *)
Definition close_ls : list label :=
  open_steps 0 1 ++ sub_steps 2 "t" ++ [LCall (CUnsub 0); LStep 3 ChGo; LStep 3 ChGo; LStep 3 ChGo; LStep 3 ChGo; LCall CClose; LStep 5 ChGo].
Example c72_case : exists cf es,
  run_of [] close_ls = Some (cf, es) /\ crashed cf = false /\ lone_open es /\ closed_in es /\
  bc_ths cf !! 1 = Some (CRun 1, PRunExit) /\ bc_ths cf !! 4 = Some (CAsync 0, PAsync).
Proof.
  do 2 eexists. split; [vm_compute; reflexivity|]. split; [reflexivity|]. split; [|split; [exists 5; listed|done]].
  intros i j x x' Hi Hj. apply elem_of_list_In in Hi, Hj. simpl in Hi, Hj. naive_solver congruence.
Qed.

(** ** C74, continued *)
(** The subscriber of the latest Sub on its topic stays listed until it is
    unsubscribed or the broker is closed. *)
Lemma kept_exec uuid opts s t ls : forall cf es cf' es', no_repeat uuid -> reach uuid opts cf es -> kept cf s -> subscribed es s t ->
  bexec cf ls = Some (cf', es') -> ~ closed_in es' ->
  (forall k s', ECall k (CSub t) ∈ es ++ es' -> ERet k (Ok (Some s')) ∉ es') -> (forall j, ECall j (CUnsub s) ∉ es ++ es') ->
  kept cf' s.
Proof.
  induction ls as [|l ls IH]; intros cf es cf' es' Hu R Hk Hsub H Hncl Hns Hnu.
  - simpl in H. by simplify_eq.
  - destruct (bexec_cons _ _ _ _ _ H) as (cf1 & es1 & es2 & H1 & H2 & ->). apply bstep_step in H1 as Hst.
    assert (Hb : bexec cf [l] = Some (cf1, es1)) by (cbn [bexec]; rewrite H1; by rewrite app_nil_r).
    rewrite app_assoc in *.
    apply (IH cf1 (es ++ es1) cf' es2); try done.
    + by eapply reach_exec.
    + destruct (kept_dec cf1 s) as [?|Hn]; [done|exfalso].
      destruct (leaves_registry _ _ _ _ _ _ _ _ R Hu Hst Hk Hn) as [(k & Hk')|[(k & t' & s' & Hsub' & Hc & Hr)|(j & Hj)]].
      * apply Hncl. exists k. set_solver.
      * assert (t' = t) as ->.
        { destruct R as [ls0 R]. destruct (chans_exec _ _ _ _ _ R) as [B [T C]].
          destruct Hsub as (k1 & Ha & Hb1), Hsub' as (k2 & Ha' & Hb2).
          apply (base_ret _ _ B) in Hb1 as (c1 & Hb1), Hb2 as (c2 & Hb2).
          apply (base_call _ _ B) in Ha as (_ & p1 & Ha), Ha' as (_ & p2 & Ha'). simplify_eq.
          destruct (ch_sub1 _ _ _ C _ _ _ Ha) as (sb & Hs & <-). destruct (ch_sub1 _ _ _ C _ _ _ Ha') as (sb' & Hs' & <-). by simplify_eq. }
        apply (Hns k s'); set_solver.
      * apply (Hnu j). set_solver.
    + destruct Hsub as (k & ? & ?). exists k. set_solver.
    + intros [k Hk']. apply Hncl. exists k. set_solver.
    + intros k s' Hc Hr. apply (Hns k s' Hc). set_solver.
Qed.
Theorem c74_latest_partial : forall uuid opts ls1 cf1 es1 l cf2 es2 ls3 cf3 es3 k t s,
  no_repeat uuid ->
  bexec (broker_init uuid opts) ls1 = Some (cf1, es1) -> ECall k (CSub t) ∈ es1 ->
  bstep cf1 l = Some (cf2, es2) -> ERet k (Ok (Some s)) ∈ es2 ->
  bexec cf2 ls3 = Some (cf3, es3) -> ~ closed_in es3 ->
  (forall k' s', ECall k' (CSub t) ∈ es1 ++ es2 ++ es3 -> ERet k' (Ok (Some s')) ∉ es3) ->
  (forall j, ECall j (CUnsub s) ∉ es1 ++ es2 ++ es3) ->
  registered cf3 s.
Proof.
  intros uuid opts ls1 cf1 es1 l cf2 es2 ls3 cf3 es3 k t s Hu H1 Hk H2 Hr H3 Hcl Hs Hn.
  assert (Hb : bexec cf1 [l] = Some (cf2, es2)) by (cbn [bexec]; rewrite H2; by rewrite app_nil_r).
  assert (R2 : reach uuid opts cf2 (es1 ++ es2)) by (eapply reach_exec; [by exists ls1|exact Hb]).
  assert (Hsub : subscribed (es1 ++ es2) s t) by (exists k; set_solver).
  rewrite app_assoc in *. eapply kept_exec; [exact Hu|exact R2| |exact Hsub|exact H3|done|done|done].
  destruct (sess_exec _ _ _ _ _ H1) as [B _]. apply bstep_step in H2 as Hst.
  apply (base_call _ _ B) in Hk as (_ & p & Hk).
  clear Hcl Hs Hn Hsub R2. destruct Hst as [c0 Hc|cx|d|i0 ch c0 p0 b' p' sp acts Hi Ht|
    i0 j cx t' m0 o q e d cj ctxj s' oj sb dj Hi Hj Ha Hsb Hcap Hq|
    i0 j cx t' m0 o q e d cj ctxj s' oj sb Hi Hj Ha Hsb Hcap Hq];
    try (by repeat (apply elem_of_cons in Hr as [Hr|Hr]; [discriminate|]); apply elem_of_nil in Hr).
  1: { apply elem_acts_ret in Hr as [-> ->]. simplify_eq.
    destruct (tr_sub_done _ _ _ _ _ _ _ _ _ Ht eq_refl) as (t' & [= <-] & -> & ->). cbn [bc_st].
    rewrite sub_make_eq. unfold kept. cbn [bc_st bs_heap bs_mem m_subs].
    exists (sub_new (bc_st cf1) t). eexists. split; [by apply list_lookup_middle|]. cbn [sub_new s_topic s_id].
    rewrite lookup_insert. split; [done|]. by rewrite lookup_insert. }
  all: repeat (apply elem_of_cons in Hr as [Hr|Hr]; [simplify_eq|]); try by apply elem_of_nil in Hr.
Qed.
Print Assumptions c74_latest_partial.

(** [b] has the only subscriptions; its topic was subscribed to before by one that was
    unsubscribed, whose removal is still under way *)
Fixpoint tag (n : nat) : string := match n with O => EmptyString | S n => String (Ascii.ascii_of_nat 97) (tag n) end.
Lemma tag_no_repeat : no_repeat tag.
Proof. intros n. induction n as [|n IH]; intros [|m] E; try done. cbn [tag] in E. injection E as E. f_equal. by apply IH. Qed.
Definition run_tag (ls : list label) : option (bconf * list event) := bexec (broker_init tag []) ls.
Example c74_latest_case : exists cf1 es1 cf2 es2 cf3 es3,
  run_tag (open_steps 0 1 ++ sub_steps 2 "t" ++
    [LCall (CUnsub 0); LStep 3 ChGo; LStep 3 ChGo; LStep 3 ChGo; LStep 3 ChGo; LCall (CSub "t"); LStep 5 ChGo]) = Some (cf1, es1) /\
  ECall 5 (CSub "t") ∈ es1 /\ bstep cf1 (LStep 5 ChGo) = Some (cf2, es2) /\ ERet 5 (Ok (Some 1)) ∈ es2 /\
  bexec cf2 (sub_steps 6 "u" ++ [LStep 4 ChSend; LStep 1 ChGo; LStep 1 ChGo; LStep 1 ChRecv; LStep 1 ChGo]) = Some (cf3, es3) /\
  ~ closed_in es3 /\ (forall k s, ECall k (CSub "t") ∈ es1 ++ es2 ++ es3 -> ERet k (Ok (Some s)) ∉ es3) /\
  forall j, ECall j (CUnsub 1) ∉ es1 ++ es2 ++ es3.
Proof.
  match goal with |- exists cf1 es1 cf2 es2 cf3 es3, ?o = _ /\ _ /\ bstep _ ?l = _ /\ _ /\ bexec _ ?ls = _ /\ _ =>
    destruct (ran o (fun _ => true)) with (es := (default (broker_init tag [], []) o).2) as (cf1 & H1 & _); [vm_compute; reflexivity|vm_compute; reflexivity|];
    set (o2 := match o with Some (cf, _) => bstep cf l | None => None end);
    destruct (ran o2 (fun _ => true)) with (es := (default (broker_init tag [], []) o2).2) as (cf2 & H2 & _); [vm_compute; reflexivity|vm_compute; reflexivity|];
    set (o3 := match o2 with Some (cf, _) => bexec cf ls | None => None end);
    destruct (ran o3 (fun _ => true)) with (es := (default (broker_init tag [], []) o3).2) as (cf3 & H3 & _); [vm_compute; reflexivity|vm_compute; reflexivity|]
  end.
  unfold o3 at 1 in H3. rewrite H2 in H3. unfold o2 at 1 in H2. rewrite H1 in H2.
  eexists _, _, _, _, _, _. split; [exact H1|]. split; [listed|]. split; [exact H2|]. split; [listed|]. split; [exact H3|].
  clear H1 H2 H3. split; [|split].
  - intros [k Hk]. revert Hk. by apply (none_of not_closed); [vm_compute|].
  - intros k s Hk Hs. destruct (decide (k = 6)) as [->|Hn].
    + revert Hk. by apply (none_of (fun e => match e with ECall 6 (CSub t) => negb (String.eqb t "t") | _ => true end)); [vm_compute|].
    + revert Hs. apply (none_of (fun e => match e with ERet k (Ok (Some _)) => (k =? 6)%nat | _ => true end)); [by vm_compute|by apply Nat.eqb_neq].
  - intros j. by apply (none_of (not_unsub 1)); [vm_compute|].
Qed.

(** ** C95 *)
(** Sub passes its check, Close runs, Sub enters the subscriber: Unsubscribe returns,
    every goroutine ends, and the subscriber stays in the table whatever the
    goroutines do. *)
Definition late_ls : list label :=
  open_steps 0 1 ++ [LCall (CSub "t"); LStep 2 ChGo; LCall CClose; LStep 3 ChGo; LStep 2 ChGo;
    LStep 1 ChGo; LStep 1 ChGo; LStep 1 ChExit; LStep 1 ChGo;
    LCall (CUnsub 0); LStep 4 ChGo; LStep 4 ChGo; LStep 4 ChGo; LStep 4 ChGo; LStep 5 ChSend].
Definition all_done (cf : bconf) : bool :=
  forallb (fun x : call * pc => match x.2 with PDone _ => true | _ => false end) (bc_ths cf).
Lemma all_done_spec cf i c p : all_done cf = true -> bc_ths cf !! i = Some (c, p) -> exists r, p = PDone r.
Proof.
  intros H Hi. unfold all_done in H. rewrite forallb_forall in H.
  assert (Hx : In (c, p) (bc_ths cf)) by (apply elem_of_list_In, elem_of_list_lookup; eauto).
  specialize (H _ Hx). simpl in H. destruct p; try done. eauto.
Qed.
Lemma all_done_exec ls : forall cf cf' es' s, all_done cf = true -> kept cf s -> bexec cf ls = Some (cf', es') ->
  (forall c, LCall c ∉ ls) -> kept cf' s.
Proof.
  induction ls as [|l ls IH]; intros cf cf' es' s Hd Hk H Hn.
  - simpl in H. by simplify_eq.
  - destruct (bexec_cons _ _ _ _ _ H) as (cf1 & es1 & es2 & H1 & H2 & ->). apply bstep_step in H1 as Hst.
    assert (Hx : all_done cf1 = true /\ kept cf1 s).
    { inversion Hst; subst.
      - exfalso. apply (Hn c). left.
      - done.
      - done.
      - exfalso. destruct (all_done_spec _ _ _ _ Hd H0) as [r ->]. inversion H3.
      - exfalso. by destruct (all_done_spec _ _ _ _ Hd H0).
      - exfalso. by destruct (all_done_spec _ _ _ _ Hd H0). }
    destruct Hx. eapply IH; [done|done|done|]. intros c Hc. apply (Hn c). by right.
Qed.
Theorem c95_forgotten_refuted : exists l ls cf es,
  run_of l ls = Some (cf, es) /\ crashed cf = false /\ lone_open es /\ subscribed es 0 "t" /\
  ECall 4 (CUnsub 0) ∈ es /\ ERet 4 (Ok None) ∈ es /\
  forall ls' cf' es', (forall c, LCall c ∉ ls') -> bexec cf ls' = Some (cf', es') -> kept cf' 0.
Proof.
  destruct (ran (run_of [] late_ls) (fun cf => negb (crashed cf) && all_done cf && keptb cf 0))
    with (es := (default (broker_init tag [], []) (run_of [] late_ls)).2) as (cf & H & Hb); [vm_compute; reflexivity|vm_compute; reflexivity|].
  apply andb_prop in Hb as [[Hc Hd]%andb_prop Hk%keptb_spec]. apply negb_true_iff in Hc.
  eexists [], late_ls, cf, _. split; [exact H|]. split; [done|]. clear H. split.
  { by apply (lone_by 0); vm_compute. }
  split; [exists 2; split; listed|]. split; [listed|]. split; [listed|].
  intros ls' cf' es' Hn H. by eapply all_done_exec; [| |exact H|exact Hn].
Qed.
Print Assumptions c95_forgotten_refuted.
(** With a single Open, while the session lasts, nothing keeps the goroutines from
    removing an unsubscribed subscriber from the table, and it does not come back. *)
Theorem c95_forgotten_partial : forall uuid opts ls cf es j s r,
  bexec (broker_init uuid opts) ls = Some (cf, es) -> crashed cf = false -> lone_open es -> in_session es ->
  ECall j (CUnsub s) ∈ es -> ERet j r ∈ es ->
  exists ls' cf' es', Forall run_label ls' /\ bexec cf ls' = Some (cf', es') /\
    forall ls2 cf2 es2, bexec cf' ls2 = Some (cf2, es2) -> ~ kept cf2 s.
Proof.
  intros uuid opts ls cf es j s r H Hc Hone Hin Hj Hr. destruct (sess_exec _ _ _ _ _ H) as [B S].
  pose proof (unsub_returned _ _ _ _ _ _ _ _ H Hj Hr) as Hi.
  destruct (forgets uuid opts cf es s) as (ls' & cf' & es' & Hf & He & Hk); [by exists ls|done|done|by apply (se_conn _ _ S)|done|].
  exists ls', cf', es'. split; [done|]. split; [done|]. intros ls2 cf2 es2 H2.
  assert (Hx : exists sb, bs_heap (bc_st cf') !! s = Some sb).
  { pose proof (exec_two _ _ _ _ _ _ _ _ H He) as H'. destruct (sess_exec _ _ _ _ _ H') as [B' _].
    apply (base_call _ _ B) in Hj as (_ & p & Hj).
    assert (Hj' : ECall j (CUnsub s) ∈ es ++ es') by (apply elem_of_app; left; apply (base_call _ _ B); split; eauto).
    apply (base_call _ _ B') in Hj' as (_ & p' & Hj'). by destruct (has_sub_exec _ _ _ _ _ H' _ _ _ _ Hj' eq_refl) as [sb ?]; exists sb. }
  destruct Hx as [sb Hs]. eapply unkept_exec; [exact H2|by eapply lookup_lt_Some|done].
Qed.
Print Assumptions c95_forgotten_partial.
(** two subscribers of different topics, both listed, the first unsubscribed *)
Definition unsub_ls : list label :=
  open_steps 0 1 ++ sub_steps 2 "t" ++ sub_steps 3 "u" ++ [LCall (CUnsub 0); LStep 4 ChGo; LStep 4 ChGo; LStep 4 ChGo; LStep 4 ChGo].
Example c95_case : exists cf es,
  run_of [] unsub_ls = Some (cf, es) /\ crashed cf = false /\ lone_open es /\ in_session es /\
  ECall 4 (CUnsub 0) ∈ es /\ ERet 4 (Ok None) ∈ es /\ kept cf 0 /\ kept cf 1.
Proof.
  destruct (ran (run_of [] unsub_ls) (fun cf => negb (crashed cf) && keptb cf 0 && keptb cf 1))
    with (es := (default (broker_init tag [], []) (run_of [] unsub_ls)).2) as (cf & H & Hb); [vm_compute; reflexivity|vm_compute; reflexivity|].
  apply andb_prop in Hb as [[Hc Hk%keptb_spec]%andb_prop Hk'%keptb_spec]. apply negb_true_iff in Hc.
  eexists cf, _. split; [exact H|]. split; [done|]. clear H. split.
  { by apply (lone_by 0); vm_compute. }
  split; [by vm_compute|]. split; [listed|]. split; [listed|]. done.
Qed.

(** ** C96 *)
Definition again_ls : list label := open_steps 0 1 ++ sub_steps 2 "t" ++ [LCall (CSub "t"); LStep 3 ChGo].
(** A second Sub on the topic removes the first subscriber from the table. *)
Theorem c96_leaving_refuted : exists l ls1 cf1 es1 lab cf2 es2,
  run_of l ls1 = Some (cf1, es1) /\ bstep cf1 lab = Some (cf2, es2) /\ kept cf1 0 /\ ~ kept cf2 0 /\
  ~ closed_in (es1 ++ es2) /\ forall j, ECall j (CUnsub 0) ∉ es1 ++ es2.
Proof.
  set (o := run_of [] again_ls). set (o2 := match o with Some (cf, _) => bstep cf (LStep 3 ChGo) | None => None end).
  destruct (ran o (fun cf => keptb cf 0)) with (es := (default (broker_init tag [], []) o).2) as (cf1 & H1 & K1%keptb_spec);
    [vm_compute; reflexivity|vm_compute; reflexivity|].
  destruct (ran o2 (fun cf => negb (keptb cf 0))) with (es := (default (broker_init tag [], []) o2).2) as (cf2 & H2 & K2);
    [vm_compute; reflexivity|vm_compute; reflexivity|].
  unfold o2 at 1 in H2. rewrite H1 in H2. apply negb_true_iff in K2.
  eexists [], again_ls, cf1, _, (LStep 3 ChGo), cf2, _. split; [exact H1|]. split; [exact H2|]. clear H1 H2. split; [done|]. split.
  { rewrite <- keptb_spec. by rewrite K2. }
  split.
  - intros [k Hk]. revert Hk. by apply (none_of not_closed); [vm_compute|].
  - intros j. by apply (none_of (not_unsub 0)); [vm_compute|].
Qed.
Print Assumptions c96_leaving_refuted.
(** Nothing else does, apart from Close and Unsubscribe. *)
Theorem c96_leaving_partial : forall uuid opts ls cf1 es1 l cf2 es2 s,
  no_repeat uuid -> bexec (broker_init uuid opts) ls = Some (cf1, es1) -> bstep cf1 l = Some (cf2, es2) ->
  kept cf1 s -> ~ kept cf2 s ->
  closed_in es2 \/ (exists j, ECall j (CUnsub s) ∈ es1) \/
  exists k t s', subscribed es1 s t /\ ECall k (CSub t) ∈ es1 /\ ERet k (Ok (Some s')) ∈ es2.
Proof.
  intros uuid opts ls cf1 es1 l cf2 es2 s Hu H Hst Hk Hn. apply bstep_step in Hst.
  destruct (leaves_registry uuid opts cf1 es1 l cf2 es2 s) as [?|[?|?]]; [by exists ls|done|done|done|done|by left|by right; right|by right; left].
Qed.
Print Assumptions c96_leaving_partial.
Example c96_case : exists cf1 es1 cf2 es2,
  run_tag again_ls = Some (cf1, es1) /\
  bstep cf1 (LStep 3 ChGo) = Some (cf2, es2) /\ kept cf1 0 /\ ~ kept cf2 0.
Proof.
  set (o := run_tag again_ls). set (o2 := match o with Some (cf, _) => bstep cf (LStep 3 ChGo) | None => None end).
  destruct (ran o (fun cf => keptb cf 0)) with (es := (default (broker_init tag [], []) o).2) as (cf1 & H1 & K1%keptb_spec);
    [vm_compute; reflexivity|vm_compute; reflexivity|].
  destruct (ran o2 (fun cf => negb (keptb cf 0))) with (es := (default (broker_init tag [], []) o2).2) as (cf2 & H2 & K2);
    [vm_compute; reflexivity|vm_compute; reflexivity|].
  unfold o2 at 1 in H2. rewrite H1 in H2. apply negb_true_iff in K2.
  eexists cf1, _, cf2, _. split; [exact H1|]. split; [exact H2|]. split; [done|]. rewrite <- keptb_spec. by rewrite K2.
Qed.
