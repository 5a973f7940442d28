(** The in-memory broker, continued: C55 to C60. *)
From Verif.Model Require Import Broker.
From Verif.Spec Require Import OptionsSpec BrokerSpec.
From Verif.Proof Require Import OptionsP BrokerP BrokerP2 BrokerP3 BrokerP4 BrokerP5 BrokerP6 BrokerP7 BrokerP8.
From Verif.Props Require Import PBroker.

(** ** C55 *)
Theorem c55_no_delivery : forall uuid opts ls1 cf1 es1 j s r0 c ls2 cf2 es2 i,
  bexec (broker_init uuid opts) ls1 = Some (cf1, es1) ->
  ECall j (CUnsub s) ∈ es1 -> ERet j r0 ∈ es1 ->
  (exists ctx o, c = CRecv ctx s o) \/ (exists ctx, c = CDigest ctx s) ->
  i = length (bc_ths cf1) ->
  bexec cf1 (LCall c :: ls2) = Some (cf2, es2) ->
  (forall r, ERet i r ∈ es1 ++ es2 -> r = Err BrokerErrSubscriptionInactive) /\
  (forall a, EAct i a ∉ es2) /\
  (forall ch cf3 es3, bstep cf2 (LStep i ch) = Some (cf3, es3) ->
     es3 = [ERet i (Err BrokerErrSubscriptionInactive)]).
Proof.
  intros uuid opts ls1 cf1 es1 j s r0 c ls2 cf2 es2 i H1 Hc0 Hr0 Hc Hi H2.
  pose proof (unsub_returned _ _ _ _ _ _ _ _ H1 Hc0 Hr0) as Hin.
  assert (Ha : exists ctx o, recv_args c = Some (ctx, s, o)).
  { destruct Hc as [(ctx & o & ->)|(ctx & ->)]; simpl; eauto. }
  destruct Ha as (ctx & o & Ha).
  assert (Hps : pc_start c = PRecvCheck) by (by destruct Hc as [(? & ? & ->)|(? & ->)]).
  destruct (call_from i c (inert i s) _ _ _ _ _ _ _ _ H1 H2 Hi) as (B & _ & p & Hp & HP).
  - split; [exact Hin|]. split; [by left|]. set_solver.
  - intros. by eapply inert_step.
  - destruct HP as (Hin2 & Hpp & Hac). split_and!.
    + intros r Hr. apply (base_ret _ _ B) in Hr as (c' & Hr). by destruct Hpp as [->| ->]; simplify_eq.
    + done.
    + intros ch cf3 es3. unfold bstep. destruct (crashed cf2); [done|]. rewrite Hp.
      destruct Hin2 as (sb & Hsb & Hact).
      destruct Hpp as [->| ->]; [|by destruct ch].
      destruct ch; try done. cbn [tstep]. rewrite Ha, Hsb, Hact.
      destruct Hc as [(?&?&->)|(?&->)]; intros [= <- <-]; done.
Qed.
Print Assumptions c55_no_delivery.
Definition unsub_done_ls : list label :=
  open_steps 0 1 ++ sub_steps 2 "t" ++ pub_steps 3 1 "t" (msg 1) ChSend ++
  [LCall (CUnsub 0); LStep 4 ChGo; LStep 4 ChGo; LStep 4 ChGo; LStep 4 ChGo].
Example c55_case : exists cf1 es1 cf2 es2,
  run_of demo_opts unsub_done_ls = Some (cf1, es1) /\ ECall 4 (CUnsub 0) ∈ es1 /\ ERet 4 (Ok None) ∈ es1 /\
  length (bc_ths cf1) = 6 /\ bexec cf1 [LCall (CRecv 2 0 []); LStep 6 ChGo] = Some (cf2, es2) /\
  ERet 6 (Err BrokerErrSubscriptionInactive) ∈ es1 ++ es2.
Proof.
  do 4 eexists. split; [vm_compute; reflexivity|]. split; [listed|]. split; [listed|]. split; [reflexivity|].
  split; [vm_compute; reflexivity|]. listed.
Qed.

(** ** C56 *)
Lemma calls_fresh cf ls cf' es : bexec cf ls = Some (cf', es) ->
  forall j c, ECall j c ∈ es -> length (bc_ths cf) <= j.
Proof.
  intros H.
  assert (G : length (bc_ths cf) <= length (bc_ths cf') /\ forall j c, ECall j c ∈ [] ++ es -> length (bc_ths cf) <= j).
  { apply (bexec_ind_from (fun cf' es => length (bc_ths cf) <= length (bc_ths cf') /\
      forall j c, ECall j c ∈ es -> length (bc_ths cf) <= j) cf [] ls); [|split; [done|set_solver]|done].
    clear. intros cf1 es l cf' es' [Hl Hc] _ Hst.
    assert (Hl' : length (bc_ths cf1) <= length (bc_ths cf')).
    { destruct Hst; simpl; rewrite ?app_length, ?insert_length; lia. }
    split; [lia|]. intros j c. rewrite elem_of_app. intros [Hj|Hj]; [by eapply Hc|].
    destruct Hst; try set_solver.
    by apply elem_acts_call in Hj. }
  intros. by eapply G.
Qed.
(** A message published on a topic nobody subscribed to survives Close: the first
    subscriber of the next session receives it. *)
Definition old_ls : list label :=
  open_steps 0 1 ++ pub_steps 2 2 "t" (msg 1) ChSend ++ [LCall CClose; LStep 3 ChGo].
Definition new_ls : list label :=
  open_steps 4 2 ++ sub_steps 6 "t" ++ [LCall (CRecv 2 0 []); LStep 7 ChGo; LStep 7 ChRecv].
Theorem c56_new_session_refuted : exists l ls1 ls2 cf1 es1 cf2 es2 c m,
  run_of l ls1 = Some (cf1, es1) /\ bexec cf1 ls2 = Some (cf2, es2) /\
  closed_in es1 /\ ~ in_session es1 /\ ECall 6 (CSub "t") ∈ es2 /\ ERet 6 (Ok (Some 0)) ∈ es2 /\
  EAct 7 (ATake c m) ∈ es2 /\ EAct 7 (AHandle m) ∈ es2 /\ (forall j c m, EAct j (ASend c m) ∉ es2).
Proof.
  exists demo_opts, old_ls, new_ls. do 4 eexists. exists 2, (msg 1).
  split; [vm_compute; reflexivity|]. split; [vm_compute; reflexivity|].
  split_and!; try listed.
  - exists 3. listed.
  - by vm_compute.
  - intros j c m. set_solver.
Qed.
Print Assumptions c56_new_session_refuted.
(** A topic that had a subscriber when the session ended starts empty: whoever
    subscribes later only gets what is sent later. *)
Theorem c56_new_session_partial : forall uuid opts ls1 cf1 es1 l cf2 es2 k t ls3 cf3 es3,
  bexec (broker_init uuid opts) ls1 = Some (cf1, es1) -> subs_since es1 t ->
  bstep cf1 l = Some (cf2, es2) -> EAct k AClosed ∈ es2 ->
  bexec cf2 ls3 = Some (cf3, es3) ->
  forall j s i ctx c m, ECall j (CSub t) ∈ es3 -> ERet j (Ok (Some s)) ∈ es3 ->
  receives (es1 ++ es2 ++ es3) i s ctx -> EAct i (ATake c m) ∈ es1 ++ es2 ++ es3 ->
  sent c (es1 ++ es2) = [] /\ exists i', EAct i' (ASend c m) ∈ es3.
Proof.
  intros uuid opts ls1 cf1 es1 l cf2 es2 k t ls3 cf3 es3 H1 Hsub H2 Hk H3 j s i ctx c m Hj Hr Hrec Ht.
  assert (H12 : bexec (broker_init uuid opts) (ls1 ++ [l]) = Some (cf2, es1 ++ es2)).
  { eapply exec_two; [done|]. cbn [bexec]. rewrite H2. by rewrite app_nil_r. }
  pose proof (exec_two _ _ _ _ _ _ _ _ H12 H3) as H123. rewrite <- (app_assoc es1) in H123.
  destruct (exec_all _ _ _ _ _ H1) as (B1 & S1 & T1 & HT1).
  destruct (exec_all _ _ _ _ _ H12) as (B2 & S2 & T2 & HT2).
  destruct (exec_all _ _ _ _ _ H123) as (B3 & S3 & T3 & HT3).
  assert (HR : renewed (bs_next (bc_st cf2)) (length (bc_ths cf2)) (length (bs_heap (bc_st cf2))) t cf3).
  { destruct (exec_from (fun cf _ => renewed (bs_next (bc_st cf2)) (length (bc_ths cf2)) (length (bs_heap (bc_st cf2))) t cf)
      (es1 ++ es2) cf2 [] ls3 cf3 es3) as (_ & _ & HR); [by rewrite app_nil_r|by rewrite app_nil_r| | | |].
    - apply (close_renews cf1 es1 l cf2 es2 k t B1); [by eapply has_sub_exec|by apply bstep_step|done|by eapply subs_since_exec].
    - intros cf es l' cf' es' HB HS HI _ Hst. by eapply renewed_step.
    - done.
    - exact HR. }
  destruct HR as (_ & _ & _ & _ & Hheap & Hsubs).
  assert (Hjk : length (bc_ths cf2) <= j) by (by eapply calls_fresh).
  destruct (ch_take _ _ _ HT3 _ _ _ Ht) as (cl & p & ctx' & s' & o & sb & Hi & Ha & Hs & <-).
  assert (s' = s) as ->.
  { destruct Hrec as [[o' Hrec]|Hrec]; apply (base_call _ _ B3) in Hrec as (_ & p' & Hp'); by simplify_eq/=. }
  assert (Hjc : bc_ths cf3 !! j = Some (CSub t, PDone (Ok (Some s)))).
  { assert (Hj' : ECall j (CSub t) ∈ es1 ++ es2 ++ es3) by set_solver.
    assert (Hr' : ERet j (Ok (Some s)) ∈ es1 ++ es2 ++ es3) by set_solver.
    apply (base_call _ _ B3) in Hj' as (_ & p' & Hp'). apply (base_ret _ _ B3) in Hr' as (c' & Hc'). by simplify_eq. }
  destruct (ch_sub1 _ _ _ HT3 _ _ _ Hjc) as (sb' & Hs' & Htop). simplify_eq.
  assert (Hq : bs_next (bc_st cf2) <= q_msg (s_queue sb)).
  { eapply Hheap; [done| |done]. by eapply Hsubs. }
  assert (Hnil : sent (q_msg (s_queue sb)) (es1 ++ es2) = []) by (by eapply fresh_channel).
  split; [done|].
  assert (Hin : m ∈ taken (q_msg (s_queue sb)) (es1 ++ es2 ++ es3)).
  { unfold taken. apply elem_of_list_omap. eexists. split; [exact Ht|]. simpl. by rewrite Nat.eqb_refl. }
  destruct (c46_fifo _ _ _ _ _ H123 (q_msg (s_queue sb))) as [rest Hrest].
  assert (Hin2 : m ∈ sent (q_msg (s_queue sb)) (es1 ++ es2 ++ es3)) by (rewrite Hrest; set_solver).
  rewrite app_assoc in Hin2. unfold sent in Hin2, Hnil. rewrite omap_app, Hnil in Hin2. simpl in Hin2.
  apply elem_of_list_omap in Hin2 as ([| | | |i' [c' m'| | | | |]] & Hin2 & E); try done.
  destruct (Nat.eqb_spec c' (q_msg (s_queue sb))) as [->|]; [|done]. simplify_eq. by exists i'.
Qed.
Print Assumptions c56_new_session_partial.

(** A subscriber, a message left in the queue, Close, Open, a new subscriber, a new
    message: only that one is received. *)
Definition sess1_ls : list label := open_steps 0 1 ++ sub_steps 2 "t" ++ pub_steps 3 2 "t" (msg 1) ChSend ++ [LCall CClose].
Definition sess2_ls : list label :=
  open_steps 5 2 ++ sub_steps 7 "t" ++ pub_steps 8 2 "t" (msg 2) ChSend ++ [LCall (CRecv 2 1 []); LStep 9 ChGo; LStep 9 ChRecv].
Example c56_case : exists cf1 es1 cf2 es2 cf3 es3 c,
  run_of demo_opts sess1_ls = Some (cf1, es1) /\ subs_since es1 "t" /\
  bstep cf1 (LStep 4 ChGo) = Some (cf2, es2) /\ EAct 4 AClosed ∈ es2 /\ bexec cf2 sess2_ls = Some (cf3, es3) /\
  ECall 7 (CSub "t") ∈ es3 /\ ERet 7 (Ok (Some 1)) ∈ es3 /\ receives (es1 ++ es2 ++ es3) 9 1 2 /\
  EAct 9 (ATake c (msg 2)) ∈ es1 ++ es2 ++ es3.
Proof.
  do 6 eexists. exists 6. split; [vm_compute; reflexivity|]. split.
  { exists [ECall 0 (COpen 1); EAct 0 AOpened; ERet 0 (Ok None); ECall 2 (CSub "t")], 2, 0. eexists.
    split; [reflexivity|]. split; [listed|]. intros (k & H). set_solver. }
  split; [vm_compute; reflexivity|]. split; [listed|]. split; [vm_compute; reflexivity|].
  split_and!; try listed. left. exists []. listed.
Qed.

(** ** C57 *)
(** Whatever the sink, a message goes to at most one subscriber: there are never
    more handler calls than successful sends, hence than Pub calls. *)
Definition pub_calls (es : list event) : list nat :=
  omap (fun e => match e with ECall i (CPub _ _ _ _) => Some i | _ => None end) es.
Theorem c57_fanout_refuted : forall uuid opts ls cf es,
  bexec (broker_init uuid opts) ls = Some (cf, es) -> length (handlings es) <= length (pub_calls es).
Proof.
  intros uuid opts ls cf es H. destruct (exec_all _ _ _ _ _ H) as (B & _ & T & HT).
  destruct (attributed_exec _ _ _ _ _ H) as (J & HJ & HF & _).
  rewrite (Forall2_length _ _ _ HF). apply submseteq_length, NoDup_submseteq; [done|].
  intros j Hj. apply elem_of_list_lookup in Hj as [k Hk].
  destruct (Forall2_lookup_r _ _ _ _ _ HF Hk) as (h & _ & c & Hs & _).
  destruct (ch_send _ _ _ HT _ _ _ Hs) as (ctx & t & o & Hj & _).
  unfold pub_calls. apply elem_of_list_omap. exists (ECall j (CPub ctx t h.2 o)). split; [|done].
  apply (base_call _ _ B). eauto.
Qed.
Print Assumptions c57_fanout_refuted.
(** one Pub, two subscribers of its topic waiting in a FanOut broker: one gets the
    message, the other a timeout *)
Definition fanout_ls : list label :=
  open_steps 0 1 ++ sub_steps 2 "t" ++ sub_steps 3 "t" ++
  [LCall (CRecv 2 0 []); LStep 4 ChGo; LCall (CRecv 2 1 []); LStep 5 ChGo] ++ pub_steps 6 2 "t" (msg 1) ChSend ++
  [LStep 4 ChRecv; LStep 4 (ChHandler None); LTick 5000000000; LStep 5 ChTimeout; LStep 5 ChDefault].
Example c57_case : exists cf es, run_of [BCap 2; BSink fan_out] fanout_ls = Some (cf, es) /\
  subscribed es 0 "t" /\ subscribed es 1 "t" /\ pub_calls es = [6] /\ handlings es = [(4, msg 1)] /\
  ERet 5 (Err BrokerErrTimeout) ∈ es.
Proof.
  do 2 eexists. split; [vm_compute; reflexivity|]. split; [exists 2; split; listed|].
  split; [exists 3; split; listed|]. split; [vm_compute; reflexivity|]. split; [vm_compute; reflexivity|]. listed.
Qed.

(** ** C58 *)
(** Without WithCap nothing is ever buffered. *)
Theorem c58_default_capacity_refuted : forall uuid l ls cf es,
  last_set broker_cap_of l = None ->
  bexec (broker_init uuid (broker_den <$> l)) ls = Some (cf, es) ->
  forall c, sent c es = taken c es.
Proof.
  intros uuid l ls cf es Hl H c. pose proof (c47_capacity _ _ _ _ _ H c) as Hc.
  destruct (c46_fifo _ _ _ _ _ H c) as [rest E]. unfold capacity_of in Hc. rewrite Hl in Hc.
  rewrite E, app_length in Hc. destruct rest; simpl in *; [|lia]. by rewrite app_nil_r in E.
Qed.
Print Assumptions c58_default_capacity_refuted.
(** The capacity is that of the last WithCap, 100 if that is negative, else 0, for
    the whole life of the broker; see [c47_full_waits] for what it means. *)
Theorem c58_capacity_partial : forall uuid l ls cf es,
  bexec (broker_init uuid (broker_den <$> l)) ls = Some (cf, es) ->
  cap (bc_st cf) =
  match last_set broker_cap_of l with
  | None => 0
  | Some c => if (c <? 0)%Z then 100 else Z.to_nat c
  end.
Proof. intros. by eapply capacity_exec. Qed.
Print Assumptions c58_capacity_partial.
(** a Pub on a new broker waits although nothing is in the queue *)
Example c58_case : exists cf es, run_of [BSink fan_in] (
    open_steps 0 1 ++ [LCall (CPub 2 "t" (msg 3) []); LStep 2 ChGo; LStep 2 ChGo; LStep 2 ChGo]) = Some (cf, es) /\
  last_set broker_cap_of [BSink fan_in] = None /\ bstep cf (LStep 2 ChSend) = None.
Proof. do 2 eexists. split; [vm_compute; reflexivity|]. split; reflexivity. Qed.

(** ** C59 *)
(** Digest goes round for ever once its context is cancelled: from every state in
    which it is about to receive, two of its steps lead back to the same state. *)
Lemma digest_round cf i ctx s sb ch : crashed cf = false ->
  bc_ths cf !! i = Some (CDigest ctx s, PRecvCheck) ->
  bs_heap (bc_st cf) !! s = Some sb -> s_active sb = true ->
  (ch = ChCtx /\ ctx ∈ bs_cancelled (bc_st cf) \/ ch = ChExit /\ exists e, q_exit (s_queue sb) = Some e /\ e ∈ bs_closed (bc_st cf)) ->
  bexec cf [LStep i ChGo; LStep i ch] = Some (cf, []).
Proof.
  intros Hc Hi Hs Ha Hch. cbn [bexec]. unfold bstep at 1. rewrite Hc, Hi. cbn [tstep recv_args]. rewrite Hs, Ha.
  cbn [o_st o_pc o_spawn o_acts spawned ret_event fmap list_fmap app].
  unfold bstep. cbn [bc_st bc_ths]. rewrite app_nil_r.
  assert (Hlt : i < length (bc_ths cf)) by (by eapply lookup_lt_Some).
  assert (Hc' : crashed (BConf (bc_st cf) (<[i:=(CDigest ctx s, PRecvWait (bs_now (bc_st cf) + recv_timeout []))]> (bc_ths cf))) = false).
  { destruct (crashed _) eqn:E in |- *; [|done]. apply crashed_iff in E as (k & c & x & Hk). cbn [bc_ths] in Hk.
    destruct (decide (k = i)) as [->|].
    - rewrite list_lookup_insert in Hk by done. done.
    - rewrite list_lookup_insert_ne in Hk by done. by eapply crashed_not in Hk. }
  rewrite Hc', list_lookup_insert by done.
  assert (E : tstep (bc_st cf) (CDigest ctx s) (PRecvWait (bs_now (bc_st cf) + recv_timeout [])) ch =
              Some (Out (bc_st cf) PRecvCheck None [])).
  { destruct Hch as [[-> Hx]|[-> (e & He & Hx)]]; cbn [tstep recv_args].
    - unfold ctx_done. by rewrite bool_decide_true.
    - rewrite Hs. unfold chan_closed. rewrite He. by rewrite bool_decide_true. }
  rewrite E. cbn. rewrite app_nil_r, list_insert_insert, list_insert_id by done. by destruct cf.
Qed.
Lemma rounds cf ls n : bexec cf ls = Some (cf, []) -> bexec cf (concat (replicate n ls)) = Some (cf, []).
Proof.
  intros H. induction n as [|n IH]; [done|]. simpl. rewrite (bexec_app cf ls).
  by rewrite H, IH.
Qed.
Theorem c59_digest_stops_refuted : forall uuid opts ls cf es i ctx s,
  bexec (broker_init uuid opts) ls = Some (cf, es) -> crashed cf = false ->
  bc_ths cf !! i = Some (CDigest ctx s, PRecvCheck) -> ~ inactive cf s -> ECancel ctx ∈ es ->
  forall n, bexec cf (concat (replicate n [LStep i ChGo; LStep i ChCtx])) = Some (cf, []).
Proof.
  intros uuid opts ls cf es i ctx s H Hc Hi Ha Hx n. apply rounds.
  destruct (sess_exec _ _ _ _ _ H) as [B S]. destruct (has_sub_exec _ _ _ _ _ H _ _ _ _ Hi eq_refl) as [sb Hs].
  eapply digest_round; [done..| |].
  - destruct (s_active sb) eqn:E; [done|]. destruct Ha. by exists sb.
  - left. split; [done|]. by apply (se_canc _ _ S).
Qed.
Print Assumptions c59_digest_stops_refuted.
(** The same after Close; and in no execution Digest returns nil. *)
Theorem c59_digest_stops_closed_refuted : exists l ls cf es,
  run_of l ls = Some (cf, es) /\ closed_in es /\ ~ in_session es /\ ECall 3 (CDigest 2 0) ∈ es /\
  forall n, bexec cf (concat (replicate n [LStep 3 ChGo; LStep 3 ChExit])) = Some (cf, []).
Proof.
  exists demo_opts, (open_steps 0 1 ++ sub_steps 2 "t" ++ [LCall (CDigest 2 0); LCall CClose; LStep 4 ChGo]).
  do 2 eexists. split; [vm_compute; reflexivity|]. split; [exists 4; listed|]. split; [by vm_compute|]. split; [listed|].
  intros n. apply rounds. eapply digest_round; [reflexivity|reflexivity|reflexivity|reflexivity|].
  right. split; [done|]. exists 0. split; [reflexivity|].
  apply (bool_decide_eq_true_1 (0 ∈ _)). vm_compute. reflexivity.
Qed.
Print Assumptions c59_digest_stops_closed_refuted.
Theorem c59_digest_result_partial : forall uuid opts ls cf es i ctx s r,
  bexec (broker_init uuid opts) ls = Some (cf, es) -> ECall i (CDigest ctx s) ∈ es -> ERet i r ∈ es ->
  r = Err BrokerErrTimeout \/ r = Err BrokerErrSubscriptionInactive \/ exists n, r = Err (EForeign n).
Proof.
  intros uuid opts ls cf es i ctx s r H Hc Hr. destruct (sess_exec _ _ _ _ _ H) as [B _].
  apply (base_call _ _ B) in Hc as (_ & p & Hp). apply (base_ret _ _ B) in Hr as (c & Hr).
  assert (c = CDigest ctx s) as -> by congruence. pose proof (base_wf _ _ B _ _ _ Hr) as Hw. simpl in Hw.
  destruct r as [|[]|]; try done; eauto.
Qed.
Print Assumptions c59_digest_result_partial.
(** What does stop it: once an Unsubscribe on its subscriber has returned, it takes
    at most three more steps. *)
Theorem c59_digest_stops_partial : forall uuid opts ls1 cf1 es1 j s r i c ls2 cf2 es2,
  bexec (broker_init uuid opts) ls1 = Some (cf1, es1) ->
  ECall j (CUnsub s) ∈ es1 -> ERet j r ∈ es1 ->
  (exists ctx o, c = CRecv ctx s o) \/ (exists ctx, c = CDigest ctx s) -> ECall i c ∈ es1 ->
  bexec cf1 ls2 = Some (cf2, es2) -> own_steps i ls2 <= 3.
Proof.
  intros uuid opts ls1 cf1 es1 j s r i c ls2 cf2 es2 H1 Hj Hr Hc Hi H2.
  destruct (sess_exec _ _ _ _ _ H1) as [B _]. apply (base_call _ _ B) in Hi as (_ & p & Hp).
  assert (Ha : exists ctx o, recv_args c = Some (ctx, s, o)).
  { destruct Hc as [(ctx & o & ->)|(ctx & ->)]; simpl; eauto. }
  destruct Ha as (ctx & o & Ha).
  destruct (own_steps_inactive _ _ _ _ _ _ _ _ _ _ _ B Ha (unsub_returned _ _ _ _ _ _ _ _ H1 Hj Hr) Hp H2) as (p' & _ & Hle).
  assert (left_inactive p <= 3) by (destruct p; simpl; lia). lia.
Qed.
Print Assumptions c59_digest_stops_partial.
(** both situations occur *)
Example c59_case : exists cf es, run_of demo_opts (open_steps 0 1 ++ sub_steps 2 "t" ++ [LCall (CDigest 2 0); LCancel 2]) = Some (cf, es) /\
  crashed cf = false /\ bc_ths cf !! 3 = Some (CDigest 2 0, PRecvCheck) /\ ~ inactive cf 0 /\ ECancel 2 ∈ es.
Proof.
  do 2 eexists. split; [vm_compute; reflexivity|]. split; [reflexivity|]. split; [reflexivity|]. split; [|listed].
  intros (sb & Hs & Ha). vm_compute in Hs. injection Hs as <-. done.
Qed.
Example c59_case2 : exists cf1 es1 cf2 es2, run_of demo_opts (
    open_steps 0 1 ++ sub_steps 2 "t" ++ [LCall (CDigest 2 0); LStep 3 ChGo; LCall (CUnsub 0); LStep 4 ChGo; LStep 4 ChGo; LStep 4 ChGo; LStep 4 ChGo])
    = Some (cf1, es1) /\ ECall 4 (CUnsub 0) ∈ es1 /\ ERet 4 (Ok None) ∈ es1 /\ ECall 3 (CDigest 2 0) ∈ es1 /\
  bexec cf1 [LStep 3 ChSubExit; LStep 3 ChGo] = Some (cf2, es2) /\ ERet 3 (Err BrokerErrSubscriptionInactive) ∈ es2.
Proof.
  do 4 eexists. split; [vm_compute; reflexivity|]. split; [listed|]. split; [listed|]. split; [listed|].
  split; [vm_compute; reflexivity|]. listed.
Qed.

(** ** C60 *)
(** The handler is called once for every message Digest gets, in order, and answers
    nil to all but the last; Digest returns the first error of handler or
    subscription. *)
Theorem c60_digest : forall uuid opts ls cf es i ctx s,
  bexec (broker_init uuid opts) ls = Some (cf, es) -> ECall i (CDigest ctx s) ∈ es ->
  (forall r, ERet i r ∈ es ->
     (exists n k, r = Err (EForeign n) /\ answers i es = replicate k None ++ [Some n] /\
        length (handled_by i es) = S k) \/
     ((r = Err BrokerErrTimeout \/ r = Err BrokerErrSubscriptionInactive) /\
        answers i es = replicate (length (handled_by i es)) None)) /\
  ((forall r, ERet i r ∉ es) -> exists k, answers i es = replicate k None /\
     (length (handled_by i es) = k \/ length (handled_by i es) = S k)).
Proof.
  intros uuid opts ls cf es i ctx s H Hc. destruct (exec_all _ _ _ _ _ H) as (B & S & _).
  apply (base_call _ _ B) in Hc as (_ & p & Hp). pose proof (rlog_exec _ _ _ _ _ H _ _ _ Hp) as Hl.
  pose proof (base_wf _ _ B _ _ _ Hp) as Hw.
  rewrite answers_acts, handled_by_acts. unfold rlog, quiet in Hl. cbn [recv_args] in Hl. split.
  - intros r Hr. apply (base_ret _ _ B) in Hr as (c & Hr). assert (p = PDone r) as -> by congruence.
    destruct Hl as [(hd & m & a & -> & _ & -> & -> & _)|[(-> & -> & _ & _)|([-> | ->] & _ & -> & _)]].
    + destruct a as [n|]; [|done]. left. exists n, (length hd). rewrite app_length. simpl. split_and!; [done|done|lia].
    + right. split; [by left|done].
    + done.
    + right. split; [by right|done].
  - intros Hn.
    destruct p; try done.
    + destruct Hl as (_ & -> & _). eauto.
    + destruct Hl as (_ & -> & _). eauto.
    + destruct Hl as (_ & -> & _). eauto.
    + destruct Hl as (hd & -> & _ & -> & _). exists (length hd). rewrite app_length. simpl. split; [done|]. right. lia.
    + destruct (Hn r). apply (base_ret _ _ B). eauto.
Qed.
Print Assumptions c60_digest.
Example c60_case : exists cf, run_of demo_opts demo_ls = Some (cf, demo_es) /\ ECall 5 (CDigest 3 0) ∈ demo_es /\
  ERet 5 (Err (EForeign 7)) ∈ demo_es /\ answers 5 demo_es = [None; Some 7%N] /\ handled_by 5 demo_es = [msg 1; msg 2].
Proof.
  destruct (events_of_some _ _ _ demo) as [cf Hcf]. exists cf. split; [exact Hcf|].
  split; [listed|]. split; [listed|]. split; vm_compute; reflexivity.
Qed.
