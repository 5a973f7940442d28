(** The in-memory broker, continued: C67 to C75. *)
From Verif.Model Require Import Broker.
From Verif.Spec Require Import OptionsSpec BrokerSpec.
From Verif.Proof Require Import OptionsP BrokerP BrokerP2 BrokerP3 BrokerP4 BrokerP5 BrokerP6 BrokerP7 BrokerP8 BrokerP9.
From Verif.Props Require Import PBroker PBroker3.

(** ** C67 *)
(** The timeout asked for by a call on a broker made with options [l]. *)
Inductive waits_for (l : list broker_syn) : call -> Z -> Prop :=
| wf_pub ctx t m l' : waits_for l (CPub ctx t m (broker_den <$> l')) (pub_wait l l')
| wf_recv ctx s l' : waits_for l (CRecv ctx s (broker_den <$> l')) (recv_wait l')
| wf_digest ctx s : waits_for l (CDigest ctx s) five_seconds.
Lemma waits_for_eq l c d : waits_for l c d -> timeout_of (memory_new (broker_den <$> l)) c = d.
Proof. destruct 1; simpl; [apply pub_wait_eq|apply recv_wait_eq|done]. Qed.
Theorem c67_no_early_timeout : forall uuid l ls1 cf1 es1 c d ls2 cf2 es2 i,
  bexec (broker_init uuid (broker_den <$> l)) ls1 = Some (cf1, es1) ->
  i = length (bc_ths cf1) -> bexec cf1 (LCall c :: ls2) = Some (cf2, es2) ->
  waits_for l c d -> ERet i (Err BrokerErrTimeout) ∈ es1 ++ es2 -> (d <= elapsed es2)%Z.
Proof.
  intros uuid l ls1 cf1 es1 c d ls2 cf2 es2 i H1 Hi H2 Hw Hr.
  set (m0 := memory_new (broker_den <$> l)).
  destruct (sess_exec _ _ _ _ _ H1) as [_ S1]. pose proof (config_exec _ _ _ _ _ H1) as [_ Hcfg].
  destruct (call_from i c (fun cf _ p => m_timeout (bs_mem (bc_st cf)) = m_timeout m0 /\ waited (bs_now (bc_st cf1)) (timeout_of m0 c) cf p)
    _ _ _ _ _ _ _ _ H1 H2 Hi) as (B & S & p & Hp & HP).
  - split; [exact Hcfg|]. split; [simpl; lia|]. by destruct c.
  - intros cf es l' cf' es' p p' HB HS Hip [Hm Hwt] Hst Hmv Hip'. split.
    + destruct (config_step (bs_mem (bc_st cf)) cf [] l' cf' es' (conj eq_refl eq_refl) Hst) as [_ ->]. done.
    + by eapply waited_step.
  - apply (base_ret _ _ B) in Hr as (c' & Hr). simplify_eq. destruct HP as (_ & _ & HP).
    pose proof (waits_for_eq _ _ _ Hw) as Ew. fold m0 in Ew. rewrite Ew in HP. rewrite (se_now _ _ S), (se_now _ _ S1), elapsed_app in HP. lia.
Qed.
Print Assumptions c67_no_early_timeout.
(** And once the time has passed since a call began to wait it can time out. *)
Lemma crashed_insert cf i c p b : crashed cf = false -> (forall x, p <> PPanicked x) ->
  crashed (BConf b (<[i := (c, p)]> (bc_ths cf))) = false.
Proof.
  intros Hc Hp. destruct (crashed _) eqn:E in |- *; [|done]. apply crashed_iff in E as (k & c' & x & Hk). cbn [bc_ths] in Hk.
  destruct (decide (k = i)) as [->|].
  - destruct (decide (i < length (bc_ths cf))) as [Hlt|Hge].
    + rewrite list_lookup_insert in Hk by done. simplify_eq. by destruct (Hp x).
    + rewrite list_insert_ge in Hk by lia. by eapply crashed_not in Hk.
  - rewrite list_lookup_insert_ne in Hk by done. by eapply crashed_not in Hk.
Qed.
Lemma timeout_round cf i c p p' p'' d : crashed cf = false -> bc_ths cf !! i = Some (c, p) ->
  tstep (bc_st cf) c p ChGo = Some (Out (bc_st cf) p' None []) -> (forall x, p' <> PPanicked x) ->
  (forall b, tstep b c p' ChTimeout = Some (Out b p'' None []) \/ tstep b c p' ChTimeout = None) ->
  (is_Some (bexec cf [LStep i ChGo; LTick d; LStep i ChTimeout]) <->
   is_Some (tstep (set_now (bc_st cf) (bs_now (bc_st cf) + Z.of_N d)) c p' ChTimeout)) /\
  forall cf' es, bexec cf [LStep i ChGo; LTick d; LStep i ChTimeout] = Some (cf', es) -> es = ret_event i p' ++ ETick d :: ret_event i p''.
Proof.
  intros Hc Hi E1 Hp E2. assert (Hlt : i < length (bc_ths cf)) by by eapply lookup_lt_Some.
  set (cf1 := BConf (bc_st cf) (<[i := (c, p')]> (bc_ths cf))).
  assert (Hc1 : crashed cf1 = false) by (by apply crashed_insert).
  assert (S1 : bstep cf (LStep i ChGo) = Some (cf1, ret_event i p')).
  { unfold bstep. rewrite Hc, Hi, E1. simpl. by rewrite app_nil_r. }
  set (b2 := set_now (bc_st cf) (bs_now (bc_st cf) + Z.of_N d)).
  assert (S2 : bstep cf1 (LTick d) = Some (BConf b2 (bc_ths cf1), [ETick d])).
  { unfold bstep. by rewrite Hc1. }
  assert (Hc2 : crashed (BConf b2 (bc_ths cf1)) = false) by (by apply crashed_insert).
  assert (Hl2 : bc_ths cf1 !! i = Some (c, p')) by (simpl; by apply list_lookup_insert).
  cbn [bexec]. rewrite S1, S2. unfold bstep. rewrite Hc2. cbn [bc_ths bc_st]. rewrite Hl2.
  destruct (E2 b2) as [E| E]; rewrite E; simpl.
  - split; [split; intros _; by eexists|]. intros cf' es [= <- <-]. by rewrite !app_nil_r.
  - split; [split; intros [? ?]; done|done].
Qed.
Theorem c67_pub_timeout : forall uuid l ls cf es i ctx t m l' q d,
  bexec (broker_init uuid (broker_den <$> l)) ls = Some (cf, es) -> crashed cf = false ->
  bc_ths cf !! i = Some (CPub ctx t m (broker_den <$> l'), PPubSel q) ->
  (pub_wait l l' <= Z.of_N d)%Z <->
  exists cf', bexec cf [LStep i ChGo; LTick d; LStep i ChTimeout] = Some (cf', [ETick d; ERet i (Err BrokerErrTimeout)]).
Proof.
  intros uuid l ls cf es i ctx t m l' q d H Hc Hi.
  pose proof (config_exec _ _ _ _ _ H) as [_ Hcfg].
  assert (Ht : pub_timeout (bs_mem (bc_st cf)) (broker_den <$> l') = pub_wait l l').
  { rewrite <- pub_wait_eq. unfold pub_timeout. by rewrite Hcfg. }
  destruct (timeout_round cf i _ _ (PPubWait q (m_exit (bs_mem (bc_st cf))) (bs_now (bc_st cf) + pub_wait l l')) (PDone (Err BrokerErrTimeout)) d Hc Hi)
    as [Hs Hev].
  - cbn [tstep]. by rewrite Ht.
  - done.
  - intros b. cbn [tstep]. destruct (_ <=? _)%Z; auto.
  - cbn [tstep set_now bs_now] in Hs. destruct (Z.leb_spec (bs_now (bc_st cf) + pub_wait l l') (bs_now (bc_st cf) + Z.of_N d)) as [Hle|Hle].
    + split; [|lia]. intros _. destruct Hs as [_ Hs]. destruct Hs as [[cf' es'] Hs]; [by eexists|].
      pose proof (Hev _ _ Hs) as ->. by exists cf'.
    + split; [lia|]. intros [cf' He]. destruct Hs as [Hs _]. destruct Hs as [? ?]; [by eexists|done].
Qed.
Print Assumptions c67_pub_timeout.
Theorem c67_recv_timeout : forall uuid l ls cf es i ctx s l' d,
  bexec (broker_init uuid (broker_den <$> l)) ls = Some (cf, es) -> crashed cf = false ->
  bc_ths cf !! i = Some (CRecv ctx s (broker_den <$> l'), PRecvCheck) -> ~ inactive cf s ->
  (recv_wait l' <= Z.of_N d)%Z <->
  exists cf', bexec cf [LStep i ChGo; LTick d; LStep i ChTimeout] = Some (cf', [ETick d]) /\
    bc_ths cf' !! i = Some (CRecv ctx s (broker_den <$> l'), PRecvDrop).
Proof.
  intros uuid l ls cf es i ctx s l' d H Hc Hi Ha.
  destruct (has_sub_exec _ _ _ _ _ H _ _ _ _ Hi eq_refl) as [sb Hs].
  assert (Hact : s_active sb = true).
  { destruct (s_active sb) eqn:E; [done|]. destruct Ha. by exists sb. }
  destruct (timeout_round cf i _ _ (PRecvWait (bs_now (bc_st cf) + recv_wait l')) PRecvDrop d Hc Hi) as [Hsm Hev].
  - cbn [tstep recv_args]. by rewrite Hs, Hact, recv_wait_eq.
  - done.
  - intros b. cbn [tstep]. destruct (_ <=? _)%Z; auto.
  - cbn [tstep set_now bs_now] in Hsm.
    destruct (Z.leb_spec (bs_now (bc_st cf) + recv_wait l') (bs_now (bc_st cf) + Z.of_N d)) as [Hle|Hle].
    + split; [|lia]. intros _. destruct Hsm as [_ Hsm]. destruct Hsm as [[cf' es'] Hsm]; [by eexists|].
      pose proof (Hev _ _ Hsm) as ->. exists cf'. split; [done|].
      cbn [bexec] in Hsm. unfold bstep at 1 in Hsm. rewrite Hc, Hi in Hsm. cbn [tstep recv_args] in Hsm. rewrite Hs, Hact in Hsm.
      cbn [o_st o_pc o_spawn o_acts spawned] in Hsm. rewrite app_nil_r in Hsm. unfold bstep in Hsm at 1.
      rewrite crashed_insert in Hsm by done. unfold bstep in Hsm. cbn [bc_st bc_ths] in Hsm.
      rewrite crashed_insert in Hsm by done. assert (Hlt : i < length (bc_ths cf)) by by eapply lookup_lt_Some.
      rewrite list_lookup_insert in Hsm by done. cbn [tstep] in Hsm. destruct (_ <=? _)%Z; [|done].
      injection Hsm as <-. cbn [bc_ths o_pc o_spawn spawned]. rewrite app_nil_r. apply list_lookup_insert. by rewrite insert_length.
    + split; [lia|]. intros (cf' & He & _). destruct Hsm as [Hsm _]. destruct Hsm as [? ?]; [by eexists|done].
Qed.
Print Assumptions c67_recv_timeout.
(** a Pub that waits seven nanoseconds *)
Example c67_case : exists cf1 es1 cf2 es2,
  run_of [BPub 9; BPub 7] (open_steps 0 1) = Some (cf1, es1) /\ length (bc_ths cf1) = 2 /\
  bexec cf1 (LCall (CPub 2 "t" (msg 1) (broker_den <$> [BRecv 3])) :: [LStep 2 ChGo; LStep 2 ChGo; LStep 2 ChGo; LTick 7; LStep 2 ChTimeout])
    = Some (cf2, es2) /\
  waits_for [BPub 9; BPub 7] (CPub 2 "t" (msg 1) (broker_den <$> [BRecv 3])) 7 /\
  ERet 2 (Err BrokerErrTimeout) ∈ es1 ++ es2 /\ elapsed es2 = 7%Z.
Proof.
  do 4 eexists. split; [vm_compute; reflexivity|]. split; [reflexivity|]. split; [vm_compute; reflexivity|].
  split; [exact (wf_pub [BPub 9; BPub 7] 2 "t" (msg 1) [BRecv 3])|]. split; [listed|reflexivity].
Qed.

(** ** C68 *)
(** Every call but Digest returns after at most five steps of its own. *)
Theorem c68_bounded : forall uuid opts ls1 cf1 es1 c ls2 cf2 es2,
  bexec (broker_init uuid opts) ls1 = Some (cf1, es1) ->
  (forall ctx s, c <> CDigest ctx s) ->
  bexec cf1 (LCall c :: ls2) = Some (cf2, es2) -> own_steps (length (bc_ths cf1)) ls2 <= 5.
Proof.
  intros uuid opts ls1 cf1 es1 c ls2 cf2 es2 H1 Hd H2.
  pose proof (exec_two _ _ _ _ _ [LCall c] (BConf (bc_st cf1) (bc_ths cf1 ++ [(c, pc_start c)])) [ECall (length (bc_ths cf1)) c] H1) as H1'.
  assert (Hcl : crashed cf1 = false).
  { cbn [bexec] in H2. unfold bstep in H2. by destruct (crashed cf1). }
  apply bexec_call in H2 as (Hc & es' & H2 & ->).
  assert (H : bexec cf1 [LCall c] = Some (BConf (bc_st cf1) (bc_ths cf1 ++ [(c, pc_start c)]), [ECall (length (bc_ths cf1)) c])).
  { cbn [bexec]. unfold bstep. by rewrite Hcl, Hc. }
  specialize (H1' H). destruct (sess_exec _ _ _ _ _ H1') as [B _].
  assert (Hl : looping c = false) by (destruct c; try done; by destruct (Hd ctx s)).
  destruct (own_steps_bound _ _ ls2 cf2 es' (length (bc_ths cf1)) c (pc_start c) B Hl) as (p' & _ & Hle).
  - simpl. rewrite ths_call. by right.
  - done.
  - assert (left_to_do (pc_start c) <= 5) by (destruct c; simpl; lia). lia.
Qed.
Print Assumptions c68_bounded.
(** a Pub that takes all five: its context is cancelled *)
Example c68_case : exists cf1 es1 cf2 es2,
  run_of [] (open_steps 0 1 ++ [LCancel 2]) = Some (cf1, es1) /\
  bexec cf1 (LCall (CPub 2 "t" (msg 1) []) :: [LStep 2 ChGo; LStep 2 ChGo; LStep 2 ChGo; LStep 2 ChCtx; LStep 2 ChGo]) = Some (cf2, es2) /\
  ERet 2 (Ok None) ∈ es2.
Proof. do 4 eexists. split; [vm_compute; reflexivity|]. split; [vm_compute; reflexivity|]. listed. Qed.

(** ** C69 *)
(** No call can be blocked for good: from every state of every execution in which
    nobody has panicked, every call can be brought to its end by letting goroutines
    run and time pass, without any new call, cancellation or receiver. *)
Theorem c69_no_deadlock : forall uuid opts ls cf es i c,
  bexec (broker_init uuid opts) ls = Some (cf, es) -> crashed cf = false -> ECall i c ∈ es ->
  exists ls' cf' es', Forall (fun l => (exists k ch, l = LStep k ch) \/ exists d, l = LTick d) ls' /\
    bexec cf ls' = Some (cf', es') /\
    ((exists r, ERet i r ∈ es ++ es') \/ (exists s, c = CUnsub s) /\ crashed cf' = true).
Proof.
  intros uuid opts ls cf es i c H Hc Hi. destruct (sess_exec _ _ _ _ _ H) as [B _].
  apply (base_call _ _ B) in Hi as (Hcl & p & Hp).
  destruct (finishes _ _ _ _ _ _ _ _ H Hc Hp (Is_true_true_1 _ Hcl)) as (ls' & cf' & es' & Hq & He & Hf).
  exists ls', cf', es'. split; [|split; [done|]].
  - eapply Forall_impl; [done|]. intros [| |d|k ch|]; simpl; eauto; done.
  - destruct (sess_exec _ _ _ _ _ (exec_two _ _ _ _ _ _ _ _ H He)) as [B' S'].
    destruct Hf as [[r Hf]|[x Hf]].
    + left. exists r. apply (base_ret _ _ B'). eauto.
    + right. split; [by eapply (se_panic _ _ S')|]. apply crashed_iff. eauto.
Qed.
Print Assumptions c69_no_deadlock.
(** the third Pub of [full_ls], nobody receives *)
Example c69_case : exists cf es, run_of demo_opts full_ls = Some (cf, es) /\ crashed cf = false /\
  ECall 4 (CPub 2 "t" (msg 3) []) ∈ es /\ forall r, ERet 4 r ∉ es.
Proof. do 2 eexists. split; [vm_compute; reflexivity|]. split; [reflexivity|]. split; [listed|]. set_solver. Qed.

(** ** C70 *)
Theorem c70_empty_receive : forall uuid opts ls cf es i ctx s o,
  bexec (broker_init uuid opts) ls = Some (cf, es) ->
  ECall i (CRecv ctx s o) ∈ es -> ERet i (Ok None) ∈ es -> handled_by i es = [] ->
  ECancel ctx ∈ es \/ closed_in es \/ exists j, ECall j (CUnsub s) ∈ es.
Proof.
  intros uuid opts ls cf es i ctx s o H Hc Hr Hh. destruct (sess_exec _ _ _ _ _ H) as [B _].
  apply (base_call _ _ B) in Hc as (_ & p & Hp). apply (base_ret _ _ B) in Hr as (c & Hr). rewrite Hp in Hr. injection Hr as <- ->. rename Hp into Hr.
  destruct (recv_ok_exec _ _ _ _ _ H _ _ _ _ Hr) as [Ha|?]; [|done]. exfalso.
  pose proof (rlog_exec _ _ _ _ _ H _ _ _ Hr) as Hl. unfold rlog, quiet in Hl. cbn [recv_args] in Hl.
  rewrite handled_by_acts in Hh. rewrite Hh in Hl.
  assert (Hn : None ∈ a_answers (acts_by i es)).
  { unfold a_answers. apply elem_of_list_omap. exists (AHandled None). split; [by apply elem_acts_by|done]. }
  destruct Hl as [(hd & m & a & E & _)|[(_ & E & _)|(_ & _ & E & _)]].
  - by destruct hd.
  - rewrite E in Hn. by apply elem_of_nil in Hn.
  - rewrite E in Hn. by apply elem_of_nil in Hn.
Qed.
Print Assumptions c70_empty_receive.
Example c70_case : exists cf es, run_of demo_opts (open_steps 0 1 ++ sub_steps 2 "t" ++
    [LCall (CRecv 2 0 []); LStep 3 ChGo; LCall CClose; LStep 4 ChGo; LStep 3 ChExit]) = Some (cf, es) /\
  ECall 3 (CRecv 2 0 []) ∈ es /\ ERet 3 (Ok None) ∈ es /\ handled_by 3 es = [].
Proof. do 2 eexists. split; [vm_compute; reflexivity|]. split; [listed|]. split; [listed|reflexivity]. Qed.

(** ** C71 *)
(** A Receive that waits while Unsubscribe runs can still call its handler after
    Unsubscribe has returned. *)
Theorem c71_unsubscribed_is_silent_refuted : exists l ls1 ls2 cf1 es1 cf2 es2 m,
  run_of l ls1 = Some (cf1, es1) /\ ECall 4 (CUnsub 0) ∈ es1 /\ ERet 4 (Ok None) ∈ es1 /\
  bexec cf1 ls2 = Some (cf2, es2) /\ receives es1 3 0 2 /\ EAct 3 (AHandle m) ∈ es2.
Proof.
  exists demo_opts, (open_steps 0 1 ++ sub_steps 2 "t" ++ [LCall (CRecv 2 0 []); LStep 3 ChGo;
    LCall (CUnsub 0); LStep 4 ChGo; LStep 4 ChGo; LStep 4 ChGo; LStep 4 ChGo]).
  exists (pub_steps 6 2 "t" (msg 1) ChSend ++ [LStep 3 ChRecv]). do 4 eexists. exists (msg 1).
  split; [vm_compute; reflexivity|]. split; [listed|]. split; [listed|]. split; [vm_compute; reflexivity|].
  split; [left; exists []; listed|listed].
Qed.
Print Assumptions c71_unsubscribed_is_silent_refuted.
(** Every call under way delivers at most one more message. *)
Theorem c71_unsubscribed_is_silent_partial : forall uuid opts ls1 cf1 es1 j s r i ctx ls2 cf2 es2,
  bexec (broker_init uuid opts) ls1 = Some (cf1, es1) ->
  ECall j (CUnsub s) ∈ es1 -> ERet j r ∈ es1 -> receives es1 i s ctx ->
  bexec cf1 ls2 = Some (cf2, es2) -> length (handled_by i es2) <= 1.
Proof.
  intros uuid opts ls1 cf1 es1 j s r i ctx ls2 cf2 es2 H1 Hj Hr Hi H2. destruct (sess_exec _ _ _ _ _ H1) as [B _].
  assert (G : exists c p o, bc_ths cf1 !! i = Some (c, p) /\ recv_args c = Some (ctx, s, o)).
  { destruct Hi as [[o Hi]|Hi]; apply (base_call _ _ B) in Hi as (_ & p & Hp); eauto. }
  destruct G as (c & p & o & Hp & Ha).
  by apply (deliver_once _ _ _ _ _ _ _ _ _ _ _ B Ha (unsub_returned _ _ _ _ _ _ _ _ H1 Hj Hr) Hp H2).
Qed.
Print Assumptions c71_unsubscribed_is_silent_partial.

(** ** C72 *)
(** Two overlapping Opens, then Close: the goroutine of the first Open never ends
    unless its context is cancelled, whatever happens from then on. *)
Definition leak_ls : list label :=
  [LCall (COpen 1); LCall (COpen 2); LStep 0 ChGo; LStep 1 ChGo; LStep 0 ChGo; LStep 0 ChGo; LStep 2 ChGo; LStep 2 ChGo;
   LStep 1 ChGo; LStep 1 ChGo; LCall CClose; LStep 4 ChGo].
Theorem c72_goroutines_end_refuted : exists l ls cf es,
  run_of l ls = Some (cf, es) /\ closed_in es /\ ~ in_session es /\
  (forall i c, ECall i c ∈ es -> exists r, ERet i r ∈ es) /\
  forall ls' cf' es', bexec cf ls' = Some (cf', es') -> LCancel 1 ∉ ls' ->
    exists p, bc_ths cf' !! 2 = Some (CRun 1, p) /\ (forall r, p <> PDone r) /\
      forall ch, bstep cf' (LStep 2 ch) = None.
Proof.
  exists [], leak_ls. do 2 eexists. split; [vm_compute; reflexivity|]. split; [exists 4; listed|]. split; [by vm_compute|]. split.
  { intros i c Hi. rewrite !elem_of_cons, elem_of_nil in Hi.
    destruct Hi as [[= -> ->]|[[= -> ->]|[?|[?|[?|[?|[[= -> ->]|[?|[?|?]]]]]]]]]; try done; exists (Ok None); listed. }
  intros ls' cf' es' H Hn.
  assert (HL : left_behind 1 2 0 1 cf').
  { eapply left_behind_exec; [|exact Hn|exact H]. split; [reflexivity|]. split.
    { split; [simpl; lia|]. intros s sb Hs. cbn [bc_st bs_heap] in Hs. by rewrite lookup_nil in Hs. }
    split; [by apply (bool_decide_eq_false_1 (0 ∈ _)); vm_compute|]. split; [done|]. split; [simpl; lia|]. split; [reflexivity|].
    split; [done|]. split; [intros s sb Hs; cbn [bc_st bs_heap] in Hs; by rewrite lookup_nil in Hs|].
    apply (bool_decide_eq_false_1 (1 ∈ _)); by vm_compute. }
  destruct HL as (Hi & _ & Hc & _ & _ & Hct & _ & _ & Hx). eexists. split; [exact Hi|]. split; [done|].
  intros ch. unfold bstep. destruct (crashed cf'); [done|]. rewrite Hi. destruct ch; try done; cbn [tstep].
  - unfold ctx_done. by rewrite bool_decide_false.
  - unfold chan_closed. by rewrite bool_decide_false.
  - by rewrite Hct.
Qed.
Print Assumptions c72_goroutines_end_refuted.

(** ** C73 *)
(** Open writes Memory.exit and Memory.ctl while goroutines of an earlier session
    read them; two Unsubscribe calls write Subscriber.active. *)
Local Instance field_eq_dec : EqDecision field.
Proof. solve_decision. Defined.
Definition can_step (cf : bconf) (i : nat) : bool := match bstep cf (LStep i ChGo) with Some _ => true | None => false end.
Definition race_here (l : list broker_syn) (ls : list label) (f : field) (i j : nat) : bool :=
  match run_of l ls with
  | Some (cf, _) =>
      match bc_ths cf !! i, bc_ths cf !! j with
      | Some (c, p), Some (c', p') =>
          bool_decide (next_access c p = Some (f, true)) && bool_decide (fst <$> next_access c' p' = Some f) &&
          can_step cf i && can_step cf j
      | _, _ => false
      end
  | None => false
  end.
Lemma race_here_spec l ls f i j : i <> j -> race_here l ls f i j = true ->
  exists cf es, run_of l ls = Some (cf, es) /\ races_on cf f.
Proof.
  unfold race_here, can_step. intros Hij H. destruct (run_of l ls) as [[cf es]|]; [|done]. exists cf, es. split; [done|].
  destruct (bc_ths cf !! i) as [[c p]|] eqn:Hi; [|done]. destruct (bc_ths cf !! j) as [[c' p']|] eqn:Hj; [|done].
  apply andb_true_iff in H as [H H4]. apply andb_true_iff in H as [H H3]. apply andb_true_iff in H as [H1 H2].
  apply bool_decide_eq_true in H1, H2. destruct (next_access c' p') as [[f' w]|] eqn:E; [|done]. simpl in H2. injection H2 as ->.
  exists i, j, c, p, c', p', w. split_and!; try done.
  - by destruct (bstep cf (LStep i ChGo)).
  - by destruct (bstep cf (LStep j ChGo)).
Qed.
Theorem c73_fields_race_refuted :
  (exists ls cf es, run_of [] ls = Some (cf, es) /\ races_on cf FExit) /\
  (exists ls cf es, run_of [] ls = Some (cf, es) /\ races_on cf FCtl) /\
  (exists ls cf es, run_of [] ls = Some (cf, es) /\ races_on cf (FActive 0)).
Proof.
  split; [|split].
  - (* a Pub before its select, Close, and a new Open *)
    exists (open_steps 0 1 ++ [LCall (CPub 2 "t" (msg 1) []); LStep 2 ChGo; LStep 2 ChGo; LCall CClose; LStep 3 ChGo;
      LCall (COpen 2); LStep 4 ChGo]). apply (race_here_spec _ _ _ 4 2); [done|]. by vm_compute.
  - (* the goroutine of the first Open between its two reads *)
    exists (open_steps 0 1 ++ [LStep 1 ChGo; LCall CClose; LStep 2 ChGo; LCall (COpen 2); LStep 3 ChGo; LStep 3 ChGo]).
    apply (race_here_spec _ _ _ 3 1); [done|]. by vm_compute.
  - (* Unsubscribe and Receive *)
    exists (open_steps 0 1 ++ sub_steps 2 "t" ++ [LCall (CUnsub 0); LStep 3 ChGo; LStep 3 ChGo; LCall (CRecv 2 0 [])]).
    apply (race_here_spec _ _ _ 3 4); [done|]. by vm_compute.
Qed.
Print Assumptions c73_fields_race_refuted.
(** With a single Open there is no race on exit and ctl. *)
Theorem c73_fields_race_partial : forall uuid opts ls cf es,
  bexec (broker_init uuid opts) ls = Some (cf, es) -> lone_open es -> ~ races_on cf FExit /\ ~ races_on cf FCtl.
Proof.
  intros uuid opts ls cf es H Ho. destruct (sess_exec _ _ _ _ _ H) as [B _].
  pose proof (lone_exec _ _ _ _ _ H Ho) as L.
  assert (Huniq : forall i j ctx ctx' p p', bc_ths cf !! i = Some (COpen ctx, p) -> bc_ths cf !! j = Some (COpen ctx', p') -> i = j).
  { intros i j ctx ctx' p p' Hi Hj. apply (Ho i j ctx ctx'); apply (base_call _ _ B); split; eauto. }
  assert (G : forall f, f = FExit \/ f = FCtl -> ~ races_on cf f).
  { intros f Hf (i & j & c & p & c' & p' & w & Hij & Hi & Hj & Ha & Ha' & _).
    pose proof (base_wf _ _ B _ _ _ Hi) as Hw. pose proof (base_wf _ _ B _ _ _ Hj) as Hw'.
    assert (Hop : (exists ctx, c = COpen ctx) /\ forall r, p <> PDone r).
    { destruct Hf as [->| ->]; destruct p; simpl in Ha; try done; destruct c; try done; eauto. }
    destruct Hop as [[ctx ->] Hnd].
    assert (Hx : in_use c' p' = true \/ exists ctx', c' = COpen ctx').
    { destruct Hf as [->| ->]; destruct p'; simpl in Ha'; try done; destruct c'; try done; eauto. }
    destruct Hx as [Hx|[ctx' ->]].
    - destruct (lo_use _ L _ _ _ Hj Hx) as (k & ctx' & r & Hk).
      assert (k = i) as -> by (by eapply Huniq). simplify_eq.
    - apply Hij. by eapply Huniq. }
  split; apply G; auto.
Qed.
Print Assumptions c73_fields_race_partial.
Lemma open_listed (es : list event) i ctx : ECall i (COpen ctx) ∈ es ->
  i ∈ omap (M := list) (fun e => match e with ECall i (COpen _) => Some i | _ => None end) es.
Proof. intros Hi. apply elem_of_list_omap. by exists (ECall i (COpen ctx)). Qed.
Lemma demo_lone : lone_open demo_es.
Proof.
  intros i j ctx ctx' Hi Hj. apply open_listed in Hi, Hj. change (i ∈ [0]) in Hi. change (j ∈ [0]) in Hj.
  apply elem_of_list_singleton in Hi, Hj. congruence.
Qed.
Example c73_case : exists cf, run_of demo_opts demo_ls = Some (cf, demo_es) /\ lone_open demo_es.
Proof. destruct (events_of_some _ _ _ demo) as [cf Hcf]. exists cf. split; [exact Hcf|exact demo_lone]. Qed.

(** ** C74 *)
(** The registry of the broker: every active subscriber is listed under its topic. *)
Definition registered (cf : bconf) (s : nat) : Prop :=
  exists sb inner, bs_heap (bc_st cf) !! s = Some sb /\ m_subs (bs_mem (bc_st cf)) !! s_topic sb = Some inner /\
    inner !! s_id sb = Some s.
Definition registered_b (cf : bconf) (s : nat) : bool :=
  match bs_heap (bc_st cf) !! s with
  | Some sb =>
      match m_subs (bs_mem (bc_st cf)) !! s_topic sb with
      | Some inner => bool_decide (inner !! s_id sb = Some s)
      | None => false
      end
  | None => false
  end.
Lemma registered_b_spec cf s : registered cf s <-> registered_b cf s = true.
Proof.
  unfold registered, registered_b. destruct (bs_heap (bc_st cf) !! s) as [sb|]; [|split; [by intros (? & ? & ? & ?)|done]].
  split.
  - intros (sb' & inner & [= <-] & -> & H). by apply bool_decide_eq_true.
  - destruct (m_subs _ !! _) as [inner|] eqn:E; [|done]. intros H. exists sb, inner. split_and!; try done. by apply bool_decide_eq_true in H.
Qed.
Definition active_b (cf : bconf) (s : nat) : bool :=
  match bs_heap (bc_st cf) !! s with Some sb => s_active sb | None => false end.
Lemma active_b_spec cf s : active_b cf s = true -> ~ inactive cf s.
Proof. unfold active_b. intros H (sb & Hs & Ha). rewrite Hs in H. congruence. Qed.
Definition two_subs : list label := open_steps 0 1 ++ sub_steps 2 "t" ++ sub_steps 3 "t".
Lemma two_subs_state : (fun x : bconf * list event => (active_b x.1 0, registered_b x.1 0, registered_b x.1 1)) <$> run_of [] two_subs
  = Some (true, false, true).
Proof. by vm_compute. Qed.
Lemma two_subs_events : exists es, events_of [] two_subs = Some es /\ in_session es /\ subscribed es 0 "t" /\ subscribed es 1 "t".
Proof.
  eexists. split; [vm_compute; reflexivity|].
  split; [by vm_compute|]. split; [exists 2; split; listed|]. exists 3; split; listed.
Qed.
Theorem c74_registry_refuted : exists l ls cf es,
  run_of l ls = Some (cf, es) /\ in_session es /\ subscribed es 0 "t" /\ subscribed es 1 "t" /\
  ~ inactive cf 0 /\ ~ registered cf 0 /\ registered cf 1.
Proof.
  exists [], two_subs. destruct two_subs_events as (es & He & H1 & H2 & H3). apply events_of_some in He as [cf Hcf].
  exists cf, es. pose proof two_subs_state as Hs. rewrite Hcf in Hs. cbn in Hs. injection Hs as A R0 R1.
  split; [exact Hcf|]. split; [exact H1|]. split; [exact H2|]. split; [exact H3|]. split; [by apply active_b_spec|].
  rewrite !registered_b_spec. rewrite R0, R1. split; [discriminate|reflexivity].
Qed.
Print Assumptions c74_registry_refuted.
(** The topic at least is listed as long as the session lasts, which is what Close
    needs. *)
Theorem c74_registry_partial : forall uuid opts ls cf es t,
  bexec (broker_init uuid opts) ls = Some (cf, es) -> subs_since es t ->
  is_Some (m_subs (bs_mem (bc_st cf)) !! t).
Proof. intros. by eapply subs_since_exec. Qed.
Print Assumptions c74_registry_partial.

(** ** C75 *)
(** Receive calls its handler at most once, with the message it took, and returns
    what the handler returned; without a handler call it returns nil, ErrTimeout or
    ErrSubscriptionInactive. *)
Theorem c75_receive : forall uuid opts ls cf es i ctx s o r,
  bexec (broker_init uuid opts) ls = Some (cf, es) ->
  ECall i (CRecv ctx s o) ∈ es -> ERet i r ∈ es ->
  (exists m a, handled_by i es = [m] /\ taken_by i es = [m] /\ answers i es = [a] /\ r = relayed a) \/
  (handled_by i es = [] /\ answers i es = [] /\
   ((r = Ok None \/ r = Err BrokerErrSubscriptionInactive \/ r = Err BrokerErrTimeout) /\ taken_by i es = [] \/
    r = Err BrokerErrTimeout /\ exists m, taken_by i es = [m])).
Proof.
  intros uuid opts ls cf es i ctx s o r H Hc Hr. destruct (sess_exec _ _ _ _ _ H) as [B _].
  apply (base_call _ _ B) in Hc as (_ & p & Hp). apply (base_ret _ _ B) in Hr as (c & Hr). rewrite Hp in Hr. injection Hr as <- ->. rename Hp into Hr.
  pose proof (rlog_exec _ _ _ _ _ H _ _ _ Hr) as Hl. unfold rlog, quiet in Hl. cbn [recv_args one_shot] in Hl.
  rewrite handled_by_acts, taken_by_acts, answers_acts.
  destruct Hl as [(hd & m & a & E1 & E2 & E3 & -> & Hs)|[(-> & E1 & Hs & E2)|(Hr' & E1 & E2 & Hs)]].
  - rewrite (Hs I) in *. left. exists m, a. split_and!; try done.
  - rewrite (Hs I) in *. right. split_and!; try done. destruct E2 as [E2|[m E2]]; rewrite E2; [left; auto|right; eauto].
  - rewrite (Hs I) in *. right. split_and!; try done. left. destruct Hr' as [->| ->]; auto.
Qed.
Print Assumptions c75_receive.
Example c75_case : exists cf es, run_of demo_opts (open_steps 0 1 ++ sub_steps 2 "t" ++ pub_steps 3 2 "t" (msg 1) ChSend ++
    [LCall (CRecv 2 0 []); LStep 4 ChGo; LStep 4 ChRecv; LStep 4 (ChHandler (Some 3%N))]) = Some (cf, es) /\
  ECall 4 (CRecv 2 0 []) ∈ es /\ ERet 4 (Err (EForeign 3)) ∈ es.
Proof. do 2 eexists. split; [vm_compute; reflexivity|]. split; listed. Qed.
