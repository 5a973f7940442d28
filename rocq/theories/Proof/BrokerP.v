(** The broker machine as a relation with one rule per possible step, and
    induction over executions. *)
From Verif.Model Require Export Broker.
From Verif.Spec Require Export BrokerSpec.

(** Sub's critical section. *)
Definition sub_make (b : bstate) (topic : string) : bstate * nat :=
  let id := bs_uuid b (bs_cnt b) in
  let b := set_cnt b (S (bs_cnt b)) in
  let '(q, b) := get_queue b topic in
  let '(e, b) := make_exit b in
  let m := bs_mem b in
  let s := length (bs_heap b) in
  let b := set_heap b (bs_heap b ++ [Subscriber id topic true q (m_ctl m) e]) in
  let old := default ∅ (m_subs m !! topic) in
  let inner := match old !! id with None => ∅ | Some _ => old end in
  (set_mem b (mem_subs m (<[topic := <[id := s]> inner]> (m_subs m))), s).
Definition deactivate (sb : subscriber) : subscriber :=
  Subscriber (s_id sb) (s_topic sb) false (s_queue sb) (s_ctl sb) (s_exit sb).
Definition open_set (b : bstate) : bstate :=
  let m := bs_mem b in
  let b' := (make_exit b).2 in
  set_locked (set_mem b' (Memory true (m_size m) (m_timeout m) (m_subs m) (m_topics m) (Some (bs_next b)) (m_ctl m))) true.
Definition open_ctl (b : bstate) : bstate :=
  let m := bs_mem b in
  let b' := (make_ctl b).2 in
  set_locked (set_mem b' (Memory (m_connected m) (m_size m) (m_timeout m) (m_subs m) (m_topics m) (m_exit m) (Some (bs_next b)))) false.
Definition close_st (b : bstate) (e : nat) : bstate :=
  let m := bs_mem b in
  set_mem (set_closed b ({[e]} ∪ bs_closed b))
    (Memory false (m_size m) (m_timeout m) ∅ (close_topics m) (m_exit m) (m_ctl m)).
Definition answer (e : option N) : result := match e with None => Ok None | Some n => Err (EForeign n) end.
Definition closes (c : call) : Prop :=
  match c with CClose | CPub _ _ _ _ | CRun _ => True | _ => False end.

Inductive tr (b : bstate) : call -> pc -> choice -> bstate -> pc -> option call -> list act -> Prop :=
| tr_open_con c : bs_locked b = false -> m_connected (bs_mem b) = true ->
    tr b c POpenCheck ChGo b (PDone (Ok None)) None []
| tr_open_chk c : bs_locked b = false -> m_connected (bs_mem b) = false ->
    tr b c POpenCheck ChGo b POpenSet None []
| tr_open_set c : bs_locked b = false ->
    tr b c POpenSet ChGo (open_set b) POpenCtl None [AOpened]
| tr_open_ctl ctx :
    tr b (COpen ctx) POpenCtl ChGo (open_ctl b) (PDone (Ok None)) (Some (CRun ctx)) []
| tr_close_not c : bs_locked b = false -> m_connected (bs_mem b) = false ->
    tr b c PCloseGo ChGo b (PDone (Ok None)) None []
| tr_close c e : bs_locked b = false -> m_connected (bs_mem b) = true ->
    m_exit (bs_mem b) = Some e -> e ∉ bs_closed b ->
    tr b c PCloseGo ChGo (close_st b e) (PDone (Ok None)) None [AClosed]
| tr_close_panic c : bs_locked b = false -> m_connected (bs_mem b) = true ->
    (forall e, m_exit (bs_mem b) = Some e -> e ∈ bs_closed b) ->
    tr b c PCloseGo ChGo b (PPanicked PCloseClosed) None []
| tr_pub_not c : bs_locked b = false -> m_connected (bs_mem b) = false ->
    tr b c PPubCheck ChGo b (PDone (Err BrokerErrNotConnected)) None []
| tr_pub_chk c : bs_locked b = false -> m_connected (bs_mem b) = true ->
    tr b c PPubCheck ChGo b PPubQueue None []
| tr_pub_queue ctx t m o : bs_locked b = false ->
    tr b (CPub ctx t m o) PPubQueue ChGo (get_queue b t).2 (PPubSel (get_queue b t).1) None []
| tr_pub_sel ctx t m o q :
    tr b (CPub ctx t m o) (PPubSel q) ChGo b
       (PPubWait q (m_exit (bs_mem b)) (bs_now b + pub_timeout (bs_mem b) o)) None []
| tr_pub_ctx ctx t m o q e d : ctx ∈ bs_cancelled b ->
    tr b (CPub ctx t m o) (PPubWait q e d) ChCtx b PCloseGo None []
| tr_pub_exit c q e d : e ∈ bs_closed b ->
    tr b c (PPubWait q (Some e) d) ChExit b (PDone (Ok None)) None []
| tr_pub_timeout c q e d : (d <= bs_now b)%Z ->
    tr b c (PPubWait q e d) ChTimeout b (PDone (Err BrokerErrTimeout)) None []
| tr_pub_send ctx t m o q e d buf : bs_msgs b !! q_msg q = Some buf -> length buf < cap b ->
    tr b (CPub ctx t m o) (PPubWait q e d) ChSend
       (set_msgs b (<[q_msg q := buf ++ [m]]> (bs_msgs b))) (PDone (Ok None)) None [ASend (q_msg q) m]
| tr_sub_not c : bs_locked b = false -> m_connected (bs_mem b) = false ->
    tr b c PSubCheck ChGo b (PDone (Err BrokerErrNotConnected)) None []
| tr_sub_chk c : bs_locked b = false -> m_connected (bs_mem b) = true ->
    tr b c PSubCheck ChGo b PSubMake None []
| tr_sub_make t : bs_locked b = false ->
    tr b (CSub t) PSubMake ChGo (sub_make b t).1 (PDone (Ok (Some (length (bs_heap b))))) None []
| tr_unsub_act s sb : bs_heap b !! s = Some sb -> s_active sb = true ->
    tr b (CUnsub s) PUnsubCheck ChGo b PUnsubClose None []
| tr_unsub_inact s sb : bs_heap b !! s = Some sb -> s_active sb = false ->
    tr b (CUnsub s) PUnsubCheck ChGo b (PDone (Ok None)) None []
| tr_unsub_panic s sb : bs_heap b !! s = Some sb -> s_exit sb ∈ bs_closed b ->
    tr b (CUnsub s) PUnsubClose ChGo b (PPanicked PCloseClosed) None []
| tr_unsub_close s sb : bs_heap b !! s = Some sb -> s_exit sb ∉ bs_closed b ->
    tr b (CUnsub s) PUnsubClose ChGo (set_closed b ({[s_exit sb]} ∪ bs_closed b)) PUnsubSet None []
| tr_unsub_set s sb : bs_heap b !! s = Some sb ->
    tr b (CUnsub s) PUnsubSet ChGo (set_heap b (<[s := deactivate sb]> (bs_heap b))) PUnsubSpawn None []
| tr_unsub_spawn s :
    tr b (CUnsub s) PUnsubSpawn ChGo b (PDone (Ok None)) (Some (CAsync s)) []
| tr_async_send s sb ctl : bs_heap b !! s = Some sb -> s_ctl sb = Some ctl ->
    length (default [] (bs_ctls b !! ctl)) < Z.to_nat default_size ->
    tr b (CAsync s) PAsync ChSend
       (set_ctls b (<[ctl := default [] (bs_ctls b !! ctl) ++ [(s_id sb, s_topic sb)]]> (bs_ctls b)))
       (PDone (Ok None)) None []
| tr_async_exit s sb e : bs_heap b !! s = Some sb -> q_exit (s_queue sb) = Some e -> e ∈ bs_closed b ->
    tr b (CAsync s) PAsync ChExit b (PDone (Ok None)) None []
| tr_recv_act c ctx s o sb : recv_args c = Some (ctx, s, o) -> bs_heap b !! s = Some sb -> s_active sb = true ->
    tr b c PRecvCheck ChGo b (PRecvWait (bs_now b + recv_timeout o)) None []
| tr_recv_inact c ctx s o sb : recv_args c = Some (ctx, s, o) -> bs_heap b !! s = Some sb -> s_active sb = false ->
    tr b c PRecvCheck ChGo b (recv_return c (Err BrokerErrSubscriptionInactive)) None []
| tr_recv_ctx c ctx s o d : recv_args c = Some (ctx, s, o) -> ctx ∈ bs_cancelled b ->
    tr b c (PRecvWait d) ChCtx b (recv_return c (Ok None)) None []
| tr_recv_timeout c d : (d <= bs_now b)%Z ->
    tr b c (PRecvWait d) ChTimeout b PRecvDrop None []
| tr_recv_exit c ctx s o sb e d : recv_args c = Some (ctx, s, o) -> bs_heap b !! s = Some sb ->
    q_exit (s_queue sb) = Some e -> e ∈ bs_closed b ->
    tr b c (PRecvWait d) ChExit b (recv_return c (Ok None)) None []
| tr_recv_subexit c ctx s o sb d : recv_args c = Some (ctx, s, o) -> bs_heap b !! s = Some sb ->
    s_exit sb ∈ bs_closed b ->
    tr b c (PRecvWait d) ChSubExit b (recv_return c (Ok None)) None []
| tr_recv_msg c ctx s o sb d m buf : recv_args c = Some (ctx, s, o) -> bs_heap b !! s = Some sb ->
    bs_msgs b !! q_msg (s_queue sb) = Some (m :: buf) ->
    tr b c (PRecvWait d) ChRecv (set_msgs b (<[q_msg (s_queue sb) := buf]> (bs_msgs b)))
       (PRecvHandle m) None [ATake (q_msg (s_queue sb)) m; AHandle m]
| tr_drop_msg c ctx s o sb m buf : recv_args c = Some (ctx, s, o) -> bs_heap b !! s = Some sb ->
    bs_msgs b !! q_msg (s_queue sb) = Some (m :: buf) ->
    tr b c PRecvDrop ChRecv (set_msgs b (<[q_msg (s_queue sb) := buf]> (bs_msgs b)))
       (recv_return c (Err BrokerErrTimeout)) None [ATake (q_msg (s_queue sb)) m]
| tr_drop_none c ctx s o sb : recv_args c = Some (ctx, s, o) -> bs_heap b !! s = Some sb ->
    default [] (bs_msgs b !! q_msg (s_queue sb)) = [] ->
    tr b c PRecvDrop ChDefault b (recv_return c (Err BrokerErrTimeout)) None []
| tr_handle c m e :
    tr b c (PRecvHandle m) (ChHandler e) b (recv_return c (answer e)) None [AHandled e]
| tr_run_exit c :
    tr b c PRunExit ChGo b (PRunCtl (m_exit (bs_mem b))) None []
| tr_run_ctl c e :
    tr b c (PRunCtl e) ChGo b (PRunWait e (m_ctl (bs_mem b))) None []
| tr_run_ctx ctx e ctl : ctx ∈ bs_cancelled b ->
    tr b (CRun ctx) (PRunWait e ctl) ChCtx b PCloseGo None []
| tr_run_done c e ctl : e ∈ bs_closed b ->
    tr b c (PRunWait (Some e) ctl) ChExit b PCloseGo None []
| tr_run_recv c e ctl id t buf : bs_ctls b !! ctl = Some ((id, t) :: buf) ->
    tr b c (PRunWait e (Some ctl)) ChRecv (set_ctls b (<[ctl := buf]> (bs_ctls b))) (PRunDel id t) None []
| tr_run_del c id t inner : bs_locked b = false -> m_subs (bs_mem b) !! t = Some inner ->
    tr b c (PRunDel id t) ChGo
       (set_mem b (mem_subs (bs_mem b) (<[t := delete id inner]> (m_subs (bs_mem b))))) PRunExit None []
| tr_run_nodel c id t : bs_locked b = false -> m_subs (bs_mem b) !! t = None ->
    tr b c (PRunDel id t) ChGo b PRunExit None [].

Lemma sub_make_2 b t : (sub_make b t).2 = length (bs_heap b).
Proof.
  unfold sub_make, get_queue. simpl.
  destruct (m_topics (bs_mem b) !! t); simpl; done.
Qed.

Lemma tstep_tr b c p ch o :
  tstep b c p ch = Some o -> tr b c p ch (o_st o) (o_pc o) (o_spawn o) (o_acts o).
Proof.
  intros H.
  destruct p, ch; try discriminate H.
  - (* open check *)
    cbn in H. destruct (bs_locked b) eqn:?; [done|]. destruct (m_connected (bs_mem b)) eqn:?; simplify_eq/=.
    + by apply tr_open_con.
    + by apply tr_open_chk.
  - cbn in H. destruct (bs_locked b) eqn:?; [done|]. simplify_eq/=. by apply tr_open_set.
  - cbn in H. destruct c; simplify_eq/=. apply tr_open_ctl.
  - cbn in H. destruct (bs_locked b) eqn:?; [done|].
    unfold mem_close in H. destruct (m_connected (bs_mem b)) eqn:?; simplify_eq/=; [|by apply tr_close_not].
    unfold chan_closed. destruct (m_exit (bs_mem b)) as [e|] eqn:?; simplify_eq/=.
    + case_bool_decide; simplify_eq/=.
      * apply tr_close_panic; auto. intros; by simplify_eq.
      * pose proof (tr_close b c e) as G. unfold close_st in G. rewrite Heqo in G. by apply G.
    + apply tr_close_panic; auto. intros; by simplify_eq.
  - cbn in H. destruct (bs_locked b) eqn:?; [done|]. destruct (m_connected (bs_mem b)) eqn:?; simplify_eq/=.
    + by apply tr_pub_chk.
    + by apply tr_pub_not.
  - cbn in H. destruct (bs_locked b) eqn:?; [done|]. destruct c; try done.
    destruct (get_queue b topic) as [q b'] eqn:E; simplify_eq/=.
    pose proof (tr_pub_queue b ctx topic m opts) as G. rewrite E in G. by apply G.
  - cbn in H. destruct c; simplify_eq/=. apply tr_pub_sel.
  - cbn in H. destruct c; try done. unfold ctx_done in H. case_bool_decide; simplify_eq/=. by apply tr_pub_ctx.
  - cbn in H. unfold chan_closed in H. destruct e; try done. case_bool_decide; simplify_eq/=. by apply tr_pub_exit.
  - cbn in H. destruct (Z.leb_spec deadline (bs_now b)); simplify_eq/=. by apply tr_pub_timeout.
  - cbn [tstep] in H. destruct c; try done. destruct (bs_msgs b !! q_msg q) eqn:?; try done.
    destruct (Nat.ltb_spec (length l) (cap b)); simplify_eq/=. by eapply tr_pub_send.
  - cbn in H. destruct (bs_locked b) eqn:?; [done|]. destruct (m_connected (bs_mem b)) eqn:?; simplify_eq/=.
    + by apply tr_sub_chk.
    + by apply tr_sub_not.
  - cbn [tstep] in H. destruct (bs_locked b) eqn:?; [done|]. destruct c; try done.
    pose proof (tr_sub_make b topic Heqb0) as G. rewrite <- (sub_make_2 b topic) in G.
    unfold sub_make in G.
    destruct (get_queue (set_cnt b (S (bs_cnt b))) topic) as [q b'] eqn:E.
    destruct (make_exit b') as [e b''] eqn:E'. simplify_eq/=. exact G.
  - cbn in H. destruct c; try done. destruct (bs_heap b !! s) eqn:?; try done.
    destruct (s_active s0) eqn:?; simplify_eq/=.
    + by eapply tr_unsub_act.
    + by eapply tr_unsub_inact.
  - cbn in H. destruct c; try done. destruct (bs_heap b !! s) eqn:?; try done.
    case_bool_decide; simplify_eq/=.
    + by eapply tr_unsub_panic.
    + by eapply tr_unsub_close.
  - cbn in H. destruct c; try done. destruct (bs_heap b !! s) eqn:?; simplify_eq/=. by eapply tr_unsub_set.
  - cbn in H. destruct c; simplify_eq/=. apply tr_unsub_spawn.
  - cbn in H. destruct c; try done. destruct (bs_heap b !! s) eqn:?; try done.
    unfold chan_closed in H. destruct (q_exit (s_queue s0)) eqn:?; try done.
    case_bool_decide; simplify_eq/=. by eapply tr_async_exit.
  - cbn [tstep] in H. destruct c; try done. destruct (bs_heap b !! s) eqn:?; try done.
    destruct (s_ctl s0) eqn:?; try done.
    destruct (Nat.ltb_spec (length (default [] (bs_ctls b !! n))) (Z.to_nat default_size)); simplify_eq/=.
    by eapply tr_async_send.
  - cbn in H. destruct (recv_args c) as [[[]]|] eqn:?; try done. destruct (bs_heap b !! n0) eqn:?; try done.
    destruct (s_active s) eqn:?; simplify_eq/=.
    + by eapply tr_recv_act.
    + by eapply tr_recv_inact.
  - cbn in H. destruct (recv_args c) as [[[]]|] eqn:?; try done.
    unfold ctx_done in H. case_bool_decide; simplify_eq/=. by eapply tr_recv_ctx.
  - cbn in H. destruct (recv_args c) as [[[]]|] eqn:?; try done. destruct (bs_heap b !! n0) eqn:?; try done.
    unfold chan_closed in H. destruct (q_exit (s_queue s)) eqn:?; try done.
    case_bool_decide; simplify_eq/=. by eapply tr_recv_exit.
  - cbn in H. destruct (Z.leb_spec deadline (bs_now b)); simplify_eq/=. by apply tr_recv_timeout.
  - cbn in H. destruct (recv_args c) as [[[]]|] eqn:?; try done. destruct (bs_heap b !! n0) eqn:?; try done.
    destruct (bs_msgs b !! q_msg (s_queue s)) as [[|]|] eqn:?; simplify_eq/=. by eapply tr_recv_msg.
  - cbn in H. destruct (recv_args c) as [[[]]|] eqn:?; try done. destruct (bs_heap b !! n0) eqn:?; try done.
    case_bool_decide; simplify_eq/=. by eapply tr_recv_subexit.
  - cbn in H. destruct (recv_args c) as [[[]]|] eqn:?; try done. destruct (bs_heap b !! n0) eqn:?; try done.
    destruct (bs_msgs b !! q_msg (s_queue s)) as [[|]|] eqn:?; simplify_eq/=. by eapply tr_drop_msg.
  - cbn in H. destruct (recv_args c) as [[[]]|] eqn:?; try done. destruct (bs_heap b !! n0) eqn:?; try done.
    destruct (bs_msgs b !! q_msg (s_queue s)) as [[|]|] eqn:Em; simplify_eq/=.
    + eapply tr_drop_none; eauto. by rewrite Em.
    + eapply tr_drop_none; eauto. by rewrite Em.
  - cbn in H. simplify_eq/=. apply tr_handle.
  - cbn in H. simplify_eq/=. apply tr_run_exit.
  - cbn in H. simplify_eq/=. apply tr_run_ctl.
  - cbn in H. destruct c; try done. unfold ctx_done in H. case_bool_decide; simplify_eq/=. by apply tr_run_ctx.
  - cbn in H. unfold chan_closed in H. destruct e; try done. case_bool_decide; simplify_eq/=. by apply tr_run_done.
  - cbn in H. destruct ctl; try done. destruct (bs_ctls b !! n) as [[|[]]|] eqn:?; simplify_eq/=. by eapply tr_run_recv.
  - cbn in H. destruct (bs_locked b) eqn:?; [done|]. destruct (m_subs (bs_mem b) !! topic) eqn:?; simplify_eq/=.
    + by eapply tr_run_del.
    + by eapply tr_run_nodel.
Qed.

(** Steps of the whole machine. *)
Inductive step (cf : bconf) : label -> bconf -> list event -> Prop :=
| st_call c : client (bc_st cf) c = true ->
    step cf (LCall c) (BConf (bc_st cf) (bc_ths cf ++ [(c, pc_start c)])) [ECall (length (bc_ths cf)) c]
| st_cancel ctx :
    step cf (LCancel ctx) (BConf (set_cancelled (bc_st cf) ({[ctx]} ∪ bs_cancelled (bc_st cf))) (bc_ths cf)) [ECancel ctx]
| st_tick d :
    step cf (LTick d) (BConf (set_now (bc_st cf) (bs_now (bc_st cf) + Z.of_N d)) (bc_ths cf)) [ETick d]
| st_step i ch c p b' p' sp acts : bc_ths cf !! i = Some (c, p) ->
    tr (bc_st cf) c p ch b' p' sp acts ->
    step cf (LStep i ch) (BConf b' (<[i := (c, p')]> (bc_ths cf) ++ spawned sp))
      ((EAct i <$> acts) ++ ret_event i p')
| st_meet i j ctx t m o q e d cj ctxj s oj sb dj :
    bc_ths cf !! i = Some (CPub ctx t m o, PPubWait q e d) ->
    bc_ths cf !! j = Some (cj, PRecvWait dj) ->
    recv_args cj = Some (ctxj, s, oj) -> bs_heap (bc_st cf) !! s = Some sb ->
    cap (bc_st cf) = 0 -> q_msg (s_queue sb) = q_msg q ->
    step cf (LMeet i j)
      (BConf (bc_st cf) (<[j := (cj, PRecvHandle m)]> (<[i := (CPub ctx t m o, PDone (Ok None))]> (bc_ths cf))))
      [EAct i (ASend (q_msg q) m); ERet i (Ok None); EAct j (ATake (q_msg q) m); EAct j (AHandle m)]
| st_meet_drop i j ctx t m o q e d cj ctxj s oj sb :
    bc_ths cf !! i = Some (CPub ctx t m o, PPubWait q e d) ->
    bc_ths cf !! j = Some (cj, PRecvDrop) ->
    recv_args cj = Some (ctxj, s, oj) -> bs_heap (bc_st cf) !! s = Some sb ->
    cap (bc_st cf) = 0 -> q_msg (s_queue sb) = q_msg q ->
    step cf (LMeet i j)
      (BConf (bc_st cf) (<[j := (cj, PDone (Err BrokerErrTimeout))]> (<[i := (CPub ctx t m o, PDone (Ok None))]> (bc_ths cf))))
      [EAct i (ASend (q_msg q) m); ERet i (Ok None); EAct j (ATake (q_msg q) m); ERet j (Err BrokerErrTimeout)].

Lemma recv_return_err c e : recv_return c (Err e) = PDone (Err e).
Proof. by destruct c. Qed.

Lemma bstep_step cf l cf' es : bstep cf l = Some (cf', es) -> step cf l cf' es.
Proof.
  unfold bstep. destruct (crashed cf); [done|]. intros H.
  destruct l.
  - destruct (client (bc_st cf) c) eqn:?; simplify_eq. by apply st_call.
  - simplify_eq. apply st_cancel.
  - simplify_eq. apply st_tick.
  - destruct (bc_ths cf !! i) as [[c p]|] eqn:?; try done.
    destruct (tstep (bc_st cf) c p ch) eqn:E; simplify_eq. eapply st_step; eauto. by apply tstep_tr.
  - destruct (bc_ths cf !! i) as [[ci pi]|] eqn:?; [|done].
    destruct ci; try done. destruct pi; try done.
    destruct (bc_ths cf !! j) as [[cj pj]|] eqn:?; [|done].
    destruct (recv_args cj) as [[[]]|] eqn:?; [|done].
    destruct (bs_heap (bc_st cf) !! n0) eqn:?; [|done].
    destruct (Nat.eqb_spec (cap (bc_st cf)) 0); [|done].
    case_bool_decide; [|done]. simpl in H.
    destruct pj; try done; simplify_eq.
    + by eapply st_meet.
    + rewrite recv_return_err. by eapply st_meet_drop.
Qed.

Lemma bexec_app cf ls ls' :
  bexec cf (ls ++ ls') =
    match bexec cf ls with
    | Some (cf1, es1) =>
        match bexec cf1 ls' with Some (cf2, es2) => Some (cf2, es1 ++ es2) | None => None end
    | None => None
    end.
Proof.
  revert cf. induction ls as [|l ls IH]; intros cf; simpl.
  - by destruct (bexec cf ls') as [[]|].
  - destruct (bstep cf l) as [[cf1 es1]|]; [|done]. rewrite IH.
    destruct (bexec cf1 ls) as [[cf2 es2]|]; [|done].
    destruct (bexec cf2 ls') as [[cf3 es3]|]; [|done]. by rewrite app_assoc.
Qed.

Section induction.
  Context (I : bconf -> list event -> Prop).
  Lemma bexec_ind_from cf0 es0 ls cf es :
    (forall cf es l cf' es', I cf es -> crashed cf = false -> step cf l cf' es' -> I cf' (es ++ es')) ->
    I cf0 es0 -> bexec cf0 ls = Some (cf, es) -> I cf (es0 ++ es).
  Proof.
    intros Hs. revert cf0 es0 es. induction ls as [|l ls IH]; intros cf0 es0 es H0 H; simpl in H.
    - simplify_eq. by rewrite app_nil_r.
    - destruct (bstep cf0 l) as [[cf1 es1]|] eqn:E; [|done].
      destruct (bexec cf1 ls) as [[cf2 es2]|] eqn:E2; [|done]. simplify_eq.
      rewrite app_assoc. eapply IH; [|done]. eapply Hs; eauto.
      + unfold bstep in E. by destruct (crashed cf0).
      + by apply bstep_step.
  Qed.
  Lemma bexec_ind uuid opts ls cf es :
    I (broker_init uuid opts) [] ->
    (forall cf es l cf' es', I cf es -> crashed cf = false -> step cf l cf' es' -> I cf' (es ++ es')) ->
    bexec (broker_init uuid opts) ls = Some (cf, es) -> I cf es.
  Proof. intros H0 Hs H. apply (bexec_ind_from _ _ _ _ _ Hs H0 H). Qed.
End induction.

(** Threads after a step. *)
Lemma ths_step ths i c p' sp k x :
  i < length ths ->
  ((<[i := (c, p')]> ths ++ spawned sp) !! k = Some x <->
   (k = i /\ x = (c, p')) \/ (k <> i /\ ths !! k = Some x) \/
   (k = length ths /\ exists c0, sp = Some c0 /\ x = (c0, pc_start c0))).
Proof.
  intros Hi. destruct (decide (k < length ths)) as [Hk|Hk].
  - rewrite lookup_app_l by by rewrite insert_length.
    destruct (decide (k = i)) as [->|Hn].
    + rewrite list_lookup_insert by done. split.
      * intros [= <-]. by left.
      * intros [[_ ->]|[[? _]|[-> _]]]; [done|done|lia].
    + rewrite list_lookup_insert_ne by done. split.
      * intros H. right. left. done.
      * intros [[? _]|[[_ ?]|[-> _]]]; [done|done|lia].
  - rewrite lookup_app_r by (rewrite insert_length; lia). rewrite insert_length. split.
    + intros H. right. right. destruct sp as [c0|]; simpl in H.
      * destruct (k - length ths) eqn:E; simpl in H; [|done]. split; [lia|]. exists c0. by simplify_eq.
      * done.
    + intros [[-> _]|[[_ H]|[-> (c0 & -> & ->)]]].
      * lia.
      * apply lookup_lt_Some in H. lia.
      * by rewrite Nat.sub_diag.
Qed.

Lemma ths_meet ths i j (x y z : call * pc) k :
  i < length ths -> j < length ths -> i <> j ->
  (<[j := y]> (<[i := x]> ths) !! k = Some z <->
   (k = j /\ z = y) \/ (k = i /\ z = x) \/ (k <> i /\ k <> j /\ ths !! k = Some z)).
Proof.
  intros Hi Hj Hn. destruct (decide (k = j)) as [->|Hj'].
  - rewrite list_lookup_insert by by rewrite insert_length. naive_solver.
  - rewrite list_lookup_insert_ne by done. destruct (decide (k = i)) as [->|Hi'].
    + rewrite list_lookup_insert by done. naive_solver.
    + rewrite list_lookup_insert_ne by done. naive_solver.
Qed.

Lemma ths_call ths (x y : call * pc) k :
  (ths ++ [x]) !! k = Some y <-> ths !! k = Some y \/ (k = length ths /\ y = x).
Proof.
  rewrite lookup_app_Some. rewrite list_lookup_singleton_Some. split.
  - intros [?|(? & ? & ->)]; [by left|right]. split; [lia|done].
  - intros [?|(-> & ->)]; [by left|right]. split; [lia|]. split; [lia|done].
Qed.

(** Which program points a call can be at. *)
Definition is_client (c : call) : bool := match c with CRun _ | CAsync _ => false | _ => true end.
Definition wf_res (c : call) (r : result) : bool :=
  match c, r with
  | CSub _, Ok (Some _) | CSub _, Err BrokerErrNotConnected => true
  | CSub _, _ => false
  | COpen _, Ok None | CClose, Ok None | CUnsub _, Ok None | CRun _, Ok None | CAsync _, Ok None => true
  | CPub _ _ _ _, Ok None | CPub _ _ _ _, Err BrokerErrNotConnected | CPub _ _ _ _, Err BrokerErrTimeout => true
  | CRecv _ _ _, Ok None | CRecv _ _ _, Err BrokerErrTimeout
  | CRecv _ _ _, Err BrokerErrSubscriptionInactive | CRecv _ _ _, Err (EForeign _) => true
  | CDigest _ _, Err BrokerErrTimeout
  | CDigest _ _, Err BrokerErrSubscriptionInactive | CDigest _ _, Err (EForeign _) => true
  | _, _ => false
  end.
Definition wf_pc (c : call) (p : pc) : bool :=
  match p, c with
  | POpenCheck, COpen _ | POpenSet, COpen _ | POpenCtl, COpen _ => true
  | PCloseGo, CClose | PCloseGo, CPub _ _ _ _ | PCloseGo, CRun _ => true
  | PPubCheck, CPub _ _ _ _ | PPubQueue, CPub _ _ _ _ | PPubSel _, CPub _ _ _ _ | PPubWait _ _ _, CPub _ _ _ _ => true
  | PSubCheck, CSub _ | PSubMake, CSub _ => true
  | PUnsubCheck, CUnsub _ | PUnsubClose, CUnsub _ | PUnsubSet, CUnsub _ | PUnsubSpawn, CUnsub _ => true
  | PAsync, CAsync _ => true
  | PRecvCheck, CRecv _ _ _ | PRecvWait _, CRecv _ _ _ | PRecvDrop, CRecv _ _ _ | PRecvHandle _, CRecv _ _ _ => true
  | PRecvCheck, CDigest _ _ | PRecvWait _, CDigest _ _ | PRecvDrop, CDigest _ _ | PRecvHandle _, CDigest _ _ => true
  | PRunExit, CRun _ | PRunCtl _, CRun _ | PRunWait _ _, CRun _ | PRunDel _ _, CRun _ => true
  | PDone r, c => wf_res c r
  | PPanicked _, CClose | PPanicked _, CPub _ _ _ _ | PPanicked _, CRun _ | PPanicked _, CUnsub _ => true
  | _, _ => false
  end.

Lemma wf_pc_start c : wf_pc c (pc_start c).
Proof. by destruct c. Qed.
Lemma wf_pc_tr b c p ch b' p' sp acts : tr b c p ch b' p' sp acts -> wf_pc c p -> wf_pc c p'.
Proof.
  destruct 1; simpl; try done; destruct c; try done; intros _; destruct e; done.
Qed.
Lemma tr_spawn b c p ch b' p' c0 acts : tr b c p ch b' p' (Some c0) acts -> is_client c0 = false.
Proof. by inversion 1. Qed.

(** Calls and returns in the record match the goroutines. *)
Record base (cf : bconf) (es : list event) : Prop := {
  base_wf : forall i c p, bc_ths cf !! i = Some (c, p) -> wf_pc c p;
  base_call : forall i c, ECall i c ∈ es <-> is_client c /\ exists p, bc_ths cf !! i = Some (c, p);
  base_ret : forall i r, ERet i r ∈ es <-> exists c, bc_ths cf !! i = Some (c, PDone r);
  base_act : forall i a, EAct i a ∈ es -> i < length (bc_ths cf);
}.

Lemma elem_acts_call acts i j c p : ECall j c ∈ (EAct i <$> acts) ++ ret_event i p -> False.
Proof.
  rewrite elem_of_app, elem_of_list_fmap. intros [(a & ? & _)|H]; [done|].
  destruct p; simpl in H; set_solver.
Qed.
Lemma elem_acts_ret acts i j r p : ERet j r ∈ (EAct i <$> acts) ++ ret_event i p <-> j = i /\ p = PDone r.
Proof.
  rewrite elem_of_app, elem_of_list_fmap. split.
  - intros [(a & ? & _)|H]; [done|]. destruct p; simpl in H; set_solver.
  - intros [-> ->]. right. simpl. set_solver.
Qed.
Lemma elem_acts_act acts i j a p : EAct j a ∈ (EAct i <$> acts) ++ ret_event i p <-> j = i /\ a ∈ acts.
Proof.
  rewrite elem_of_app, elem_of_list_fmap. split.
  - intros [(a' & ? & ?)|H]; [naive_solver|]. destruct p; simpl in H; set_solver.
  - intros [-> ?]. left. eauto.
Qed.
Lemma elem_acts_cancel acts i j p : ECancel j ∈ (EAct i <$> acts) ++ ret_event i p -> False.
Proof.
  rewrite elem_of_app, elem_of_list_fmap. intros [(a & ? & _)|H]; [done|].
  destruct p; simpl in H; set_solver.
Qed.

Lemma meet_ne cf i j ci pi cj pj :
  bc_ths cf !! i = Some (ci, pi) -> bc_ths cf !! j = Some (cj, pj) -> pi <> pj -> i <> j.
Proof. intros ? ? ? ->. by simplify_eq. Qed.
Lemma tr_not_done b c p ch b' p' sp acts r : tr b c p ch b' p' sp acts -> p <> PDone r.
Proof. by destruct 1. Qed.

Lemma base_step cf es l cf' es' : base cf es -> step cf l cf' es' -> base cf' (es ++ es').
Proof.
  intros B Hst. destruct Hst as [c Hc|ctx|d|i ch c p b' p' sp acts Hi Ht|
    i j ctx t m o q e d cj ctxj s oj sb dj Hi Hj Ha Hs Hcap Hq|
    i j ctx t m o q e d cj ctxj s oj sb Hi Hj Ha Hs Hcap Hq].
  - split; simpl.
    + intros i c' p. rewrite ths_call. intros [H|[-> [= -> ->]]]; [by eapply base_wf|apply wf_pc_start].
    + intros i c'. rewrite elem_of_app, (base_call _ _ B), elem_of_list_singleton. split.
      * intros [(? & p & Hp)|[= -> ->]]; (split; [try done|]).
        -- exists p. rewrite ths_call. by left.
        -- destruct c; done.
        -- exists (pc_start c). rewrite ths_call. by right.
      * intros (Hcl & p & Hp). rewrite ths_call in Hp. destruct Hp as [Hp|[-> [= -> ->]]]; [left; eauto|by right].
    + intros i r. rewrite elem_of_app, (base_ret _ _ B), elem_of_list_singleton. split.
      * intros [(c' & Hc')|?]; [|done]. exists c'. rewrite ths_call. by left.
      * intros (c' & H). rewrite ths_call in H. destruct H as [H|[-> [= -> H]]]; [left; eauto|]. by destruct c.
    + intros i a. rewrite elem_of_app, elem_of_list_singleton. intros [H|?]; [|done].
      apply (base_act _ _ B) in H. rewrite app_length. lia.
  - split; simpl.
    + apply (base_wf _ _ B).
    + intros i c. rewrite elem_of_app, (base_call _ _ B), elem_of_list_singleton. naive_solver.
    + intros i r. rewrite elem_of_app, (base_ret _ _ B), elem_of_list_singleton. naive_solver.
    + intros i a. rewrite elem_of_app, elem_of_list_singleton. intros [H|?]; [|done]. by apply (base_act _ _ B) in H.
  - split; simpl.
    + apply (base_wf _ _ B).
    + intros i c. rewrite elem_of_app, (base_call _ _ B), elem_of_list_singleton. naive_solver.
    + intros i r. rewrite elem_of_app, (base_ret _ _ B), elem_of_list_singleton. naive_solver.
    + intros i a. rewrite elem_of_app, elem_of_list_singleton. intros [H|?]; [|done]. by apply (base_act _ _ B) in H.
  - assert (Hlt : i < length (bc_ths cf)) by by eapply lookup_lt_Some.
    split; simpl.
    + intros k c' p0. rewrite ths_step by done. intros [[-> [= -> ->]]|[[? ?]|[-> (c0 & -> & [= -> ->])]]].
      * eapply wf_pc_tr; eauto. by eapply base_wf.
      * by eapply base_wf.
      * apply wf_pc_start.
    + intros k c'. rewrite elem_of_app, (base_call _ _ B). split.
      * intros [(Hcl & p0 & Hp)|H]; [|by apply elem_acts_call in H]. split; [done|].
        destruct (decide (k = i)) as [->|].
        -- exists p'. rewrite ths_step by done. left. by simplify_eq.
        -- exists p0. rewrite ths_step by done. by right; left.
      * intros (Hcl & p0 & Hp). left. split; [done|]. rewrite ths_step in Hp by done.
        destruct Hp as [[-> [= -> ->]]|[[? ?]|[-> (c0 & -> & [= -> ->])]]]; eauto.
        apply tr_spawn in Ht. by rewrite Ht in Hcl.
    + intros k r. rewrite elem_of_app, (base_ret _ _ B), elem_acts_ret. split.
      * intros [(c' & Hc')|[-> ->]].
        -- exists c'. rewrite ths_step by done. right; left. split; [|done].
           intros ->. simplify_eq. by eapply tr_not_done.
        -- exists c. rewrite ths_step by done. by left.
      * intros (c' & H). rewrite ths_step in H by done.
        destruct H as [[-> [= -> ->]]|[[? ?]|[-> (c0 & -> & [= -> H])]]]; [by right|left; eauto|].
        by destruct c0.
    + intros k a. rewrite elem_of_app, elem_acts_act. rewrite app_length, insert_length.
      intros [H|[-> _]]; [|lia]. apply (base_act _ _ B) in H. lia.
  - assert (Hlti : i < length (bc_ths cf)) by by eapply lookup_lt_Some.
    assert (Hltj : j < length (bc_ths cf)) by by eapply lookup_lt_Some.
    assert (Hne : i <> j) by by eapply meet_ne.
    assert (Hw := base_wf _ _ B _ _ _ Hj).
    split; simpl.
    + intros k c' p0. rewrite ths_meet by done. intros [[-> [= -> ->]]|[[-> [= -> ->]]|(? & ? & ?)]].
      * by destruct cj.
      * done.
      * by eapply base_wf.
    + intros k c'. rewrite elem_of_app, (base_call _ _ B). split.
      * intros [(Hcl & p0 & Hp)|H]; [|set_solver]. split; [done|].
        destruct (decide (k = i)) as [->|]; [|destruct (decide (k = j)) as [->|]]; simplify_eq;
          eexists; rewrite ths_meet by done; eauto.
      * intros (Hcl & p0 & Hp). left. split; [done|]. rewrite ths_meet in Hp by done. naive_solver.
    + intros k r. rewrite elem_of_app, (base_ret _ _ B). split.
      * intros [(c' & Hc')|H].
        -- exists c'. rewrite ths_meet by done. right; right. split_and!; [| |done]; intros ->; by simplify_eq.
        -- assert (k = i /\ r = Ok None) as [-> ->] by set_solver. eexists. rewrite ths_meet by done. eauto.
      * intros (c' & H). rewrite ths_meet in H by done.
        destruct H as [[-> [= ]]|[[-> [= -> ->]]|(? & ? & ?)]]; [right; set_solver|left; eauto].
    + intros k a. rewrite elem_of_app, !insert_length. intros [H|H]; [by apply (base_act _ _ B) in H|].
      assert (k = i \/ k = j) as [-> | ->] by set_solver; done.
  - assert (Hlti : i < length (bc_ths cf)) by by eapply lookup_lt_Some.
    assert (Hltj : j < length (bc_ths cf)) by by eapply lookup_lt_Some.
    assert (Hne : i <> j) by by eapply meet_ne.
    assert (Hw := base_wf _ _ B _ _ _ Hj).
    split; simpl.
    + intros k c' p0. rewrite ths_meet by done. intros [[-> [= -> ->]]|[[-> [= -> ->]]|(? & ? & ?)]].
      * by destruct cj.
      * done.
      * by eapply base_wf.
    + intros k c'. rewrite elem_of_app, (base_call _ _ B). split.
      * intros [(Hcl & p0 & Hp)|H]; [|set_solver]. split; [done|].
        destruct (decide (k = i)) as [->|]; [|destruct (decide (k = j)) as [->|]]; simplify_eq;
          eexists; rewrite ths_meet by done; eauto.
      * intros (Hcl & p0 & Hp). left. split; [done|]. rewrite ths_meet in Hp by done. naive_solver.
    + intros k r. rewrite elem_of_app, (base_ret _ _ B). split.
      * intros [(c' & Hc')|H].
        -- exists c'. rewrite ths_meet by done. right; right. split_and!; [| |done]; intros ->; by simplify_eq.
        -- assert ((k = i /\ r = Ok None) \/ (k = j /\ r = Err BrokerErrTimeout)) as [[-> ->]|[-> ->]] by set_solver;
             eexists; rewrite ths_meet by done; eauto.
      * intros (c' & H). rewrite ths_meet in H by done.
        destruct H as [[-> [= -> ->]]|[[-> [= -> ->]]|(? & ? & ?)]]; [right; set_solver|right; set_solver|left; eauto].
    + intros k a. rewrite elem_of_app, !insert_length. intros [H|H]; [by apply (base_act _ _ B) in H|].
      assert (k = i \/ k = j) as [-> | ->] by set_solver; done.
Qed.
Lemma base_init uuid opts : base (broker_init uuid opts) [].
Proof. split; simpl; intros; try done; set_solver. Qed.

(** Two invariants together. *)
Lemma with_base (I : bconf -> list event -> Prop) uuid opts ls cf es :
  I (broker_init uuid opts) [] ->
  (forall cf es l cf' es', base cf es -> I cf es -> crashed cf = false -> step cf l cf' es' -> I cf' (es ++ es')) ->
  bexec (broker_init uuid opts) ls = Some (cf, es) -> base cf es /\ I cf es.
Proof.
  intros H0 Hs. apply (bexec_ind (fun cf es => base cf es /\ I cf es)).
  - split; [apply base_init|done].
  - intros cf1 es1 l cf2 es2 [? ?] ? ?. split; [by eapply base_step|by eapply Hs].
Qed.
