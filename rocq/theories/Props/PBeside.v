(** C106: direct calls on the graph of a store beside store calls. *)
From Verif.Model Require Import Conc Beside.
From Verif.Spec Require Import GraphSpec StoreSpec LinSpec ConcSpec.
From Verif.Proof Require Import GraphP StoreP LinP ConcP ConcP2 BesideP BesideP2.
From Verif.Props Require Import PGraph PStore PConc PConc2.

(** the full statement: the graph that Memory.Graph returns may be used like the store *)
Definition c106_full : Prop :=
  forall dir o x todo, store_start dir x ->
    linearization (mixed_prog o) (mixed_call o) x todo /\
    forall c, reachable (mixed_prog o) x todo c -> ~ deadlocked (mixed_prog o) c /\ ~ sgraph_race c.

(** ** with reading calls only *)
(** the store calls of a goroutine *)
Definition store_calls (l : list mcall) : list stcall := omap left_call l.
Definition store_results (l : list (mcall * mret)) : list (stcall * sret) := omap left_ret l.
(** Node, Nodes, Edge, Edges and From *)
Definition read_only (c : mcall) : Prop :=
  match c with inl _ => True | inr q => match q.2 with QNode _ | QNodes | QEdge _ _ | QEdges | QFrom _ => True | _ => False end end.
Definition enough_ids (k : Z) (x : sstate) (todo : list (list mcall)) : Prop :=
  cap k (s_g x.2) /\
  (k + Z.of_nat (total (sumc (fun c : stcall => adds c.2)) ((fun l : list mcall => store_calls l) <$> todo)) <= max_int64)%Z.
(** The store calls return what they return in an execution without the readers,
    and leave the same state.  A reading call returns what the sequential call
    returns in a state of that execution, reached when its goroutine has made
    exactly the store calls that come before. *)
Theorem c106_readers_partial :
  forall dir o x todo k c,
    tidy dir (s_g x.2) -> enough_ids k x todo -> Forall (Forall read_only) todo ->
    reachable (mixed_prog o) x todo c ->
    exists sched e,
      exec (store_prog o) (conf_init x ((fun l : list mcall => store_calls l) <$> todo)) sched = Some e /\
      c_sh e = c_sh c /\
      forall i t, c_ths c !! i = Some t ->
        (exists t', c_ths e !! i = Some t' /\ t_done t' = store_results (t_done t)) /\
        forall l1 q r l2, t_done t = l1 ++ (inr q, r) :: l2 ->
          exists n e' t', exec (store_prog o) (conf_init x ((fun l : list mcall => store_calls l) <$> todo)) (take n sched) = Some e' /\
            c_ths e' !! i = Some t' /\ t_cur t' = None /\ t_done t' = store_results l1 /\
            r = (mixed_call o (inr q) (c_sh e')).1.
Proof.
  intros dir o x todo k c Ht [Hc Hk] A Hr.
  assert (NF : forall e, reachable (store_prog o) x (left_todo todo) e -> ~ returned sfatal e).
  { intros e He. eapply store_not_fatal; eauto. }
  destruct (sim_reach o x todo NF c A Hr) as (sched & e & la & lh & le & H).
  exists sched, e. split; [exact (sm_exec _ _ _ _ _ _ _ _ _ H)|]. split; [exact (sm_sh _ _ _ _ _ _ _ _ _ H)|].
  intros i t Et.
  assert (Ht' : exists t', c_ths e !! i = Some t').
  { apply lookup_lt_is_Some. rewrite (sm_len _ _ _ _ _ _ _ _ _ H). eapply lookup_lt_Some; eauto. }
  destruct Ht' as [t' Et']. destruct (sm_ths _ _ _ _ _ _ _ _ _ H _ _ _ Et Et') as (_ & Td & Tv & _).
  split; [eauto|]. intros l1 q r l2 El. destruct (Tv _ _ _ _ El) as (r' & -> & s1 & s2 & e' & t1 & -> & E1 & E2 & E3 & E4 & ->).
  exists (length s1), e', t1. rewrite take_app. split_and!; auto.
  cbn [mixed_call]. unfold reads_off. by destruct (graph_call o q _).
Qed.
Print Assumptions c106_readers_partial.
Theorem c106_no_deadlock_partial :
  forall dir o x todo k c,
    tidy dir (s_g x.2) -> enough_ids k x todo -> Forall (Forall read_only) todo ->
    reachable (mixed_prog o) x todo c -> ~ deadlocked (mixed_prog o) c /\ ~ sgraph_race c.
Proof.
  intros dir o x todo k c Ht [Hc Hk] A Hr.
  assert (NF : forall e, reachable (store_prog o) x (left_todo todo) e -> ~ returned sfatal e).
  { intros e He. eapply store_not_fatal; eauto. }
  destruct (sim_reach o x todo NF c A Hr) as (sched & e & la & lh & le & H). pose proof (sm_c _ _ _ _ _ _ _ _ _ H) as I.
  split; [apply not_deadlocked; by eapply tinv_progress|by eapply tinv_race].
Qed.
Print Assumptions c106_no_deadlock_partial.

(** no BulkAdd, BulkDelete, BulkLink and BulkUnlink *)
Definition no_bulk_change (c : mcall) : Prop :=
  match c with
  | inl x => match x.2 with SBulkAdd _ _ | SBulkDelete _ | SBulkLink _ _ _ | SBulkUnlink _ _ => False | _ => True end
  | inr _ => True
  end.
(** Then all calls together are linearizable: Add, Delete, Link and Unlink change
    the graph under one write lock. *)
Theorem c106_no_bulk_partial :
  forall dir o x todo k,
    tidy dir (s_g x.2) -> enough_ids k x todo ->
    Forall (Forall read_only) todo -> Forall (Forall no_bulk_change) todo ->
    linearization (mixed_prog o) (mixed_call o) x todo.
Proof.
  intros dir o x todo k Ht [Hc Hk] A B.
  apply once_linearize.
  - apply mixed_not_fatal; [|exact A]. intros e He. eapply store_not_fatal; eauto.
  - apply Forall_lookup_2. intros i l El. apply Forall_lookup_2. intros j c Ej.
    pose proof (Forall_lookup_1 _ _ _ _ (Forall_lookup_1 _ _ _ _ A El) Ej) as H1.
    pose proof (Forall_lookup_1 _ _ _ _ (Forall_lookup_1 _ _ _ _ B El) Ej) as H2. by destruct c.
Qed.
Print Assumptions c106_no_bulk_partial.

(** ** one goroutine *)
(** The sequential calls used above are what a goroutine gets that is on its own. *)
Theorem c106_alone :
  forall dir o x c e, reach dir (s_g x.2) -> consistent (s_g x.2) ->
    reachable (mixed_prog o) x [[c]] e -> finished e ->
    exists t, c_ths e = [t] /\ t_done t = [(c, (mixed_call o c x).1)] /\ c_sh e = (mixed_call o c x).2.
Proof.
  intros dir o x c e Hg Hc Hr Hf.
  assert (E : seqrun (mixed_prog o c) x = mixed_call o c x); [|rewrite <- E; by apply alone_run].
  apply seqrun_mixed. intros q. destruct x as [w [i g]]. by apply (c22_graph_programs_sequential dir).
Qed.
Print Assumptions c106_alone.

(** ** not with others *)
(** A store Link and any direct call that takes the write lock of the graph can
    block each other, for every store; C24 shows that store calls alone never do. *)
Lemma exec_cons {S R Op} (f : Op -> prog S R) c i c1 l r : conf_step f c i = Some c1 -> exec f c1 l = r -> exec f c (i :: l) = r.
Proof. intros E <-. cbn. by rewrite E. Qed.
(** the store's write lock and a read lock of the graph are held *)
Definition link_held : mutexes :=
  mu_set (mu_set (mu_set (fun _ => mfree) 0 (MState 0 true false)) 0 (MState 0 true true)) 1 (MState 1 false false).
Ltac onestep := eapply ps_step; [reflexivity|].
Lemma lock_asked o w g st q : takes_lock g q ->
  exists w' mu' k, psteps (w, g) link_held (graph_prog o (st, q)) (w', g) mu' (LockWait 1 k) /\ mu' 1 = MState 1 true false.
Proof.
  intros H.
  destruct q as [e l|[n|n] l|e l|a| |a|a b l|a b| |a|a b|a d l|]; cbn [takes_lock] in H; try done.
  - eexists _, _, _. split; [cbn; onestep; apply ps_done|reflexivity].
  - eexists _, _, _. split; [cbn; onestep; apply ps_done|reflexivity].
  - eexists _, _, _. split; [cbn; onestep; apply ps_done|reflexivity].
  - destruct H as [m Hm]. eexists _, _, _. split; [cbn; do 2 onestep; cbn; rewrite Hm; cbn; do 2 onestep; apply ps_done|reflexivity].
  - destruct H as ([m Hm] & [m' Hm'] & He). eexists _, _, _. split; [cbn|].
    + do 4 onestep. cbn. rewrite He. cbn. rewrite bool_decide_eq_true_2 by done. cbn.
      onestep. cbn. rewrite Hm. cbn. onestep. cbn. rewrite Hm'. cbn. do 2 onestep. apply ps_done.
    + reflexivity.
  - destruct H as ([m Hm] & [m' Hm']). eexists _, _, _. split; [cbn|].
    + do 2 onestep. cbn. rewrite Hm. cbn. onestep. cbn. rewrite Hm'. cbn. do 2 onestep. apply ps_done.
    + reflexivity.
Qed.
Theorem c106_link_and_writer_refuted :
  forall o x st u v opts st' q, takes_lock (s_g x.2) q ->
    exists c, reachable (mixed_prog o) x [[inl (st, SLink u v opts)]; [inr (st', q)]] c /\ deadlocked (mixed_prog o) c.
Proof.
  intros o [w [i g]] st u v opts st' q H. cbn [snd s_g] in H.
  assert (L : exists k, mixed_prog o (inl (st, SLink u v opts)) = Lock 0 (RLock 1 (RLock 1 k))) by (eexists; reflexivity).
  destruct L as [k L].
  destruct (lock_asked o w g st' q H) as (w' & mu' & k' & Hp & Hm).
  destruct (psteps_exec (mixed_prog o) _ _ _ _ _ _ (psteps_zoom (@inr sret gqret) _ _ _ _ _ _ _ _ Hp i)
              1 (inr (st', q)) [] [] [Thread (Some (inl (st, SLink u v opts), RLock 1 k)) [] []; Thread (Some (inr (st', q), mixed_prog o (inr (st', q)))) [] []] eq_refl)
    as [n En].
  eexists. split.
  - exists ([0; 0; 0; 0; 1] ++ replicate n 1).
    assert (S0 : conf_step (mixed_prog o) (Conf (w, Store i g) (fun _ => mfree)
                   [Thread None [inl (st, SLink u v opts)] []; Thread None [inr (st', q)] []]) 0 =
                 Some (Conf (w, Store i g) (fun _ => mfree)
                   [Thread (Some (inl (st, SLink u v opts), Lock 0 (RLock 1 (RLock 1 k)))) [] []; Thread None [inr (st', q)] []])).
    { rewrite <- L. reflexivity. }
    eapply exec_cons; [exact S0|]. exact En.
  - cbn [insert list_insert]. split.
    + intros F. apply Forall_inv in F. by destruct F.
    + intros [|[|j]] [c' Ec]; unfold conf_step in Ec; cbn in Ec; [| |done]; rewrite Hm in Ec; done.
Qed.
Print Assumptions c106_link_and_writer_refuted.

Definition mplay (x : sstate) (todo : list (list mcall)) (sched : list nat) : conf sstate mret mcall :=
  default (conf_init x todo) (exec (mixed_prog iter_id) (conf_init x todo) sched).
Lemma mplay_reach x todo sched :
  match exec (mixed_prog iter_id) (conf_init x todo) sched with Some _ => true | None => false end = true ->
  reachable (mixed_prog iter_id) x todo (mplay x todo sched).
Proof. intros H. exists sched. unfold mplay. by destruct (exec _ _ _). Qed.
Definition x_new : sstate := ((new_store w0 []).2, (new_store w0 []).1).
Lemma x_new_start : store_start false x_new.
Proof. exists [], w0. split; done. Qed.
(** A goroutine that reads the graph sees half of a BulkAdd. *)
Definition bulk_read : list (list mcall) :=
  [[inl ([], SBulkAdd [gent0 ua; gent0 ub] [])]; [inr ([], QNodes)]].
Definition half_conf : conf sstate mret mcall :=
  mplay x_new bulk_read (replicate 20 0 ++ replicate 5 1 ++ replicate 19 0).
Lemma half_reach : reachable (mixed_prog iter_id) x_new bulk_read half_conf.
Proof. apply mplay_reach. vm_compute. reflexivity. Qed.
Definition mdone (c : conf sstate mret mcall) : bool :=
  forallb (fun t => match t_cur t, t_todo t with None, [] => true | _, _ => false end) (c_ths c).
Lemma mdone_finished c : mdone c = true -> finished c.
Proof.
  unfold mdone, finished. intros E. apply Forall_forall. intros t Hin. rewrite forallb_forall in E.
  specialize (E t (proj1 (elem_of_list_In _ _) Hin)). unfold thread_finished. by destruct (t_cur t), (t_todo t).
Qed.
Lemma mdone_quiet c : mdone c = true -> quiet c.
Proof. intros E. apply mdone_finished in E. eapply Forall_impl; [exact E|]. by intros t []. Qed.
(** how many nodes a call has listed *)
Definition listed_nodes (r : mret) : option nat :=
  match r with inr (QRNodes (Ok l)) => Some (length l) | _ => None end.
Definition half_shape (c : conf sstate mret mcall) : bool :=
  match c_ths c with
  | [t1; t2] =>
      match t_done t1, t_done t2 with
      | [d1], [d2] => match d1.1 with inl ([], SBulkAdd [_; _] []) => true | _ => false end &&
                      match d2.1 with inr ([], QNodes) => true | _ => false end && bool_decide (listed_nodes d2.2 = Some 1)
      | _, _ => false
      end
  | _ => false
  end.
Lemma half_ok : half_shape half_conf = true /\ mdone half_conf = true.
Proof. split; vm_compute; reflexivity. Qed.
Lemma merge11 {R Op} (l : list (nat * Op * R)) a b :
  calls_of 0 l = [a] -> calls_of 1 l = [b] -> (forall i, 2 <= i -> calls_of i l = []) ->
  fmap (fun e : nat * Op * R => (e.1.2, e.2)) l ∈ [[a; b]; [b; a]].
Proof.
  intros H0 H1 H2. pose proof (merge12 (l ++ [(1, b.1, b.2)]) a b b) as M.
  assert (E : (b.1, b.2) = b) by (by destruct b).
  rewrite !calls_of_app, H0, H1 in M. cbn [calls_of Nat.eqb] in M. rewrite E, app_nil_r in M.
  specialize (M eq_refl eq_refl). rewrite fmap_app in M. cbn [fmap list_fmap fst snd] in M. rewrite E in M.
  assert (H : forall i, 2 <= i -> calls_of i (l ++ [(1, b.1, b.2)]) = []).
  { intros i Hi. rewrite calls_of_app, H2 by done. destruct i as [|[|i]]; [lia|lia|done]. }
  specialize (M H). rewrite !elem_of_cons, elem_of_nil in M. rewrite !elem_of_cons, elem_of_nil.
  destruct M as [M|[M|[M|[]]]].
  - left. by apply (app_inj_tail _ [a; b] _ b) in M as [-> _].
  - right. left. by apply (app_inj_tail _ [b; a] _ b) in M as [-> _].
  - right. left. apply (app_inj_tail _ [b; b] _ a) in M as [M Eb]. by rewrite M, Eb.
Qed.
Lemma half_argument c :
  reachable (mixed_prog iter_id) x_new bulk_read c -> half_shape c = true /\ mdone c = true ->
  ~ linearization (mixed_prog iter_id) (mixed_call iter_id) x_new bulk_read.
Proof.
  intros Hr [Hs Hd] L.
  destruct (quiet_calls _ _ _ _ _ L Hr (mdone_quiet _ Hd)) as (log & Hl & Hc & Ho). clear Hd L.
  pose proof (ops_reach _ _ _ _ Hr) as Hops. clear Hr.
  unfold half_shape in Hs. destruct (c_ths c) as [|t1 [|t2 [|]]] eqn:Et; try discriminate.
  cbn [fmap list_fmap] in Hops. injection Hops as O1 O2.
  destruct (t_done t1) as [|d1 [|]] eqn:E1; try discriminate. destruct (t_done t2) as [|d2 [|]] eqn:E2; try discriminate.
  apply andb_prop in Hs as [Hs H2]. apply bool_decide_eq_true in H2. clear Hs.
  unfold th_ops in O1, O2. rewrite E1 in O1. rewrite E2 in O2. cbn in O1, O2. injection O1 as O1 _. injection O2 as O2 _.
  pose proof (Hc 0 t1 eq_refl) as C0. pose proof (Hc 1 t2 eq_refl) as C1. rewrite E1 in C0. rewrite E2 in C1.
  pose proof (merge11 log d1 d2 C0 C1 Ho) as M. destruct d1 as [op1 r1], d2 as [op2 r2]. cbn in *. subst op1 op2.
  clear Hc Ho C0 C1 E1 E2 Et. revert Hl. generalize (c_sh c). intros y Hl.
  rewrite !elem_of_cons, elem_of_nil in M. destruct M as [M|[M|[]]].
  - destruct log as [|[[i1 q1] s1] [|[[i2 q2] s2] [|]]]; try discriminate. cbn in M. injection M as -> -> -> ->.
    inversion Hl as [|? ? ? ? x1 ? ? F1 L1]; subst. inversion L1 as [|? ? ? ? x2 ? ? F2 L2]; subst.
    apply (f_equal snd) in F1. cbn [snd] in F1. subst x1. apply (f_equal fst) in F2. cbn [fst] in F2. subst r2. vm_compute in H2. discriminate.
  - destruct log as [|[[i1 q1] s1] [|[[i2 q2] s2] [|]]]; try discriminate. cbn in M. injection M as -> -> -> ->.
    inversion Hl as [|? ? ? ? x1 ? ? F1 L1]; subst. apply (f_equal fst) in F1. cbn [fst] in F1. subst r2. vm_compute in H2. discriminate.
Qed.
Theorem c106_bulk_add_refuted : ~ linearization (mixed_prog iter_id) (mixed_call iter_id) x_new bulk_read.
Proof. exact (half_argument half_conf half_reach half_ok). Qed.
Print Assumptions c106_bulk_add_refuted.
Theorem c106_beside_refuted : ~ c106_full.
Proof. intros H. destruct (H false iter_id x_new bulk_read x_new_start) as [L _]. exact (c106_bulk_add_refuted L). Qed.
Print Assumptions c106_beside_refuted.

(** The store's mutex does not protect Add against a direct Create: both entities get
    the same id, both calls succeed, and Nodes lists only one of them. *)
Definition add_create : list (list mcall) := [[inl ([], SAdd (gent0 ua) [])]; [inr ([], QCreate (gent0 ub) [])]].
Definition same_conf : conf sstate mret mcall :=
  mplay x_new add_create (replicate 9 0 ++ turns (mixed_prog iter_id) 60 1 (mplay x_new add_create (replicate 9 0))).
Definition all_ok (c : conf sstate mret mcall) : bool :=
  forallb (fun t => forallb (fun d : mcall * mret => match d.2 with inl (SRUnit (Ok _)) | inr (QRUnit (Ok _)) => true | _ => false end) (t_done t)) (c_ths c).
Definition same_ids (x : sstate) : bool :=
  match store_get x.2 ua, store_get x.2 ub with Ok n1, Ok n2 => Z.eqb (n_id n1) (n_id n2) | _, _ => false end &&
  match wg_nodes iter_id [] (s_g x.2) with Ok ns => Nat.eqb (length ns) 1 | _ => false end.
Lemma same_reach : reachable (mixed_prog iter_id) x_new add_create same_conf.
Proof. apply mplay_reach. vm_compute. reflexivity. Qed.
Lemma same_ok : mdone same_conf = true /\ all_ok same_conf = true /\ same_ids (c_sh same_conf) = true.
Proof. split; [|split]; vm_compute; reflexivity. Qed.
Lemma same_argument c : mdone c = true /\ all_ok c = true /\ same_ids (c_sh c) = true ->
  finished c /\ all_ok c = true /\ exists n1 n2,
    store_get (c_sh c).2 ua = Ok n1 /\ store_get (c_sh c).2 ub = Ok n2 /\ n_id n1 = n_id n2 /\
    exists ns, wg_nodes iter_id [] (s_g (c_sh c).2) = Ok ns /\ length ns = 1.
Proof.
  intros (D & A & G). split; [by apply mdone_finished|]. split; [done|]. unfold same_ids in G. apply andb_prop in G as [G N].
  destruct (store_get _ ua) as [n1| |]; try discriminate. destruct (store_get _ ub) as [n2| |]; try discriminate.
  destruct (wg_nodes _ _ _) as [ns| |]; try discriminate.
  exists n1, n2. split_and!; auto; [by apply Z.eqb_eq|]. exists ns. split; [done|by apply Nat.eqb_eq].
Qed.
Theorem c106_add_and_create_refuted :
  exists c, reachable (mixed_prog iter_id) x_new add_create c /\ finished c /\ all_ok c = true /\ exists n1 n2,
    store_get (c_sh c).2 ua = Ok n1 /\ store_get (c_sh c).2 ub = Ok n2 /\ n_id n1 = n_id n2 /\
    exists ns, wg_nodes iter_id [] (s_g (c_sh c).2) = Ok ns /\ length ns = 1.
Proof. exact (ex_intro _ same_conf (conj same_reach (same_argument same_conf same_ok))). Qed.
Print Assumptions c106_add_and_create_refuted.

(** three goroutines: one adds, links and looks at the graph, one bulk adds, one reads *)
Definition beside_todo : list (list mcall) :=
  [[inl ([], SAdd (gent0 ua) []); inr ([], QNode ua); inl ([], SLink ua ub [])];
   [inl ([1], SBulkAdd [gent0 ub; gent0 uc] []); inr ([], QEdges)];
   [inr ([], QNodes); inr ([], QFrom ua); inl ([], SDelete uc)]].
Example c106_example :
  tidy false (s_g x_new.2) /\ enough_ids 0 x_new beside_todo /\ Forall (Forall read_only) beside_todo /\
  exists c, reachable (mixed_prog iter_id) x_new beside_todo c /\ mdone c = true /\
    length <$> (t_done <$> c_ths c) = [3; 2; 3].
Proof.
  destruct (store_start_ok _ _ x_new_start) as (T & C & _). split; [done|]. split; [split; [done|vm_compute; discriminate]|].
  split; [repeat constructor|].
  exists (mplay x_new beside_todo (turns (mixed_prog iter_id) 400 0 (conf_init x_new beside_todo))).
  split; [apply mplay_reach; vm_compute; reflexivity|]. split; vm_compute; reflexivity.
Qed.
(** the same without the bulk call *)
Definition single_todo : list (list mcall) :=
  [[inl ([], SAdd (gent0 ua) []); inr ([], QNode ua); inl ([], SLink ua ub [])];
   [inl ([1], SAdd (gent0 ub) []); inr ([], QEdges); inl ([], SBulkGet [ua; ub])];
   [inr ([], QNodes); inr ([], QFrom ua); inl ([], SDelete uc)]].
Example c106_no_bulk_example :
  enough_ids 0 x_new single_todo /\ Forall (Forall read_only) single_todo /\ Forall (Forall no_bulk_change) single_todo /\
  exists c, reachable (mixed_prog iter_id) x_new single_todo c /\ mdone c = true /\
    length <$> (t_done <$> c_ths c) = [3; 3; 3].
Proof.
  destruct (store_start_ok _ _ x_new_start) as (T & C & _). split; [split; [done|vm_compute; discriminate]|].
  split; [repeat constructor|]. split; [repeat constructor|].
  exists (mplay x_new single_todo (turns (mixed_prog iter_id) 400 0 (conf_init x_new single_todo))).
  split; [apply mplay_reach; vm_compute; reflexivity|]. split; vm_compute; reflexivity.
Qed.
(** a goroutine that creates a node directly *)
Example c106_alone_example :
  exists e, reachable (mixed_prog iter_id) x_new [[inr ([], QCreate (gent0 ua) [])]] e /\ mdone e = true /\
    match store_get (c_sh e).2 ua with Ok _ => true | _ => false end = true.
Proof.
  exists (mplay x_new [[inr ([], QCreate (gent0 ua) [])]] (turns (mixed_prog iter_id) 100 0 (conf_init x_new [[inr ([], QCreate (gent0 ua) [])]]))).
  split; [apply mplay_reach; vm_compute; reflexivity|]. split; vm_compute; reflexivity.
Qed.
