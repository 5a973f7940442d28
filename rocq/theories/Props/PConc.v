(** Concurrent use of the plan, the link cache, the store and the graph: C22 to C26,
    C65 and C66. *)
From Verif.Model Require Import Conc.
From Verif.Spec Require Import OptionsSpec LinSpec ConcSpec GraphSpec StoreSpec.
From Verif.Proof Require Import OptionsP GonumP GraphP GraphP2 SubP StoreP LinP MutexP ConcP ConcP2 GraphLockP.
From Verif.Props Require Import PGraph PStore.

(** ** C22: linearizability, from every initial state *)
Theorem c22_plan_linearizable : forall o p, linearizable (plan_prog o) (plan_call o) p.
Proof. intros o p. exact (object_linearizable _ _ _ (plan_sections o) p). Qed.
Print Assumptions c22_plan_linearizable.
Theorem c22_cache_linearizable : forall o c, linearizable (cache_prog o) (cache_call o) c.
Proof. intros o c. exact (object_linearizable _ _ _ (cache_sections o) c). Qed.
Print Assumptions c22_cache_linearizable.
Theorem c22_store_linearizable : forall o x, linearizable (store_prog o) (store_call o) x.
Proof. intros o x. exact (object_linearizable _ _ _ (store_sections o) x). Qed.
Print Assumptions c22_store_linearizable.

(** a store call as it is made by a client, with the site of its map iterations *)
Notation client_call := (site * scall)%type.
Definition client_op (c : client_call) : stcall := (c.1, scall_op c.2).
Definition made (todo : list (list client_call)) : list (list stcall) := (fun l : list client_call => client_op <$> l) <$> todo.
(** how many Adds the goroutines will make *)
Definition asked_adds (todo : list (list client_call)) : nat :=
  total (sumc (fun c : stcall => adds c.2)) (made todo).
Definition store_start (dir : bool) (x : sstate) : Prop :=
  exists l w, fresh_graph dir l /\ (x.2, x.1) = new_store w (mstore_den <$> l).
Lemma store_start_ok dir x : store_start dir x ->
  tidy dir (s_g x.2) /\ cap 0 (s_g x.2) /\ shows (s_g x.2) (AState ∅ ∅).
Proof.
  intros (l & w & Hf & Hn). destruct x as [w1 s]. cbn [fst snd] in *.
  assert (Hg : exists w0 opts, s_g s = if dir then (new_wdg w0 opts).1 else (new_wug w0 opts).1).
  { symmetry in Hn. unfold new_store in Hn. rewrite mstore_opts_last in Hn. cbn [mo_uid mo_graph] in Hn.
    destruct (uid_or_new _ _) as [u w2]. unfold fresh_graph in Hf.
    destruct (default None (last_set mstore_graph_of l)) as [g|].
    - injection Hn as <- <-. exact Hf.
    - subst dir. destruct (new_wug w2 []) as [g w3] eqn:Eg. injection Hn as <- <-. exists w2, []. by rewrite Eg. }
  destruct Hg as (w2 & opts & Hg). rewrite Hg. split; [constructor|]. split; [apply cap_new|].
  assert (He : g_nodes (if dir then (new_wdg w2 opts).1 else (new_wug w2 opts).1) = ∅).
  { unfold new_wdg, new_wug, new_wg. destruct dir; by destruct (uid_or_new _ _). }
  split; cbn.
  - intros u. rewrite lookup_empty. unfold wg_node. by rewrite He, lookup_empty.
  - intros u v. rewrite lookup_empty. intros e. unfold wg_edge. by rewrite He, lookup_empty.
Qed.
(** C22 for the store, against the map and relation of C17: whenever no call is in
    progress there is an order of all finished calls that keeps the order of every
    goroutine, in which the abstract store gives exactly the results that were
    returned, and the abstract state it ends in is what the store shows. *)
Lemma client_ops o x0 todo c i t op :
  reachable (store_prog o) x0 (made todo) c -> c_ths c !! i = Some t ->
  op ∈ (t_done t).*1 -> exists k, op = client_op k.
Proof.
  intros Hr Et Hin. pose proof (ops_reach _ _ _ _ Hr) as Ho.
  assert (E : (made todo) !! i = Some (th_ops t)) by (by rewrite <- Ho, list_lookup_fmap, Et).
  unfold made in E. rewrite list_lookup_fmap in E. destruct (todo !! i) as [ks|]; [|discriminate]. injection E as E.
  assert (H : op ∈ client_op <$> ks) by (rewrite E; unfold th_ops; apply elem_of_app; auto).
  apply elem_of_list_fmap in H as (k & -> & _). eauto.
Qed.
Theorem c22_store_abstract :
  forall dir o x0 todo c,
    store_start dir x0 -> (Z.of_nat (asked_adds todo) <= max_int64)%Z ->
    reachable (store_prog o) x0 (made todo) c -> quiet c ->
    exists (log : list (nat * stcall * sret)) (ks : list scall),
      (forall i t, c_ths c !! i = Some t -> calls_of i log = t_done t) /\
      (forall i, length (c_ths c) <= i -> calls_of i log = []) /\
      (fun e : nat * stcall * sret => e.1.2.2) <$> log = scall_op <$> ks /\
      Forall2 ret_shows log.*2 (aresults dir (AState ∅ ∅) ks).1 /\
      shows (s_g (c_sh c).2) (aresults dir (AState ∅ ∅) ks).2.
Proof.
  intros dir o x0 todo c Hx Hk Hr Hq. destruct (store_start_ok _ _ Hx) as (Ht & Hc & Hs).
  pose proof Hr as [sched E].
  destruct (store_log_not_fatal dir o x0 _ sched c 0 E Hq Ht Hc ltac:(unfold asked_adds in Hk; lia))
    as (log & L & NF & Hi & Ho).
  assert (K : Forall (fun e : nat * stcall * sret => exists k, e.1.2.2 = scall_op k) log).
  { apply Forall_forall. intros [[i op] r] Hin. cbn. apply calls_of_elem in Hin.
    destruct (c_ths c !! i) as [t|] eqn:Et.
    2:{ apply lookup_ge_None in Et. rewrite (Ho i Et) in Hin. by apply elem_of_nil in Hin. }
    rewrite (Hi _ _ Et) in Hin.
    destruct (client_ops _ _ _ _ _ _ op Hr Et) as [[st k] ->]; [|by exists k].
    apply elem_of_list_fmap. by exists (op, r). }
  destruct (legal_abstract dir o log _ _ _ L NF K Ht Hs) as (ks & E1 & F & Hf & _).
  exists log, ks. auto.
Qed.
Print Assumptions c22_store_abstract.

(** The graph programs used below, run by one goroutine, are the sequential calls
    of Model/Graph.v. *)
Theorem c22_graph_programs_sequential :
  forall dir o c w g, reach dir g -> consistent g -> seqrun (graph_prog o c) (w, g) = graph_call o c (w, g).
Proof.
  intros dir o c w g Hr Hc. apply seqrun_graph. intros u d opts _. cbn [fst snd].
  destruct (wg_node_total g u) as [[n Hn]|Hn].
  - destruct (reach_base _ _ Hr) as (_ & Hb & Hk).
    assert (Hw : gwf g) by (by apply gwf_consistent).
    destruct (subgraph_ok dir o c.1 w g u d opts n Hr Hw Hn) as (sg & w' & -> & _). done.
  - unfold wg_subgraph. unfold wg_node in Hn. destruct (g_nodes g !! uid_string u); [discriminate|done].
Qed.
Print Assumptions c22_graph_programs_sequential.

(** ** C65: no data race in the plan, the cache and the store *)
Theorem c65_plan_race_free : forall o p todo c, reachable (plan_prog o) p todo c -> ~ race c.
Proof. intros o p todo c. exact (object_race_free _ _ _ (plan_sections o) p todo c). Qed.
Print Assumptions c65_plan_race_free.
Theorem c65_cache_race_free : forall o x todo c, reachable (cache_prog o) x todo c -> ~ race c.
Proof. intros o x todo c. exact (object_race_free _ _ _ (cache_sections o) x todo c). Qed.
Print Assumptions c65_cache_race_free.
Theorem c65_store_race_free : forall o x todo c, reachable (store_prog o) x todo c -> ~ race c.
Proof. intros o x todo c. exact (object_race_free _ _ _ (store_sections o) x todo c). Qed.
Print Assumptions c65_store_race_free.

(** ** C24 for these objects: they never deadlock, and every execution ends *)
(** no infinite execution *)
Definition ends {S R Op} (impl : Op -> prog S R) (c : conf S R Op) : Prop :=
  Acc (fun c2 c1 => exists i, conf_step impl c1 i = Some c2) c.
Theorem c24_every_execution_ends :
  forall S R Op (impl : Op -> prog S R) c, ends impl c.
Proof. intros S R Op impl c. exact (conf_acc impl c). Qed.
Print Assumptions c24_every_execution_ends.
Lemma not_deadlocked {S R Op} (impl : Op -> prog S R) c :
  (~ finished c -> exists i, enabled impl c i) -> ~ deadlocked impl c.
Proof. intros H [NF NE]. destruct (H NF) as [i Hi]. by apply (NE i). Qed.
Theorem c24_plan_never_deadlocks : forall o p todo c, reachable (plan_prog o) p todo c -> ~ deadlocked (plan_prog o) c.
Proof.
  intros o p todo c Hr. apply not_deadlocked. apply (object_progress _ _ _ (plan_sections o) p todo c Hr).
  intros (t & _ & [(op & r & _ & [])|(op & r & _ & [])]).
Qed.
Print Assumptions c24_plan_never_deadlocks.
Theorem c24_cache_never_deadlocks : forall o x todo c, reachable (cache_prog o) x todo c -> ~ deadlocked (cache_prog o) c.
Proof.
  intros o p todo c Hr. apply not_deadlocked. apply (object_progress _ _ _ (cache_sections o) p todo c Hr).
  intros (t & _ & [(op & r & _ & [])|(op & r & _ & [])]).
Qed.
Print Assumptions c24_cache_never_deadlocks.
(** The store: as long as the ids suffice.  [k] bounds the ids in use; a new store
    has k = 0. *)
Theorem c24_store_never_deadlocks :
  forall dir o x todo c k,
    tidy dir (s_g x.2) -> cap k (s_g x.2) ->
    (k + Z.of_nat (total (sumc (fun c : stcall => adds c.2)) todo) <= max_int64)%Z ->
    reachable (store_prog o) x todo c -> ~ deadlocked (store_prog o) c.
Proof.
  intros dir o x todo c k Ht Hc Hk Hr. apply not_deadlocked.
  apply (object_progress _ _ _ (store_sections o) x todo c Hr). by eapply store_not_fatal.
Qed.
Print Assumptions c24_store_never_deadlocks.

(** C24, the full statement for the graph; DOT is left out, it is C23. *)
Definition c24_full : Prop :=
  forall dir o w g todo c, tidy dir g -> Forall (Forall (fun q : gcall => q.2 <> QDOT)) todo ->
    reachable (graph_prog o) (w, g) todo c -> ~ deadlocked (graph_prog o) c.
(** run a schedule to the end *)
Definition play (x : gstate) (todo : list (list gcall)) (sched : list nat) : conf gstate gqret gcall :=
  default (conf_init x todo) (exec (graph_prog iter_id) (conf_init x todo) sched).
Lemma play_reach x todo sched :
  match exec (graph_prog iter_id) (conf_init x todo) sched with Some _ => true | None => false end = true ->
  reachable (graph_prog iter_id) x todo (play x todo sched).
Proof. intros H. exists sched. unfold play. by destruct (exec _ _ _). Qed.
(** three nodes, no edges *)
Definition g3 : wg := (wg_unlink (ex3 false) ua ub).2.
Lemma g3_tidy : tidy false g3.
Proof. apply tidy_unlink, ex3_tidy. Qed.
Definition links2 : list (list gcall) := [[([], QLink ua ub [])]; [([], QLink ub uc [])]].
(** The first Link takes the read lock; the second one finds no edge and asks for
    the write lock; the first one asks for the read lock again, inside Edge. *)
Definition locked2 : conf gstate gqret gcall := play (w0, g3) links2 ([0; 0] ++ replicate 9 1).
Definition busy (c : conf gstate gqret gcall) : bool :=
  existsb (fun t => match t_cur t with Some _ => true | None => false end) (c_ths c).
Definition stuck (c : conf gstate gqret gcall) (i : nat) : bool :=
  match conf_step (graph_prog iter_id) c i with None => true | Some _ => false end.
Lemma busy_unfinished c : busy c = true -> ~ finished c.
Proof.
  unfold busy. intros E F. apply existsb_exists in E as (t & Hin & Ht). apply elem_of_list_In in Hin.
  unfold finished in F. rewrite Forall_forall in F. destruct (F _ Hin) as [F1 _]. by rewrite F1 in Ht.
Qed.
Lemma stuck2_deadlocked c :
  length (c_ths c) = 2 -> busy c = true -> stuck c 0 = true -> stuck c 1 = true -> deadlocked (graph_prog iter_id) c.
Proof.
  intros L B S0 S1. split; [by apply busy_unfinished|]. intros i [c' E]. unfold stuck in *.
  destruct i as [|[|i]]; [by rewrite E in S0|by rewrite E in S1|].
  unfold conf_step in E. rewrite lookup_ge_None_2 in E; [discriminate|lia].
Qed.
Lemma locked2_reach : reachable (graph_prog iter_id) (w0, g3) links2 locked2.
Proof. apply play_reach. vm_compute. reflexivity. Qed.
Lemma locked2_dead : deadlocked (graph_prog iter_id) locked2.
Proof. apply stuck2_deadlocked; vm_compute; reflexivity. Qed.
Theorem c24_graph_deadlock_refuted : ~ c24_full.
Proof.
  intros H. refine (H false iter_id w0 g3 links2 locked2 g3_tidy _ locked2_reach locked2_dead).
  unfold links2. repeat constructor; discriminate.
Qed.
Print Assumptions c24_graph_deadlock_refuted.
(** Without Link (and DOT), graph calls never deadlock unless NewNode panicked for
    want of an id while holding the lock. *)
Theorem c24_graph_deadlock_partial :
  forall o x todo c,
    Forall (Forall (fun q : gcall => q.2 <> QDOT /\ forall u v l, q.2 <> QLink u v l)) todo ->
    reachable (graph_prog o) x todo c -> ~ returned gfatal c -> ~ deadlocked (graph_prog o) c.
Proof.
  intros o x todo c Hc Hr NF. apply not_deadlocked.
  eapply (section_progress (graph_prog o) (fun _ => false) (fun _ => true) gfatal
            (fun _ q => q.2 <> QDOT /\ forall u v l, q.2 <> QLink u v l)); [|discriminate| |exact Hr|exact NF].
  - intros i q [H1 H2]. split; [|discriminate]. apply disc_graph; auto.
  - intros i l E. by apply (Forall_lookup_1 _ _ _ _ Hc) in E.
Qed.
Print Assumptions c24_graph_deadlock_partial.
(** With Link: it is enough that no other goroutine ever takes the write lock while
    one goroutine calls Link.  Any number of goroutines may read. *)
Definition read_call (q : gcall) : Prop :=
  match q.2 with QNode _ | QNodes | QEdge _ _ | QEdges | QFrom _ | QSubGraph _ _ _ => True | _ => False end.
Definition calls_link (l : list gcall) : Prop := exists q u v opts, q ∈ l /\ q.2 = QLink u v opts.
Theorem c24_link_alone_partial :
  forall o x todo c,
    Forall (Forall (fun q : gcall => q.2 <> QDOT)) todo ->
    (forall i j l l', i <> j -> todo !! i = Some l -> todo !! j = Some l' -> calls_link l -> Forall read_call l') ->
    reachable (graph_prog o) x todo c -> ~ returned gfatal c -> ~ deadlocked (graph_prog o) c.
Proof.
  intros o x todo c Hd Hc Hr NF. apply not_deadlocked.
  pose (lk (q : gcall) := match q.2 with QLink _ _ _ => true | _ => false end : bool).
  pose (rd (q : gcall) := match q.2 with QNode _ | QNodes | QEdge _ _ | QEdges | QFrom _ | QSubGraph _ _ _ => true | _ => false end : bool).
  pose (calls i := default [] (todo !! i) : list gcall).
  eapply (section_progress (graph_prog o) (fun i => existsb lk (calls i)) (fun i => negb (forallb rd (calls i))) gfatal
            (fun i q => q ∈ calls i /\ q.2 <> QDOT)); [| | |exact Hr|exact NF].
  - intros i q [Hin H]. split.
    + apply disc_graph; auto. destruct (existsb lk (calls i)) eqn:E; [by left|right]. intros u v l Eq.
      assert (existsb lk (calls i) = true); [|congruence]. apply existsb_exists. exists q.
      split; [by apply elem_of_list_In|]. unfold lk. by rewrite Eq.
    + intros E. apply negb_false_iff in E. rewrite forallb_forall in E.
      specialize (E q (proj1 (elem_of_list_In _ _) Hin)). unfold rd in E.
      apply nolock_graph; intros; intros Eq; rewrite Eq in E; discriminate.
  - intros i j N E. unfold calls in *. destruct (todo !! i) as [l|] eqn:El; [|discriminate].
    destruct (todo !! j) as [l'|] eqn:El'; [|done]. cbn [default id from_option] in *.
    apply negb_false_iff, forallb_forall. intros q Hin. apply elem_of_list_In in Hin.
    assert (CL : calls_link l).
    { apply existsb_exists in E as (q' & Hin' & Hq'). apply elem_of_list_In in Hin'. unfold lk in Hq'.
      destruct q' as [st q']; cbn in Hq'. destruct q'; try discriminate. eexists _, _, _, _. split; [exact Hin'|reflexivity]. }
    pose proof (Hc i j l l' N El El' CL) as F. rewrite Forall_forall in F. specialize (F q Hin).
    unfold read_call in F. unfold rd. destruct q as [st q]; cbn in *. by destruct q.
  - intros i l El. apply Forall_forall. intros q Hin. unfold calls. rewrite El. split; [done|].
    apply (Forall_lookup_1 _ _ _ _ Hd) in El. rewrite Forall_forall in El. by apply El.
Qed.
Print Assumptions c24_link_alone_partial.
(** The condition is needed: a Link and any other call that takes the write lock can
    block each other, on every graph. *)
Definition takes_lock (g : wg) (q : gq) : Prop :=
  match q with
  | QNewNode _ _ | QCreate _ _ | QAddNode (MemNode _) _ => True
  | QRemoveNode u => is_Some (g_nodes g !! uid_string u)
  | QUnlink u v => is_Some (g_nodes g !! uid_string u) /\ is_Some (g_nodes g !! uid_string v)
  | QLink u v _ => is_Some (g_nodes g !! uid_string u) /\ is_Some (g_nodes g !! uid_string v) /\
                   wg_edge g u v = Err GraphErrEdgeNotExist
  | _ => False
  end.
Theorem c24_link_and_writer_refuted :
  forall o w g st u v opts st' q, takes_lock g q ->
    exists c, reachable (graph_prog o) (w, g) [[(st, QLink u v opts)]; [(st', q)]] c /\ deadlocked (graph_prog o) c.
Proof.
  intros o w g st u v opts st' q H.
  assert (K : forall n, match exec (graph_prog o) (conf_init (w, g) [[(st, QLink u v opts)]; [(st', q)]]) ([0; 0] ++ replicate n 1) with
              | Some c => match c_ths c with
                          | [t1; t2] => conf_step (graph_prog o) c 0 = None /\ conf_step (graph_prog o) c 1 = None /\ t_cur t1 <> None
                          | _ => False end
              | None => False end ->
            exists c, reachable (graph_prog o) (w, g) [[(st, QLink u v opts)]; [(st', q)]] c /\ deadlocked (graph_prog o) c).
  { intros n. destruct (exec _ _ _) as [c|] eqn:E; [|done].
    destruct (c_ths c) as [|t1 [|t2 [|]]] eqn:Et; try done. intros (S0 & S1 & B). exists c. split; [by eexists|].
    split; [intros F; unfold finished in F; rewrite Et in F; apply Forall_inv in F; by destruct F|].
    intros [|[|i]] [c' Ec]; [congruence|congruence|]. unfold conf_step in Ec. rewrite Et in Ec. done. }
  destruct q as [e l|[n|n] l|e l|a| |a|a b l|a b| |a|a b|a d l|]; cbn [takes_lock] in H; try done.
  - apply (K 2). cbn. done.
  - apply (K 2). cbn. done.
  - apply (K 2). cbn. done.
  - destruct H as [m Hm]. apply (K 5). cbn. rewrite Hm. cbn. done.
  - destruct H as ([m Hm] & [m' Hm'] & He). apply (K 9). cbn. rewrite He. cbn. rewrite bool_decide_eq_true_2 by done. cbn. rewrite Hm. cbn. rewrite Hm'. cbn. done.
  - destruct H as ([m Hm] & [m' Hm']). apply (K 6). cbn. rewrite Hm. cbn. rewrite Hm'. cbn. done.
Qed.
Print Assumptions c24_link_and_writer_refuted.
(** a schedule that lets the goroutines take turns, for examples *)
Fixpoint turns {S R Op} (impl : Op -> prog S R) (fuel i : nat) (c : conf S R Op) : list nat :=
  match fuel with
  | 0 => []
  | Datatypes.S f =>
      let j := Nat.modulo (1 + i) (length (c_ths c)) in
      match conf_step impl c i with
      | Some c' => i :: turns impl f j c'
      | None => turns impl f j c
      end
  end.
Notation robin := (turns (graph_prog iter_id)).
Definition all_done (c : conf gstate gqret gcall) : bool :=
  forallb (fun t => match t_cur t, t_todo t with None, [] => true | _, _ => false end) (c_ths c).
Definition c24_todo : list (list gcall) :=
  [[([], QRemoveNode ua); ([], QUnlink ub uc)]; [([], QSubGraph ub 1 [])]; [([], QCreate (gent0 (UVal "d")) [])]].
Example c24_example :
  reachable (graph_prog iter_id) (w0, g3) c24_todo (play (w0, g3) c24_todo (robin 200 0 (conf_init (w0, g3) c24_todo))) /\
  all_done (play (w0, g3) c24_todo (robin 200 0 (conf_init (w0, g3) c24_todo))) = true /\
  all_done (play (w0, g3) links2 (robin 200 0 (conf_init (w0, g3) links2))) = true.
Proof. split; [apply play_reach; vm_compute; reflexivity|]. split; vm_compute; reflexivity. Qed.
(** one goroutine links, two read while it does *)
Definition link_read : list (list gcall) :=
  [[([], QLink ua ub []); ([], QLink ub uc []); ([], QRemoveNode ua)]; [([], QSubGraph ub 1 []); ([], QEdges)]; [([], QFrom ua); ([], QNodes)]].
Example c24_link_example :
  (forall i j l l', i <> j -> link_read !! i = Some l -> link_read !! j = Some l' -> calls_link l -> Forall read_call l') /\
  all_done (play (w0, g3) link_read (robin 200 0 (conf_init (w0, g3) link_read))) = true /\
  takes_lock g3 (QRemoveNode ua) /\ takes_lock g3 (QUnlink ub uc) /\ takes_lock g3 (QLink ub uc []).
Proof.
  split; [|split; [vm_compute; reflexivity|]].
  - intros i j l l' N Ei Ej (q & u & v & opts & Hin & Eq).
    destruct i as [|[|[|i]]]; cbn in Ei; try discriminate; injection Ei as <-.
    + destruct j as [|[|[|j]]]; cbn in Ej; try discriminate; [done|injection Ej as <-; repeat constructor..].
    + exfalso. rewrite !elem_of_cons, elem_of_nil in Hin. destruct Hin as [-> |[-> |[]]]; discriminate.
    + exfalso. rewrite !elem_of_cons, elem_of_nil in Hin. destruct Hin as [-> |[-> |[]]]; discriminate.
  - unfold takes_lock. split_and!; try solve [eexists; vm_compute; reflexivity].
Qed.

(** ** C23: DOT *)
(** The full statement: a goroutine that has called DOT can always go on to add a node. *)
Definition c23_full : Prop :=
  forall o x st n c, reachable (graph_prog o) x [[(st, QDOT); (st, QAddNode (MemNode n) [])]] c ->
    exists sched c', exec (graph_prog o) c sched = Some c' /\ finished c'.
(** some DOT call has returned *)
Definition dot_returned (c : conf gstate gqret gcall) : Prop :=
  exists t op, t ∈ c_ths c /\ (op, QRDot) ∈ t_done t.
(** Whatever else the goroutines do, from then on the graph never changes, and a
    goroutine that waits for the write lock waits forever. *)
Theorem c23_dot_freezes_graph_refuted :
  forall o x todo c sched c', reachable (graph_prog o) x todo c -> dot_returned c ->
    exec (graph_prog o) c sched = Some c' ->
    (c_sh c').2 = (c_sh c).2 /\
    forall i t op m k, c_ths c' !! i = Some t -> t_cur t = Some (op, LockWait m k) ->
      conf_step (graph_prog o) c' i = None.
Proof.
  intros o x todo c sched c' Hr Hd E.
  destruct (ginv_reach o x todo c Hr) as (hs & lk & I).
  pose proof (gi_dot _ _ _ I Hd) as Hl. split; [by eapply frozen_exec|].
  intros i t op m k Et Ec. destruct (ginv_exec _ _ _ _ _ _ I E) as (hs' & lk' & I').
  eapply frozen_lock; [exact I'|apply elem_of_app; by left|exact Et|exact Ec].
Qed.
Print Assumptions c23_dot_freezes_graph_refuted.
Definition dot_add : list (list gcall) := [[([], QDOT); ([], QAddNode (MemNode (mkn ua 5 1)) [])]].
(** DOT has returned, AddNode waits *)
Definition dot_conf : conf gstate gqret gcall := play (w0, gnew true) dot_add (replicate 7 0).
Lemma dot_conf_reach : reachable (graph_prog iter_id) (w0, gnew true) dot_add dot_conf.
Proof. apply play_reach. vm_compute. reflexivity. Qed.
Lemma stuck1_forever c sched c' : length (c_ths c) = 1 -> stuck c 0 = true -> exec (graph_prog iter_id) c sched = Some c' -> c' = c.
Proof.
  intros L S0 E. destruct sched as [|i sched]; cbn in E; [by injection E as <-|]. unfold stuck in S0.
  destruct i as [|i]; [by destruct (conf_step _ c 0)|].
  unfold conf_step in E. rewrite lookup_ge_None_2 in E; [discriminate|lia].
Qed.
Lemma dot_conf_facts : length (c_ths dot_conf) = 1 /\ stuck dot_conf 0 = true /\ busy dot_conf = true.
Proof. split_and!; vm_compute; reflexivity. Qed.
Theorem c23_dot_releases_refuted : ~ c23_full.
Proof.
  intros H. destruct (H iter_id (w0, gnew true) [] (mkn ua 5 1) dot_conf dot_conf_reach) as (sched & c' & E & F).
  destruct dot_conf_facts as (L & S0 & B). rewrite (stuck1_forever _ _ _ L S0 E) in F. by eapply busy_unfinished.
Qed.
Print Assumptions c23_dot_releases_refuted.
Definition dots (c : conf gstate gqret gcall) : bool :=
  existsb (fun t => existsb (fun x => match x.2 with QRDot => true | _ => false end) (t_done t)) (c_ths c).
Lemma dots_returned c : dots c = true -> dot_returned c.
Proof.
  unfold dots. intros E. apply existsb_exists in E as (t & Hin & Ht). apply elem_of_list_In in Hin.
  apply existsb_exists in Ht as ([op r] & Hin2 & Hr). apply elem_of_list_In in Hin2. cbn in Hr.
  destruct r; try discriminate. by exists t, op.
Qed.
(** Without DOT, g.mu is free whenever no call is in progress (unless NewNode panicked
    for want of an id), so that the next writer gets it. *)
Theorem c23_lock_released_partial :
  forall o x todo c, Forall (Forall (fun q : gcall => q.2 <> QDOT)) todo ->
    reachable (graph_prog o) x todo c -> ~ returned gfatal c -> quiet c -> c_mu c 1 = mfree.
Proof.
  intros o x todo c Hc Hr NF Q.
  eapply (mutex_free_when_quiet (graph_prog o) (fun _ => true) (fun _ => true) gfatal (fun _ q => q.2 <> QDOT)); [| |exact Hr|exact NF|exact Q].
  - intros i q Hq. split; [|discriminate]. apply disc_graph; auto.
  - intros i l E. by apply (Forall_lookup_1 _ _ _ _ Hc) in E.
Qed.
Print Assumptions c23_lock_released_partial.
Example c23_example :
  dot_returned dot_conf /\ size (g_nodes (c_sh dot_conf).2) = 0 /\
  all_done (play (w0, g3) [tail (default [] (head dot_add))]
              (robin 40 0 (conf_init (w0, g3) [tail (default [] (head dot_add))]))) = true.
Proof. split; [apply dots_returned; vm_compute; reflexivity|]. split; vm_compute; reflexivity. Qed.

(** ** C25: ghosts *)
(** every node that Nodes() returns can be found with Node *)
Definition no_ghosts (g : wg) : Prop :=
  forall o st ns n, wg_nodes o st g = Ok ns -> n ∈ ns -> exists m, wg_node g (n_uid n) = Ok m.
Definition c25_full : Prop :=
  forall dir o w g todo c, tidy dir g ->
    Forall (Forall (fun q : gcall => (exists u v l, q.2 = QLink u v l) \/ exists u, q.2 = QRemoveNode u)) todo ->
    reachable (graph_prog o) (w, g) todo c -> quiet c -> no_ghosts (c_sh c).2.
Definition link_remove : list (list gcall) := [[([], QLink ua ub [])]; [([], QRemoveNode ua)]].
(** Link has looked up both nodes and released the read lock; then RemoveNode runs. *)
Definition ghost_conf : conf gstate gqret gcall :=
  play (w0, g3) link_remove (replicate 8 0 ++ replicate 12 1 ++ replicate 7 0).
Lemma ghost_reach : reachable (graph_prog iter_id) (w0, g3) link_remove ghost_conf.
Proof. apply play_reach. vm_compute. reflexivity. Qed.
Lemma all_done_quiet c : all_done c = true -> quiet c /\ finished c.
Proof.
  unfold all_done. intros E. rewrite forallb_forall in E.
  split; apply Forall_forall; intros t Hin; apply elem_of_list_In in Hin; specialize (E t Hin);
    destruct (t_cur t) eqn:E1, (t_todo t) eqn:E2; try discriminate; done.
Qed.
Lemma ghost_quiet : quiet ghost_conf.
Proof. apply all_done_quiet. vm_compute. reflexivity. Qed.
Definition nodes_now (c : conf gstate gqret gcall) : list UID :=
  match wg_nodes iter_id [] (c_sh c).2 with Ok ns => n_uid <$> ns | _ => [] end.
Lemma ghost_missing : wg_node (c_sh ghost_conf).2 ua = Err GraphErrNodeNotFound.
Proof. vm_compute. reflexivity. Qed.
Lemma ghost_listed : nodes_now ghost_conf = [ua; ub; uc].
Proof. vm_compute. reflexivity. Qed.
Lemma ghost_argument c : no_ghosts (c_sh c).2 -> wg_node (c_sh c).2 ua = Err GraphErrNodeNotFound -> nodes_now c = [ua; ub; uc] -> False.
Proof.
  intros F Hn Hl. unfold nodes_now in Hl.
  destruct (wg_nodes iter_id [] (c_sh c).2) as [ns| |] eqn:E; try discriminate.
  destruct ns as [|n ns]; [discriminate|]. injection Hl as Hu _.
  destruct (F iter_id [] (n :: ns) n E) as [m Hm]; [by left|]. rewrite Hu in Hm. congruence.
Qed.
Theorem c25_ghosts_refuted : ~ c25_full.
Proof.
  intros H. refine (ghost_argument ghost_conf (H false iter_id w0 g3 link_remove ghost_conf g3_tidy _ ghost_reach ghost_quiet) ghost_missing ghost_listed).
  unfold link_remove. constructor; [constructor; [left; cbn; eauto|constructor]|].
  constructor; [constructor; [right; cbn; eauto|constructor]|constructor].
Qed.
Print Assumptions c25_ghosts_refuted.
(** Through the store, whose own lock covers the whole call, the two never race: the
    graph of a store that was only used through concurrent store calls is one that a
    sequential history builds, so Node and Nodes agree. *)
Theorem c25_ghosts_partial :
  forall dir o x todo c, tidy dir (s_g x.2) -> reachable (store_prog o) x todo c -> quiet c ->
    tidy dir (s_g (c_sh c).2) /\ agree (s_g (c_sh c).2) /\ no_ghosts (s_g (c_sh c).2).
Proof.
  intros dir o x todo c Ht [sched E] Q.
  destruct (object_linearizable _ _ _ (store_sections o) x todo) as (lin & _ & L).
  destruct (L sched c E) as ((s' & Lg & Hs) & _ & _). rewrite (Hs Q). clear L Hs E Q.
  assert (T : tidy dir (s_g s'.2)).
  { revert Ht. induction Lg as [|s i [st op] r s1 l s2 E Lg IH]; intros Ht; [done|].
    apply IH. unfold store_call in E. cbn [fst snd] in E.
    pose proof (sstep_tidy dir o st s op Ht) as T. by rewrite E in T. }
  split; [done|]. pose proof (c03_lookup_enumeration_partial dir _ T) as A. split; [done|].
  intros o' st ns n En Hin. exists n. apply A. split; [|done].
  destruct (tidy_inv _ _ T) as ((Hd & Hb & Hk) & _). unfold wg_nodes in En. injection En as <-.
  apply listed_iff; [done|]. by apply b_all_nodes_in in Hin.
Qed.
Print Assumptions c25_ghosts_partial.
Example c25_example : nodes_now (play (w0, g3) link_remove (robin 200 0 (conf_init (w0, g3) link_remove))) = [ua; ub; uc] /\
  nodes_now (play (w0, g3) link_remove (replicate 12 1 ++ replicate 6 0)) = [ub; uc].
Proof. split; vm_compute; reflexivity. Qed.

(** ** C26: nodes created by two goroutines *)
Definition c26_full : Prop :=
  forall dir o w g st e1 e2 c, tidy dir g -> ~ same_text (ge_uid e1) (ge_uid e2) ->
    wg_node g (ge_uid e1) = Err GraphErrNodeNotFound -> wg_node g (ge_uid e2) = Err GraphErrNodeNotFound ->
    reachable (graph_prog o) (w, g) [[(st, QCreate e1 [])]; [(st, QCreate e2 [])]] c -> finished c ->
    ~ returned gfatal c ->
    forall o' st' ns, wg_nodes o' st' (c_sh c).2 = Ok ns ->
      ge_uid e1 ∈ n_uid <$> ns /\ ge_uid e2 ∈ n_uid <$> ns.
Definition create2 : list (list gcall) := [[([], QCreate (gent0 ua) [])]; [([], QCreate (gent0 ub) [])]].
(** Both NewNode calls return before the first AddNode: the same id twice. *)
Definition create_conf : conf gstate gqret gcall :=
  play (w0, gnew true) create2 (replicate 6 0 ++ robin 60 1 (play (w0, gnew true) create2 (replicate 6 0))).
Lemma create_reach : reachable (graph_prog iter_id) (w0, gnew true) create2 create_conf.
Proof. apply play_reach. vm_compute. reflexivity. Qed.
Lemma create_finished : finished create_conf.
Proof. apply all_done_quiet. vm_compute. reflexivity. Qed.
Definition oks (c : conf gstate gqret gcall) : bool :=
  forallb (fun t => forallb (fun x => match x.2 with QRUnit (Ok _) => true | _ => false end) (t_done t) &&
                    match t_cur t with None => true | _ => false end) (c_ths c).
Lemma oks_not_fatal c : oks c = true -> ~ returned gfatal c.
Proof.
  unfold oks. intros E (t & Hin & H). rewrite forallb_forall in E. apply elem_of_list_In in Hin. specialize (E t Hin).
  apply andb_prop in E as [E1 E2]. rewrite forallb_forall in E1.
  destruct H as [(op & r & Hd & F)|(op & r & Hc & F)]; [|by rewrite Hc in E2].
  apply elem_of_list_In in Hd. specialize (E1 _ Hd). cbn in E1. destruct F as [-> | ->]; discriminate.
Qed.
Lemma create_oks : oks create_conf = true.
Proof. vm_compute. reflexivity. Qed.
Lemma create_listed : nodes_now create_conf = [ua].
Proof. vm_compute. reflexivity. Qed.
Lemma create_argument c :
  (forall o' st' ns, wg_nodes o' st' (c_sh c).2 = Ok ns -> ua ∈ n_uid <$> ns /\ ub ∈ n_uid <$> ns) ->
  nodes_now c = [ua] -> False.
Proof.
  intros F Hl. unfold nodes_now in Hl.
  destruct (wg_nodes iter_id [] (c_sh c).2) as [ns| |] eqn:E; try discriminate.
  destruct (F _ _ _ E) as [_ Hb]. rewrite Hl in Hb. apply elem_of_list_singleton in Hb. discriminate.
Qed.
Theorem c26_distinct_nodes_refuted : ~ c26_full.
Proof.
  intros H. refine (create_argument create_conf (H true iter_id w0 (gnew true) [] (gent0 ua) (gent0 ub) create_conf
    (tidy_empty true) _ _ _ create_reach create_finished (oks_not_fatal _ create_oks)) create_listed).
  - discriminate.
  - reflexivity.
  - reflexivity.
Qed.
Print Assumptions c26_distinct_nodes_refuted.

(** What holds: goroutines that create entities with concurrent Adds on a new store.
    When they have finished every added entity is found, is listed by Nodes, and
    no two listed nodes share an id. *)
Lemma aresults_keeps dir ks : forall a u x, Forall (fun k => exists e l, k = CAdd e l) ks ->
  a_ents a !! u = Some x -> a_ents (aresults dir a ks).2 !! u = Some x.
Proof.
  induction ks as [|k ks IH]; intros a u x Hk Ha; cbn; [done|]. inversion Hk as [|? ? (e & l & ->) Hk']; subst.
  destruct (astep dir a (CAdd e l)) as [r a1] eqn:Ea. specialize (IH a1 u x Hk').
  destruct (aresults dir a1 ks) as [rs a2]. cbn in *. apply IH.
  destruct (a_ents a !! uid_string (ge_uid e)) eqn:Ee; injection Ea as <- <-; [done|].
  cbn. rewrite lookup_insert_ne; [done|]. congruence.
Qed.
Lemma aresults_adds dir ks : forall a e l, Forall (fun k => exists e l, k = CAdd e l) ks -> CAdd e l ∈ ks ->
  is_Some (a_ents (aresults dir a ks).2 !! uid_string (ge_uid e)).
Proof.
  induction ks as [|k ks IH]; intros a e l Hk Hin; [by apply elem_of_nil in Hin|].
  inversion Hk as [|? ? _ Hk']; subst. cbn.
  destruct (astep dir a k) as [r a1] eqn:Ea. apply elem_of_cons in Hin as [<-|Hin].
  - assert (G : is_Some (a_ents a1 !! uid_string (ge_uid e))).
    { cbn in Ea. destruct (a_ents a !! uid_string (ge_uid e)) as [y|] eqn:Ee; injection Ea as <- <-;
        [by rewrite Ee|]. cbn. rewrite lookup_insert. by eexists. }
    destruct G as [y Hy]. pose proof (aresults_keeps dir ks a1 _ _ Hk' Hy) as K.
    destruct (aresults dir a1 ks) as [rs a2]. cbn in *. by exists y.
  - specialize (IH a1 e l Hk' Hin). by destruct (aresults dir a1 ks).
Qed.
Lemma adds_only st e l ks (log : list (nat * stcall * sret)) i r :
  (fun x : nat * stcall * sret => x.1.2.2) <$> log = scall_op <$> ks ->
  (i, (st, SAdd e (store_den <$> l)), r) ∈ log ->
  exists l', CAdd e l' ∈ ks.
Proof.
  intros E Hin. assert (H : SAdd e (store_den <$> l) ∈ scall_op <$> ks).
  { rewrite <- E. apply elem_of_list_fmap. by exists (i, (st, SAdd e (store_den <$> l)), r). }
  apply elem_of_list_fmap in H as ([e' l'|?|?|? ? ?|? ?] & Ek & Hk); try discriminate. injection Ek as <- _. eauto.
Qed.
Theorem c26_distinct_nodes_partial :
  forall dir o x todo c,
    store_start dir x -> (Z.of_nat (asked_adds todo) <= max_int64)%Z ->
    Forall (Forall (fun k : client_call => exists e l, k.2 = CAdd e l)) todo ->
    reachable (store_prog o) x (made todo) c -> finished c ->
    (forall ks st e l, ks ∈ todo -> (st, CAdd e l) ∈ ks ->
       exists n, store_get (c_sh c).2 (ge_uid e) = Ok n /\ listed (s_g (c_sh c).2) n) /\
    (forall n m, listed (s_g (c_sh c).2) n -> listed (s_g (c_sh c).2) m -> n_id n = n_id m -> n = m).
Proof.
  intros dir o x todo c Hx Hk Ha Hr Hf.
  assert (Q : quiet c) by (eapply Forall_impl; [exact Hf|]; by intros t [? _]).
  destruct (store_start_ok _ _ Hx) as (Ht & _ & _).
  destruct (c25_ghosts_partial dir o x _ c Ht Hr Q) as (T & A & _).
  destruct (tidy_inv _ _ T) as ((Hd & Hb & Hkey) & _). split.
  - intros ks0 st e l Hin1 Hin2.
    destruct (c22_store_abstract dir o x todo c Hx Hk Hr Q) as (log & ks & Hi & Hout & Elog & _ & Hs & _).
    assert (Hlog : exists i r, (i, (st, SAdd e (store_den <$> l)), r) ∈ log).
    { apply elem_of_list_lookup in Hin1 as [i Ei]. pose proof (ops_reach _ _ _ _ Hr) as Ho.
      assert (E : (th_ops <$> c_ths c) !! i = Some (client_op <$> ks0)) by (rewrite Ho; unfold made; by rewrite list_lookup_fmap, Ei).
      rewrite list_lookup_fmap in E. destruct (c_ths c !! i) as [t|] eqn:Et; [|discriminate]. injection E as E.
      pose proof (Forall_lookup_1 _ _ _ _ Hf Et) as [F1 F2]. unfold th_ops in E. rewrite F1, F2 in E.
      cbn in E. rewrite app_nil_r in E.
      assert (Hd2 : (st, SAdd e (store_den <$> l)) ∈ (t_done t).*1).
      { rewrite E. apply elem_of_list_fmap. by exists (st, CAdd e l). }
      apply elem_of_list_fmap in Hd2 as ([op r] & -> & Hd2). exists i, r. apply calls_of_elem. by rewrite (Hi _ _ Et). }
    destruct Hlog as (i & r & Hlog). destruct (adds_only _ _ _ _ _ _ _ Elog Hlog) as [l' Hin].
    assert (Hall : Forall (fun k => exists e l, k = CAdd e l) ks).
    { apply Forall_forall. intros k Hin3.
      assert (Hop : scall_op k ∈ (fun x : nat * stcall * sret => x.1.2.2) <$> log)
        by (rewrite Elog; by apply elem_of_list_fmap_1).
      apply elem_of_list_fmap in Hop as ([[j [st' op]] r'] & Eop & Hj). cbn in Eop. subst op.
      apply calls_of_elem in Hj. destruct (c_ths c !! j) as [t|] eqn:Et.
      - rewrite (Hi _ _ Et) in Hj.
        pose proof (ops_reach _ _ _ _ Hr) as Ho.
        assert (E : (th_ops <$> c_ths c) !! j = Some (th_ops t)) by (by rewrite list_lookup_fmap, Et).
        rewrite Ho in E. unfold made in E. rewrite list_lookup_fmap in E.
        destruct (todo !! j) as [ks1|] eqn:Ej; [|discriminate]. injection E as E.
        assert (Hop : (st', scall_op k) ∈ client_op <$> ks1).
        { rewrite E. unfold th_ops. apply elem_of_app. left. apply elem_of_list_fmap. by exists (st', scall_op k, r'). }
        apply elem_of_list_fmap in Hop as ([st2 k2] & Ek & Hk2).
        pose proof (Forall_lookup_1 _ _ _ _ Ha Ej) as Hks. rewrite Forall_forall in Hks.
        destruct (Hks _ Hk2) as (e2 & l2 & E2). cbn in E2. subst k2. unfold client_op in Ek. cbn in Ek.
        injection Ek as _ Ek. destruct k; cbn in Ek; try discriminate. eauto.
      - apply lookup_ge_None in Et. rewrite (Hout _ Et) in Hj. by apply elem_of_nil in Hj. }
    destruct (aresults_adds dir ks (AState ∅ ∅) e l' Hall Hin) as [y Hy].
    specialize (Hs (ge_uid e)). rewrite Hy in Hs. destruct Hs as (n & Hn & _).
    exists n. split; [by unfold store_get; rewrite Hn|]. by apply A in Hn as [? _].
  - intros n m Hn Hm E. apply listed_iff in Hn, Hm; [|done..]. rewrite E in Hn. congruence.
Qed.
Print Assumptions c26_distinct_nodes_partial.
Definition adders : list (list client_call) := [[([], CAdd (gent0 ua) [])]; [([], CAdd (gent0 ub) []); ([], CAdd (gent0 ua) [])]].
Definition store_run (sched : list nat) : conf sstate sret stcall :=
  default (conf_init (World ∅ 2 (fun _ => "u"%string) 2, store0) (made adders))
    (exec (store_prog iter_id) (conf_init (World ∅ 2 (fun _ => "u"%string) 2, store0) (made adders)) sched).
Example c26_example :
  store_start false (World ∅ 2 (fun _ => "u"%string) 2, store0) /\
  asked_adds adders = 3 /\
  (fun t => t_done t) <$> c_ths (store_run (turns (store_prog iter_id) 200 0 (store_run []))) =
  [ [(([], SAdd (gent0 ua) []), SRUnit (Ok ()))];
    [(([], SAdd (gent0 ub) []), SRUnit (Ok ())); (([], SAdd (gent0 ua) []), SRUnit (Err StoreErrAlreadyExists))] ].
Proof.
  split; [exists [], w0; split; [reflexivity|]; vm_compute; reflexivity|]. split; [reflexivity|]. vm_compute. reflexivity.
Qed.

(** ** C66: data races on the graph *)
Definition c66_full : Prop :=
  forall dir o w g todo c, tidy dir g -> reachable (graph_prog o) (w, g) todo c -> ~ graph_race c.
(** calls that change the graph; NewNode does not *)
Definition changes (q : gq) : bool :=
  match q with QAddNode _ _ | QCreate _ _ | QRemoveNode _ | QLink _ _ _ | QUnlink _ _ => true | _ => false end.
(** In every race one goroutine changes the graph while the other reads it in SubGraph. *)
Theorem c66_only_subgraph_partial :
  forall o x todo c i j t1 t2 op1 op2 p1 p2,
    reachable (graph_prog o) x todo c ->
    i <> j -> c_ths c !! i = Some t1 -> c_ths c !! j = Some t2 ->
    t_cur t1 = Some (op1, p1) -> t_cur t2 = Some (op2, p2) ->
    graph_write p1 -> graph_write p2 \/ graph_read p2 ->
    changes op1.2 = true /\ is_subgraph op2.2 = true /\ ~ graph_write p2.
Proof.
  intros o x todo c i j t1 t2 op1 op2 p1 p2 Hr N E1 E2 C1 C2 W A.
  destruct (ginv_reach o x todo c Hr) as (hs & lk & I). split; [|by eapply ginv_race].
  destruct (changes op1.2) eqn:Ech; [done|exfalso].
  assert (G : gro p1).
  { refine (cur_inv (graph_prog o) (fun op p => changes op.2 = false -> gro p) x todo c _ _ Hr i t1 op1 p1 E1 C1 Ech).
    - intros op H. apply gro_graph; intros; intros Eq; rewrite Eq in H; discriminate.
    - intros op s mu p s' mu' p' IH Es H. by destruct (gro_step _ _ _ _ _ _ (IH H) Es). }
  destruct W as (u & k & y & -> & Hw). inversion G as [|? ? Hu _| | | | |]; subst. by apply Hw.
Qed.
Print Assumptions c66_only_subgraph_partial.
Lemma running_op o x todo c i t op p :
  reachable (graph_prog o) x todo c -> c_ths c !! i = Some t -> t_cur t = Some (op, p) -> exists l, todo !! i = Some l /\ op ∈ l.
Proof.
  intros Hr Et Ec. pose proof (ops_reach _ _ _ _ Hr) as Ho. exists (th_ops t). split.
  - by rewrite <- Ho, list_lookup_fmap, Et.
  - unfold th_ops. rewrite Ec. cbn. set_solver.
Qed.
(** SubGraph may run together with calls that leave the graph as it is. *)
Theorem c66_graph_race_partial :
  forall o x todo c,
    (forall i j l l' q q', i <> j -> todo !! i = Some l -> todo !! j = Some l' -> q ∈ l -> q' ∈ l' ->
       is_subgraph q.2 = true -> changes q'.2 = false) ->
    reachable (graph_prog o) x todo c -> ~ graph_race c.
Proof.
  intros o x todo c Hc Hr (i & j & t1 & t2 & op1 & op2 & p1 & p2 & N & E1 & E2 & C1 & C2 & W & A).
  destruct (c66_only_subgraph_partial o x todo c i j t1 t2 op1 op2 p1 p2 Hr N E1 E2 C1 C2 W A) as (H1 & H2 & _).
  destruct (running_op _ _ _ _ _ _ _ _ Hr E1 C1) as (l & El & Hl). destruct (running_op _ _ _ _ _ _ _ _ Hr E2 C2) as (l' & El' & Hl').
  rewrite (Hc j i l' l op2 op1) in H1; auto. discriminate.
Qed.
Print Assumptions c66_graph_race_partial.
(** SubGraph reads the graph without a lock while RemoveNode writes it. *)
Definition sub_remove : list (list gcall) := [[([], QSubGraph ua 2 [])]; [([], QRemoveNode uc)]].
Definition race_conf : conf gstate gqret gcall := play (w0, ex3 false) sub_remove (replicate 11 0 ++ replicate 7 1).
Definition cur (c : conf gstate gqret gcall) (i : nat) : prog gstate gqret :=
  match c_ths c !! i with
  | Some t => match t_cur t with Some (_, p) => p | None => Ret QRDot end
  | None => Ret QRDot
  end.
Definition is_act (p : prog gstate gqret) : bool := match p with Act _ _ => true | _ => false end.
Definition removes (c : conf gstate gqret gcall) (i : nat) : bool :=
  match cur c i with
  | Act u _ => bool_decide (is_Some (b_nodes (g_b (c_sh c).2) !! 2%Z)) && bool_decide (b_nodes (g_b (u (c_sh c)).2) !! 2%Z = None)
  | _ => false
  end.
Definition observes (c : conf gstate gqret gcall) (i : nat) : bool :=
  match cur c i with
  | Act _ k => is_act (k (c_sh c)) && negb (is_act (k ((c_sh c).1, gnew false)))
  | _ => false
  end.
Lemma race_found c : removes c 1 = true -> observes c 0 = true -> graph_race c.
Proof.
  intros W O. unfold removes, observes, cur in *.
  destruct (c_ths c !! 1) as [t1|] eqn:E1; [|discriminate]. destruct (t_cur t1) as [[op1 p1]|] eqn:C1; [|discriminate].
  destruct p1 as [| u1 k1 | | | | |]; try discriminate.
  destruct (c_ths c !! 0) as [t0|] eqn:E0; [|discriminate]. destruct (t_cur t0) as [[op0 p0]|] eqn:C0; [|discriminate].
  destruct p0 as [| u0 k0 | | | | |]; try discriminate.
  exists 1, 0, t1, t0, op1, op0, (Act u1 k1), (Act u0 k0). split_and!; auto.
  - exists u1, k1, (c_sh c). split; [done|]. intros E. apply andb_prop in W as [W1 W2].
    apply bool_decide_eq_true in W1, W2. rewrite E in W2. rewrite W2 in W1. by destruct W1.
  - right. exists u0, k0, (c_sh c).1, (c_sh c).2, (gnew false). split; [done|]. intros E.
    apply andb_prop in O as [O1 O2]. rewrite <- E in O2. destruct (c_sh c) as [w g]. cbn [fst snd] in *.
    by rewrite O1 in O2.
Qed.
Lemma race_conf_reach : reachable (graph_prog iter_id) (w0, ex3 false) sub_remove race_conf.
Proof. apply play_reach. vm_compute. reflexivity. Qed.
Lemma race_conf_race : graph_race race_conf.
Proof. apply race_found; vm_compute; reflexivity. Qed.
Theorem c66_graph_race_refuted : ~ c66_full.
Proof. intros H. exact (H false iter_id w0 (ex3 false) sub_remove race_conf (ex3_tidy false) race_conf_reach race_conf_race). Qed.
Print Assumptions c66_graph_race_refuted.
(** SubGraph in one goroutine, changes in none but its own *)
Definition sub_alone : list (list gcall) :=
  [[([], QSubGraph ua 2 []); ([], QRemoveNode uc)]; [([], QNewNode (gent0 (UVal "d")) []); ([], QEdges)]].
Example c66_example :
  match exec (graph_prog iter_id) (conf_init (w0, ex3 false) link_remove) (replicate 3 0 ++ [1; 1]) with Some _ => true | None => false end = true /\
  all_done (play (w0, ex3 false) sub_alone (robin 400 0 (conf_init (w0, ex3 false) sub_alone))) = true /\
  forall i j l l' q q', i <> j -> sub_alone !! i = Some l -> sub_alone !! j = Some l' -> q ∈ l -> q' ∈ l' ->
    is_subgraph q.2 = true -> changes q'.2 = false.
Proof.
  split; [vm_compute; reflexivity|]. split; [vm_compute; reflexivity|]. intros i j l l' q q' N Ei Ej Hq Hq' Hs.
  destruct i as [|[|i]]; cbn in Ei; try discriminate; injection Ei as <-;
    destruct j as [|[|j]]; cbn in Ej; try discriminate; try done; injection Ej as <-;
    rewrite !elem_of_cons, elem_of_nil in Hq, Hq'; naive_solver.
Qed.
