(** Calls that fail: C108. *)
From Verif.Model Require Import Store.
From Verif.Proof Require Import ConcP.
From Verif.Props Require Import PEntity PGraph PStore.

(** ** the graph *)
Definition known (g : wg) (u : UID) : Prop := exists n, wg_node g u = Ok n.
Definition graph_failed (r : gret) : Prop :=
  match r with RNode (Ok _) | RUnit (Ok _) | REdge (Ok _) => False | _ => True end.
(** why a call fails, and with what *)
Definition graph_reason (g : wg) (op : gop) (r : gret) : Prop :=
  match op with
  | GNewNode _ _ => r = RNode (Panic PNoSlot)
  | GAddNode (OtherNode _) _ => r = RUnit (Err GraphErrInvalidNode)
  | GAddNode (MemNode n) opts =>
      r = RUnit (Err GraphErrDuplicateNode) /\ known g (n_uid n) /\
      go_upsert (apply_opts graph_opts_zero opts) = false /\ is_Some (b_nodes (g_b g) !! n_id n)
  | GLink u v _ =>
      (r = REdge (Err GraphErrNodeNotFound) /\ (~ known g u \/ ~ known g v)) \/
      (r = REdge (Panic PSelfEdge) /\ wg_edge g u v = Err GraphErrEdgeNotExist /\ exists n m, wg_node g u = Ok n /\ wg_node g v = Ok m /\ n_id n = n_id m)
  | GRemoveNode _ | GUnlink _ _ => False
  end.
Lemma not_known g u : g_nodes g !! uid_string u = None -> ~ known g u.
Proof. intros E [n H]. unfold wg_node in H. by rewrite E in H. Qed.
Lemma is_known g u n : g_nodes g !! uid_string u = Some n -> wg_node g u = Ok n.
Proof. intros E. unfold wg_node. by rewrite E. Qed.
Theorem c108_graph : forall o st w g op r x,
  gstep o st (w, g) op = (r, x) -> graph_failed r -> x.2 = g /\ graph_reason g op r.
Proof.
  intros o st w g op r x E F. destruct op as [e opts|[n|u] opts|u|u v opts|u v]; cbn [gstep] in E.
  - unfold wg_new_node in E. destruct (newnode_id o st g) as [id|y|p] eqn:En; cbn [rbind] in E.
    + destruct (mem_new_node w id e opts) as [n w1]. injection E as <- <-. done.
    + exfalso. revert En. unfold newnode_id, b_new_node_id, idset_new_id. repeat case_match; done.
    + apply newnode_id_panic in En as ->. injection E as <- <-. done.
  - cbn [wg_add_node] in E. unfold addnode_commit in E.
    destruct (b_nodes (g_b g) !! n_id n) as [m|] eqn:Eb.
    + destruct (g_nodes g !! n_key n) as [k|] eqn:Ek; [|by injection E as <- <-].
      destruct (go_upsert (apply_opts graph_opts_zero opts)) eqn:Eu; [by injection E as <- <-|].
      injection E as <- <-. split; [done|]. split; [done|]. split; [|eauto]. exists k. by apply is_known.
    + unfold b_add_node in E. rewrite Eb in E. by injection E as <- <-.
  - injection E as <- <-. done.
  - unfold wg_remove_node in E. by destruct (g_nodes g !! uid_string u); injection E as <- <-.
  - cbn [graph_reason]. unfold wg_link, link_check, wg_edge in E.
    destruct (g_nodes g !! uid_string u) as [n|] eqn:Eu.
    2:{ cbn in E. injection E as <- <-. split; [done|]. left. split; [done|]. left. by apply not_known. }
    destruct (g_nodes g !! uid_string v) as [m|] eqn:Ev.
    2:{ cbn in E. injection E as <- <-. split; [done|]. left. split; [done|]. right. by apply not_known. }
    destruct (b_weighted_edge (g_b g) (n_id n) (n_id m)) as [ed|] eqn:Ew; [by injection E as <- <-|].
    rewrite bool_decide_eq_true_2 in E by done. unfold link_commit in E.
    destruct (new_edge w n m opts) as [ed w1] eqn:Ee. unfold b_set_edge in E.
    assert (Ef : ed_from ed = n /\ ed_to ed = m).
    { unfold new_edge in Ee. repeat case_match; injection Ee as <- <-; done. }
    destruct Ef as [Ef Et]. rewrite Ef, Et in E. case_bool_decide as Hi; [|by injection E as <- <-].
    injection E as <- <-. split; [done|]. right. split; [done|]. split; [by unfold wg_edge; rewrite Eu, Ev, Ew|]. exists n, m. split; [by apply is_known|]. split; [by apply is_known|done].
  - unfold wg_unlink in E. destruct (g_nodes g !! uid_string u); [destruct (g_nodes g !! uid_string v)|]; by injection E as <- <-.
Qed.
Print Assumptions c108_graph.
(** and conversely *)
Theorem c108_graph_fails : forall o st w g op r,
  graph_reason g op r -> (forall e opts, op <> GNewNode e opts) -> (gstep o st (w, g) op).1 = r.
Proof.
  intros o st w g op r H N. destruct op as [e opts|[n|u] opts|u|u v opts|u v]; cbn [graph_reason] in H; try done.
  - by destruct (N e opts).
  - destruct H as (-> & [k Hk] & Eu & [m Em]). cbn [gstep wg_add_node]. unfold addnode_commit. rewrite Em.
    unfold wg_node in Hk. unfold n_key. destruct (g_nodes g !! uid_string (n_uid n)) as [k'|]; [|done]. by rewrite Eu.
  - cbn [gstep]. unfold wg_link, link_check. destruct H as [[-> H]|(-> & -> & n & m & Hn & Hm & Hi)].
    + unfold wg_edge. destruct (g_nodes g !! uid_string u) as [n|] eqn:Eu; [|done].
      destruct (g_nodes g !! uid_string v) as [m|] eqn:Ev; [|done].
      exfalso. destruct H as [H|H]; apply H; eexists; by apply is_known.
    + unfold wg_node in Hn, Hm. rewrite bool_decide_eq_true_2 by done.
      destruct (g_nodes g !! uid_string u) as [n'|]; [|done]. injection Hn as ->.
      destruct (g_nodes g !! uid_string v) as [m'|]; [|done]. injection Hm as ->.
      unfold link_commit. destruct (new_edge w n m opts) as [ed w1] eqn:Ee. unfold b_set_edge.
      assert (Ef : ed_from ed = n /\ ed_to ed = m).
      { unfold new_edge in Ee. repeat case_match; injection Ee as <- <-; done. }
      destruct Ef as [-> ->]. by rewrite bool_decide_eq_true_2 by done.
Qed.
Print Assumptions c108_graph_fails.

(** ** the store *)
Definition stored (s : store) (u : UID) : Prop := exists n, store_get s u = Ok n.
Definition store_failed (r : sret) : Prop :=
  match r with SRUnit (Ok _) | SRNode (Ok _) | SRNodes (Ok _) => False | _ => True end.
Definition c108_full : Prop :=
  forall o st w s op r x, sstep o st (w, s) op = (r, x) -> store_failed r -> x.2 = s.
(** A bulk call keeps what it did before the item that failed (C20); the witness is a
    BulkAdd of two entities, the second of which is stored already. *)
Theorem c108_failed_call_changes_nothing_refuted : ~ c108_full.
Proof.
  intros H.
  destruct (sstep iter_id [] (w0, store2) (SBulkAdd [gent0 uc; gent0 ua] [])) as [r x] eqn:E.
  assert (R : match (sstep iter_id [] (w0, store2) (SBulkAdd [gent0 uc; gent0 ua] [])).1 with SRUnit (Err StoreErrAlreadyExists) => True | _ => False end)
    by (vm_compute; exact I).
  assert (D : match store_get (sstep iter_id [] (w0, store2) (SBulkAdd [gent0 uc; gent0 ua] [])).2.2 uc with Ok _ => true | _ => false end = true)
    by (vm_compute; reflexivity).
  rewrite E in R, D. cbn [fst snd] in R, D. pose proof (H _ _ _ _ _ _ _ E) as X.
  rewrite X in D by (by destruct r as [[|[]|]| |]). vm_compute in D. discriminate D.
Qed.
Print Assumptions c108_failed_call_changes_nothing_refuted.

(** Every other call that fails leaves the store as it was, and fails for one of the
    documented reasons. *)
Definition store_reason (s : store) (op : sop) (r : sret) : Prop :=
  match op with
  | SAdd e opts =>
      r = SRUnit (Panic PNoSlot) \/
      (r = SRUnit (Err StoreErrAlreadyExists) /\ stored s (ge_uid e) /\ so_upsert (apply_opts store_opts_zero opts) = false)
  | SGet u => r = SRNode (Err StoreErrEntityNotFound) /\ ~ stored s u
  | SBulkGet us => r = SRNodes (Err StoreErrEntityNotFound) /\ exists u, u ∈ us /\ ~ stored s u
  | SLink u v _ =>
      (r = SRUnit (Err StoreErrEntityNotFound) /\ (~ stored s u \/ ~ stored s v)) \/
      (r = SRUnit (Panic PSelfEdge) /\ exists n m, store_get s u = Ok n /\ store_get s v = Ok m /\ n_id n = n_id m)
  | _ => False
  end.
Definition partly (op : sop) : Prop := match op with SBulkAdd _ _ | SBulkLink _ _ _ => True | _ => False end.
Lemma get_known s u n : store_get s u = Ok n <-> wg_node (s_g s) u = Ok n.
Proof. unfold store_get, wg_node. by destruct (g_nodes (s_g s) !! uid_string u). Qed.
Lemma stored_known s u : stored s u <-> known (s_g s) u.
Proof. split; intros [n H]; exists n; by apply get_known. Qed.
Lemma get_fails s u r : store_get s u = r -> (exists n, r = Ok n) \/ (r = Err StoreErrEntityNotFound /\ ~ stored s u).
Proof.
  intros <-. unfold stored, store_get, wg_node. destruct (g_nodes (s_g s) !! uid_string u) as [n|]; [by left; exists n|].
  right. split; [done|]. by intros [n H].
Qed.
Theorem c108_store_partial : forall o st w s op r x,
  sstep o st (w, s) op = (r, x) -> store_failed r -> ~ partly op -> x.2 = s /\ store_reason s op r.
Proof.
  intros o st w s op r x E F P. destruct op as [e opts|u|u|u v opts|u v|es opts|us|us|u vs opts|u vs]; try (exfalso; by apply P); cbn [sstep store_reason] in *.
  - unfold store_add in E. destruct (wg_new_node o st w (s_g s) e _) as [[n w1]|y|p] eqn:En.
    + assert (Hn : g_nodes (s_g s) !! uid_string (ge_uid e) = Some n \/ (g_nodes (s_g s) !! n_key n = None)).
      { unfold wg_new_node in En. destruct (newnode_id o st (s_g s)) as [id| |]; try done. cbn [rbind] in En.
        destruct (mem_new_node w id e _) as [n1 w2] eqn:Em. injection En as <- _.
        assert (Ek : n_key n1 = uid_string (ge_uid e)).
        { unfold mem_new_node in Em. destruct (attrs_or_new _ _) as [a w3]. by injection Em as <- _. }
        unfold newnode_lookup. rewrite Ek. destruct (g_nodes (s_g s) !! uid_string (ge_uid e)) as [k|] eqn:Ew; [by left|].
        right. cbn. by rewrite Ek. }
      destruct (so_upsert (apply_opts store_opts_zero opts)) eqn:Eu.
      * destruct (wg_add_node (s_g s) (MemNode n) [graph_with_upsert]) as [r1 g1] eqn:Ea. injection E as <- <-.
        destruct (c108_graph o st w (s_g s) (GAddNode (MemNode n) [graph_with_upsert]) (RUnit r1) (w, g1)) as [_ H].
        { cbn [gstep]. by rewrite Ea. }
        { by destruct r1. }
        by destruct H as (_ & _ & ? & _).
      * destruct (wg_add_node (s_g s) (MemNode n) []) as [r1 g1] eqn:Ea. injection E as <- <-.
        destruct (c108_graph o st w (s_g s) (GAddNode (MemNode n) []) (RUnit r1) (w, g1)) as [Eg H].
        { cbn [gstep]. by rewrite Ea. }
        { by destruct r1. }
        destruct H as ([= ->] & [k Hk] & _). cbn [snd] in Eg |- *. subst g1. split; [by destruct s|]. right. split; [done|]. split; [|done].
        apply stored_known. destruct Hn as [Hn|Hn]; [by exists n; apply is_known|]. unfold wg_node in Hk. unfold n_key in Hn. by rewrite Hn in Hk.
    + exfalso. unfold wg_new_node in En. destruct (newnode_id o st (s_g s)) as [id|y'|p] eqn:Ei; cbn [rbind] in En.
      * by destruct (mem_new_node w id e _).
      * revert Ei. unfold newnode_id, b_new_node_id, idset_new_id. repeat case_match; done.
      * done.
    + unfold wg_new_node in En. destruct (newnode_id o st (s_g s)) as [id|y'|p'] eqn:Ei; cbn [rbind] in En; [by destruct (mem_new_node w id e _)|done|].
      injection En as <-. apply newnode_id_panic in Ei as ->. injection E as <- <-. split; [done|by left].
  - injection E as <- <-. split; [done|]. by destruct (get_fails s u _ eq_refl) as [[n H]|[H1 H2]]; [rewrite H in F|rewrite H1].
  - unfold store_delete, wg_remove_node in E. by destruct (g_nodes (s_g s) !! uid_string u); injection E as <- <-.
  - unfold store_link in E. destruct (wg_link w (s_g s) u v _) as [r1 [w1 g1]] eqn:El. injection E as <- <-.
    destruct (c108_graph o st w (s_g s) (GLink u v [graph_with_attrs (so_attrs (apply_opts store_opts_zero opts))]) (REdge r1) (w1, g1)) as [Eg H].
    { cbn [gstep]. by rewrite El. }
    { by destruct r1. }
    cbn [snd] in Eg |- *. subst g1. split; [by destruct s|]. destruct H as [[[= ->] H]|([= ->] & _ & n & m & Hn & Hm & Hi)].
    + left. split; [done|]. by rewrite !stored_known.
    + right. split; [done|]. exists n, m. by rewrite !get_known.
  - unfold store_unlink, wg_unlink in E. by destruct (g_nodes (s_g s) !! uid_string u); [destruct (g_nodes (s_g s) !! uid_string v)|]; injection E as <- <-.
  - injection E as <- <-. split; [done|]. clear P. revert F. unfold store_bulk_get. generalize (replicate (length us) (@None node)).
    induction us as [|u us IH]; intros l F; cbn [bulk_get_loop] in *; [done|].
    destruct (get_fails s u _ eq_refl) as [[n H]|[H1 H2]].
    + rewrite H in *. destruct (IH _ F) as [H1 (u' & Hin & H2)]. split; [done|]. exists u'. split; [by right|done].
    + rewrite H1 in *. split; [done|]. exists u. split; [by left|done].
  - exfalso. assert (B : forall us s, (store_bulk_delete s us).1 = Ok ()).
    { clear. induction us as [|u us IH]; intros s; cbn [store_bulk_delete]; [done|]. unfold store_delete, wg_remove_node.
      destruct (g_nodes (s_g s) !! uid_string u); apply IH. }
    specialize (B us s). destruct (store_bulk_delete s us) as [r1 s1]. cbn in B. subst r1. by injection E as <- <-.
  - exfalso. assert (B : forall vs s, (store_bulk_unlink s u vs).1 = Ok ()).
    { clear. induction vs as [|v vs IH]; intros s; cbn [store_bulk_unlink]; [done|]. unfold store_unlink, wg_unlink.
      destruct (g_nodes (s_g s) !! uid_string u); [destruct (g_nodes (s_g s) !! uid_string v)|]; apply IH. }
    specialize (B vs s). destruct (store_bulk_unlink s u vs) as [r1 s1]. cbn in B. subst r1. by injection E as <- <-.
Qed.
Print Assumptions c108_store_partial.

(** a second Add, a Get and a Link with unknown ends, a foreign node *)
Example c108_example :
  (sstep iter_id [] (w0, store2) (SAdd (gent0 ua) [])).1 = SRUnit (Err StoreErrAlreadyExists) /\
  (sstep iter_id [] (w0, store2) (SGet uc)).1 = SRNode (Err StoreErrEntityNotFound) /\
  (sstep iter_id [] (w0, store2) (SLink ua uc [])).1 = SRUnit (Err StoreErrEntityNotFound) /\
  (sstep iter_id [] (w0, store2) (SLink ua ua [])).1 = SRUnit (Panic PSelfEdge) /\
  (gstep iter_id [] (w0, s_g store2) (GAddNode (OtherNode uc) [])).1 = RUnit (Err GraphErrInvalidNode).
Proof. vm_compute. repeat split. Qed.
