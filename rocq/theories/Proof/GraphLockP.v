(** How the graph calls use g.mu: the graph changes only under the write lock, and
    (SubGraph aside) is read only under a lock.  DOT keeps two read locks. *)
From Verif.Model Require Import Conc.
From Verif.Spec Require Import LinSpec ConcSpec.
From Verif.Proof Require Import LinP MutexP ConcP.

(** [gd sub Q h p]: from hold h of g.mu the program p writes the graph only with the
    write lock, reads it only with a lock (unless sub), and ends with Q. *)
Inductive gd {R} (sub : bool) (Q : hold -> R -> Prop) : hold -> prog gstate R -> Prop :=
| g_ret h r : Q h r -> h <> HA -> gd sub Q h (Ret r)
| g_act h u k : h <> HA -> (h = HW \/ forall x, (u x).2 = x.2) ->
    (sub = true \/ h <> HR 0 \/ forall w g g', k (w, g) = k (w, g')) ->
    (forall s, gd sub Q h (k s)) -> gd sub Q h (Act u k)
| g_rlock n k : gd sub Q (HR (1 + n)) k -> gd sub Q (HR n) (RLock 1 k)
| g_runlock n k : gd sub Q (HR n) k -> gd sub Q (HR (1 + n)) (RUnlock 1 k)
| g_lock k : gd sub Q HA (LockWait 1 k) -> gd sub Q (HR 0) (Lock 1 k)
| g_wait k : gd sub Q HW k -> gd sub Q HA (LockWait 1 k)
| g_unlock k : gd sub Q (HR 0) k -> gd sub Q HW (Unlock 1 k).

Lemma gd_bind {A B} sub (Q : hold -> A -> Prop) (Q' : hold -> B -> Prop) h (p : prog gstate A) (f : A -> prog gstate B) :
  gd sub Q h p -> (forall h' a, h' <> HA -> Q h' a -> gd sub Q' h' (f a)) -> gd sub Q' h (pbind p f).
Proof.
  intros D F. induction D as [| h u k N W Rd D IH | | | | |]; cbn [pbind]; [now apply F| |constructor; auto ..].
  constructor; auto. destruct Rd as [?|[?|Rd]]; auto. right. right. intros w g g'. now rewrite (Rd w g g').
Qed.
Lemma gd_map {A B} sub (Q : hold -> A -> Prop) (Q' : hold -> B -> Prop) h (p : prog gstate A) (f : A -> B) :
  gd sub Q h p -> (forall h' a, h' <> HA -> Q h' a -> Q' h' (f a)) -> gd sub Q' h (pmap f p).
Proof. intros D F. eapply gd_bind; eauto. intros h' a N q. constructor; auto. Qed.
Lemma gd_bindh {A B} sub h0 (Q' : hold -> B -> Prop) h (p : prog gstate A) (f : A -> prog gstate B) :
  gd sub (held h0) h p -> (forall a, gd sub Q' h0 (f a)) -> gd sub Q' h (pbind p f).
Proof. intros D F. eapply gd_bind; eauto. intros h' a _ ->. auto. Qed.
Lemma gd_maph {A B} sub h0 h (p : prog gstate A) (f : A -> B) :
  gd sub (held h0) h p -> gd sub (held h0) h (pmap f p).
Proof. intros D. eapply gd_map; eauto. Qed.

Lemma gd_gload sub h : h <> HA -> sub = true \/ h <> HR 0 -> gd sub (held h) h gload.
Proof. intros N S. unfold gload. apply g_act; [auto|auto|destruct S; auto|]. intros s. now constructor. Qed.
Lemma gd_gsave sub f : gd sub (held HW) HW (gsave f).
Proof. unfold gsave. apply g_act; [discriminate|now left|right; left; discriminate|]. intros s. now constructor. Qed.
Lemma gd_galloc {A} sub h (f : world -> A * world) : h <> HA -> gd sub (held h) h (galloc f).
Proof. intros N. unfold galloc. constructor; auto. intros s. now constructor. Qed.
Ltac gl := apply gd_gload; [discriminate | auto; right; discriminate].
Lemma gd_gset_b sub f : gd sub (held HW) HW (gset_b f).
Proof. eapply gd_bindh; [gl|intros g; apply gd_gsave]. Qed.
Lemma gd_gset_nodes sub f : gd sub (held HW) HW (gset_nodes f).
Proof. eapply gd_bindh; [gl|intros g; apply gd_gsave]. Qed.
Lemma gd_locked {A} sub (body : prog gstate A) :
  gd sub (held HW) HW body -> gd sub (held (HR 0)) (HR 0) (locked 1 body).
Proof.
  intros D. unfold locked. do 2 constructor. eapply gd_bindh; eauto. intros a. constructor. now constructor.
Qed.
Lemma gd_rlocked {A} sub n (body : prog gstate A) :
  gd sub (held (HR (1 + n))) (HR (1 + n)) body -> gd sub (held (HR n)) (HR n) (rlocked 1 body).
Proof. intros D. unfold rlocked. constructor. eapply gd_bindh; eauto. intros a. constructor. now constructor. Qed.
Lemma gd_gread {A} sub n (f : wg -> A) :
  gd sub (held (HR n)) (HR n) (rlocked 1 (pbind gload (fun g => Ret (f g)))).
Proof. apply gd_rlocked. eapply gd_bindh; [gl|intros g]. now constructor. Qed.
Ltac gret := constructor; [try reflexivity|discriminate].
Lemma gd_new_node sub o st e opts :
  gd sub npost (HR 0) (new_node_prog o st e opts).
Proof.
  unfold new_node_prog. do 2 constructor. eapply gd_bindh; [gl|intros g].
  destruct (newnode_id o st g) eqn:En.
  - constructor. eapply gd_bindh; [now apply gd_galloc|intros n].
    do 2 constructor. eapply gd_bindh; [gl|intros g']. constructor. gret. now left.
  - constructor. gret. now left.
  - gret. right. f_equal. eauto using newnode_id_panic.
Qed.
Lemma gd_add_node sub a opts : gd sub (held (HR 0)) (HR 0) (add_node_prog a opts).
Proof.
  destruct a as [n|u]; cbn [add_node_prog]; [|gret].
  apply gd_locked. eapply gd_bindh; [gl|intros g].
  destruct (b_nodes (g_b g) !! n_id n).
  - eapply gd_bindh; [gl|intros g1].
    destruct (g_nodes g1 !! n_key n); [destruct (go_upsert _)|].
    + do 2 (eapply gd_bindh; [apply gd_gset_nodes|intros _]). gret.
    + gret.
    + eapply gd_bindh; [apply gd_gset_nodes|intros _]. gret.
  - eapply gd_bindh; [gl|intros g1].
    destruct (b_add_node (g_b g1) n); [|gret..].
    eapply gd_bindh; [apply gd_gsave|intros _].
    eapply gd_bindh; [apply gd_gset_nodes|intros _]. gret.
Qed.
Lemma gd_remove_node sub u : gd sub (held (HR 0)) (HR 0) (remove_node_prog u).
Proof.
  unfold remove_node_prog. constructor. eapply gd_bindh; [gl|intros g].
  destruct (g_nodes g !! uid_string u); constructor; [|gret].
  apply gd_locked. eapply gd_bindh; [apply gd_gset_b|intros _].
  eapply gd_bindh; [apply gd_gset_nodes|intros _]. gret.
Qed.
Lemma gd_unlink sub u v : gd sub (held (HR 0)) (HR 0) (unlink_prog u v).
Proof.
  unfold unlink_prog. constructor. eapply gd_bindh; [gl|intros g].
  destruct (g_nodes g !! uid_string u); [|constructor; gret].
  eapply gd_bindh; [gl|intros g1].
  destruct (g_nodes g1 !! uid_string v); constructor; [|gret].
  apply gd_locked. eapply gd_bindh; [apply gd_gset_b|intros _]. gret.
Qed.
Lemma gd_link sub u v opts : gd sub (held (HR 0)) (HR 0) (link_prog u v opts).
Proof.
  unfold link_prog. constructor.
  eapply (gd_bind _ (fun h r => h = HR 1 /\ forall p, r <> Panic p)).
  { unfold edge_prog, rlocked. constructor.
    eapply (gd_bind _ (fun h r => h = HR 2 /\ forall p, r <> Panic p)).
    - eapply gd_bindh; [gl|intros g]. constructor; [|discriminate].
      split; auto. intros p. apply edge_no_panic.
    - intros h r _ [-> NP]. constructor. now constructor. }
  intros h r _ [-> NP]. destruct r as [e|x|p]; [constructor; gret| |now destruct (NP p)].
  destruct (bool_decide _); [|constructor; gret].
  eapply gd_bindh; [gl|intros g].
  destruct (g_nodes g !! uid_string u); [|constructor; gret].
  eapply gd_bindh; [gl|intros g1].
  destruct (g_nodes g1 !! uid_string v); [|constructor; gret].
  constructor. apply gd_locked. eapply gd_bindh; [now apply gd_galloc|intros e].
  eapply gd_bindh; [gl|intros g2].
  destruct (b_set_edge _ _); [|gret..].
  eapply gd_bindh; [apply gd_gsave|intros _]. gret.
Qed.
Lemma gd_sub_peers o st sgn sg from peers :
  gd true (held (HR 0)) (HR 0) (sub_peers_prog o st sgn sg from peers).
Proof.
  revert sg. induction peers as [|peer peers IH]; intros sg; cbn [sub_peers_prog]; [gret|].
  destruct (sgn !! n_id peer); [|apply IH]. cbv zeta.
  eapply gd_bindh; [gl|intros g].
  eapply gd_bindh; [now apply gd_galloc|intros [r sg1]].
  destruct r; [apply IH|gret..].
Qed.
Lemma gd_sub_nodes o st sgn sg todo :
  gd true (held (HR 0)) (HR 0) (sub_nodes_prog o st sgn sg todo).
Proof.
  revert sg. induction todo as [|[id from] todo IH]; intros sg; cbn [sub_nodes_prog]; [gret|].
  cbv zeta. eapply gd_bindh; [gl|intros g].
  destruct (b_from_nodes _ _ _ _); [|gret..].
  eapply gd_bindh; [apply gd_sub_peers|intros r].
  destruct r; [apply IH|gret..].
Qed.
Lemma gd_subgraph o st u d opts : gd true (held (HR 0)) (HR 0) (subgraph_prog o st u d opts).
Proof.
  unfold subgraph_prog. constructor. eapply gd_bindh; [gl|intros g].
  destruct (g_nodes g !! uid_string u); [|constructor; gret].
  constructor. eapply gd_bindh; [now apply gd_galloc|intros sg].
  constructor. eapply gd_bindh; [gl|intros g1]. cbv zeta.
  constructor. destruct (bfs_walk _ _ _ _ _) as [[order|e|p]|]; try gret.
  destruct (fold_left sub_visit order (sg, ∅, None)) as [[sg1 sgn] [e|]]; [gret|].
  apply gd_maph, gd_sub_nodes.
Qed.
Lemma gd_dot sub : gd sub (held (HR 2)) (HR 0) dot_prog.
Proof. unfold dot_prog. constructor. eapply gd_bindh; [gl|intros _]. constructor. gret. Qed.

(** What a call leaves locked. *)
Definition gpost (h : hold) (r : gqret) : Prop := r = QRDot -> h = HR 2.
Definition is_subgraph (q : gq) : bool := match q with QSubGraph _ _ _ => true | _ => false end.
Lemma gd_graph o c sub : (is_subgraph c.2 = true -> sub = true) -> gd sub gpost (HR 0) (graph_prog o c).
Proof.
  intros HS. destruct c as [st q]; cbn [graph_prog fst snd] in *.
  assert (M : forall A (f : A -> gqret) p, (forall a, f a <> QRDot) -> gd sub (held (HR 0)) (HR 0) p -> gd sub gpost (HR 0) (pmap f p)).
  { intros A f p N D. eapply gd_map; eauto. intros h a _ _ E. now destruct (N a). }
  destruct q.
  - eapply gd_map; [apply gd_new_node|]. discriminate.
  - apply M; [discriminate|apply gd_add_node].
  - eapply gd_bind; [apply gd_new_node|]. intros h r N Q. destruct r as [n|x|p].
    + destruct Q as [-> |[=]]. apply M; [discriminate|apply gd_add_node].
    + constructor; auto. discriminate.
    + constructor; auto. discriminate.
  - apply M; [discriminate|apply gd_gread].
  - apply M; [discriminate|apply gd_gread].
  - apply M; [discriminate|apply gd_remove_node].
  - apply M; [discriminate|apply gd_link].
  - apply M; [discriminate|apply gd_gread].
  - apply M; [discriminate|apply gd_gread].
  - apply M; [discriminate|apply gd_gread].
  - apply M; [discriminate|apply gd_unlink].
  - rewrite HS by reflexivity. specialize (HS eq_refl). subst sub. apply M; [discriminate|apply gd_subgraph].
  - eapply gd_map; [apply gd_dot|]. intros h a _ -> _. reflexivity.
Qed.

(** ** the invariant, with the holds leaked by finished calls *)
Section leak.
  Context (o : iter_order).
  Notation impl := (graph_prog o).
  Definition gth_ok (t : thread gstate gqret gcall) (h : hold) : Prop :=
    match t_cur t with None => h = HR 0 | Some (op, p) => gd (is_subgraph op.2) gpost h p end.
  Definition dot_done (c : conf gstate gqret gcall) : Prop :=
    exists t op, t ∈ c_ths c /\ (op, QRDot) ∈ t_done t.
  Record ginv (c : conf gstate gqret gcall) (hs lk : list hold) : Prop := {
    gi_len : length hs = length (c_ths c);
    gi_ths : forall i t h, c_ths c !! i = Some t -> hs !! i = Some h -> gth_ok t h;
    gi_mu : hmu (c_mu c 1) (hs ++ lk);
    gi_dot : dot_done c -> HR 2 ∈ lk;
  }.
  Lemma total_app {X} (f : X -> nat) l1 l2 : total f (l1 ++ l2) = total f l1 + total f l2.
  Proof. induction l1; cbn; lia. Qed.

  Lemma ginv_upd c hs lk i t t' h h' s' mu' :
    ginv c hs lk -> c_ths c !! i = Some t -> hs !! i = Some h -> t_done t' = t_done t ->
    gth_ok t' h' -> hmu (mu' 1) (<[i := h']> hs ++ lk) ->
    ginv (Conf s' mu' (<[i := t']> (c_ths c))) (<[i := h']> hs) lk.
  Proof.
    intros [L T M Dt] Et Eh Ed O M'. pose proof (lookup_lt_Some _ _ _ Et) as Lt.
    split; cbn; auto.
    - now rewrite !insert_length.
    - intros j t1 h1 E1 E2. destruct (decide (i = j)) as [<-|N].
      + rewrite list_lookup_insert in E1 by auto. rewrite list_lookup_insert in E2 by lia. congruence.
      + rewrite list_lookup_insert_ne in E1 by auto. rewrite list_lookup_insert_ne in E2 by auto. eauto.
    - intros (t1 & op & Hin & Hd). apply Dt. cbn in Hin. apply elem_of_list_lookup in Hin as [j E1].
      destruct (decide (i = j)) as [<-|N].
      + rewrite list_lookup_insert in E1 by auto. injection E1 as <-. exists t, op. rewrite <- Ed.
        split; auto. eapply elem_of_list_lookup_2; eauto.
      + rewrite list_lookup_insert_ne in E1 by auto. exists t1, op. split; auto. eapply elem_of_list_lookup_2; eauto.
  Qed.
  (** what the thread holds after its next step *)
  Definition hnext {R} (h : hold) (p : prog gstate R) : hold :=
    match p, h with
    | Act _ _, _ => h
    | RLock _ _, HR n => HR (1 + n)
    | RUnlock _ _, HR n => HR (pred n)
    | Lock _ _, _ => HA
    | LockWait _ _, _ => HW
    | _, _ => HR 0
    end.
  Definition tnext (t : thread gstate gqret gcall) (h : hold) : hold :=
    match t_cur t with Some (_, p) => hnext h p | None => HR 0 end.
  Lemma ginv_next c hs lk i t h c' :
    ginv c hs lk -> c_ths c !! i = Some t -> hs !! i = Some h -> conf_step impl c i = Some c' ->
    exists lk', ginv c' (<[i := tnext t h]> hs) (lk ++ lk') /\ ((c_sh c').2 = (c_sh c).2 \/ h = HW).
  Proof.
    intros I Et Eh E. unfold conf_step in E. rewrite Et in E.
    destruct (thread_step impl (c_sh c) (c_mu c) t) as [[[s' mu'] t']|] eqn:Es; [|discriminate].
    injection E as <-. pose proof (gi_ths _ _ _ I _ _ _ Et Eh) as O.
    destruct (gi_mu _ _ _ I) as [Mr Mw Ma M1 Mx]. pose proof (lookup_lt_Some _ _ _ Eh) as Lh.
    assert (TI : forall f h', total f (<[i:=h']> hs ++ lk) + f h = total f (hs ++ lk) + f h').
    { intros f h'. rewrite !total_app. pose proof (total_insert f _ _ _ h' Eh). lia. }
    assert (TG : forall f, f h <= total f (hs ++ lk)).
    { intros f. rewrite total_app. pose proof (total_ge f _ _ _ Eh). lia. }
    unfold gth_ok in O. unfold tnext. destruct (t_cur t) as [[op p]|] eqn:Ec.
    2:{ subst h. unfold thread_step in Es. rewrite Ec in Es. destruct (t_todo t) as [|op ops]; [discriminate|].
        injection Es as <- <- <-. exists []. cbn [hnext]. rewrite app_nil_r.
        split; auto.
        eapply ginv_upd; eauto.
        - unfold gth_ok; cbn. now apply gd_graph.
        - rewrite list_insert_id by auto. now constructor. }
    destruct (match p with Ret r => Some r | _ => None end) as [r|] eqn:Er.
    { destruct p; try discriminate. unfold thread_step in Es. rewrite Ec in Es. injection Es as <- <- <-.
      inversion O as [? ? Q| | | | | |]; subst. exists [h]. cbn [hnext]. split; auto.
      destruct I as [L T M Dt]. split; cbn.
      - now rewrite !insert_length.
      - intros j t1 h1 E1 E2. destruct (decide (i = j)) as [<-|N].
        + rewrite list_lookup_insert in E1 by lia. rewrite list_lookup_insert in E2 by lia.
          injection E1 as <-. injection E2 as <-. reflexivity.
        + rewrite list_lookup_insert_ne in E1 by auto. rewrite list_lookup_insert_ne in E2 by auto. eauto.
      - assert (TT : forall f, f (HR 0) = 0 -> total f (<[i:=HR 0]> hs ++ lk ++ [h]) = total f (hs ++ lk)).
        { intros f Ef. pose proof (TI f (HR 0)) as T1. rewrite !total_app in *. cbn. lia. }
        constructor; rewrite ?(TT h_rd), ?(TT h_ann), ?(TT h_wr) by reflexivity; auto.
      - intros (t1 & op1 & Hin & Hd). cbn in Hin. apply elem_of_list_lookup in Hin as [j E1].
        apply elem_of_app. destruct (decide (i = j)) as [<-|N].
        + rewrite list_lookup_insert in E1 by lia. injection E1 as <-. cbn in Hd.
          apply elem_of_app in Hd as [Hd|Hd].
          * left. apply Dt. exists t, op1. split; auto. eapply elem_of_list_lookup_2; eauto.
          * apply elem_of_list_singleton in Hd as [= -> <-]. right. rewrite (Q eq_refl). apply elem_of_list_singleton. auto.
        + rewrite list_lookup_insert_ne in E1 by auto. left. apply Dt. exists t1, op1. split; auto.
          eapply elem_of_list_lookup_2; eauto. }
    rewrite (thread_step_prog _ _ _ _ _ _ Ec) in Es by (intros r ->; discriminate).
    destruct (prog_step (c_sh c) (c_mu c) p) as [[[s1 mu1] p1]|] eqn:Ep; [|discriminate].
    injection Es as <- <- <-.
    destruct O as [|h u k N W Rd D|n k D|n k D|k D|k D|k D]; cbn [prog_step] in Ep; [discriminate|..].
    - injection Ep as <- <- <-. exists []. cbn [hnext]. rewrite app_nil_r. split.
      + eapply ginv_upd; [eauto..|unfold gth_ok; cbn; auto|]. rewrite list_insert_id by auto. now constructor.
      + cbn. destruct W as [-> |W]; auto.
    - destruct (m_ann (c_mu c 1)) eqn:EA; [discriminate|]. injection Ep as <- <- <-.
      exists []. cbn [hnext]. rewrite app_nil_r. split; auto. symmetry in Ma. apply Nat.ltb_ge in Ma.
      pose proof (TI h_rd (HR (1 + n))) as T1. pose proof (TI h_ann (HR (1 + n))) as T2.
      pose proof (TI h_wr (HR (1 + n))) as T3. cbn [h_rd h_ann h_wr] in T1, T2, T3.
      eapply ginv_upd; [eauto..|unfold gth_ok; cbn; auto|]. rewrite mu_set_same. constructor; cbn [m_rd m_wr m_ann]; try lia.
      + rewrite Mw. f_equal. lia.
      + rewrite ltb_false by lia. auto.
    - destruct (m_rd (c_mu c 1)) as [|m] eqn:EA; [discriminate|]. injection Ep as <- <- <-.
      exists []. cbn [hnext]. change (pred (1 + n)) with n. rewrite app_nil_r. split; auto.
      pose proof (TI h_rd (HR n)) as T1. pose proof (TI h_ann (HR n)) as T2.
      pose proof (TI h_wr (HR n)) as T3. cbn [h_rd h_ann h_wr] in T1, T2, T3.
      eapply ginv_upd; [eauto..|unfold gth_ok; cbn; auto|]. rewrite mu_set_same. constructor; cbn [m_rd m_wr m_ann]; try lia.
      + rewrite Mw. f_equal. lia.
      + rewrite Ma. f_equal. lia.
    - destruct (m_ann (c_mu c 1)) eqn:EA; [discriminate|]. injection Ep as <- <- <-.
      exists []. cbn [hnext]. rewrite app_nil_r. split; auto. symmetry in Ma. apply Nat.ltb_ge in Ma.
      pose proof (TI h_rd HA) as T1. pose proof (TI h_ann HA) as T2.
      pose proof (TI h_wr HA) as T3. cbn [h_rd h_ann h_wr] in T1, T2, T3.
      eapply ginv_upd; [eauto..|unfold gth_ok; cbn; auto|]. rewrite mu_set_same. constructor; cbn [m_rd m_wr m_ann]; try lia.
      + rewrite Mw. f_equal. lia.
      + rewrite ltb_true by lia. auto.
    - destruct (m_rd (c_mu c 1)) as [|m] eqn:EA; [|discriminate]. injection Ep as <- <- <-.
      pose proof (TG h_ann) as Ga. cbn in Ga.
      exists []. cbn [hnext]. rewrite app_nil_r. split; auto.
      pose proof (TI h_rd HW) as T1. pose proof (TI h_ann HW) as T2.
      pose proof (TI h_wr HW) as T3. cbn [h_rd h_ann h_wr] in T1, T2, T3.
      eapply ginv_upd; [eauto..|unfold gth_ok; cbn; auto|]. rewrite mu_set_same. constructor; cbn [m_rd m_wr m_ann]; try lia.
      + rewrite ltb_true by lia. auto.
      + rewrite Ma. f_equal. lia.
    - destruct (m_wr (c_mu c 1)) eqn:EA; [|discriminate]. injection Ep as <- <- <-.
      pose proof (TG h_wr) as Gw. cbn in Gw.
      exists []. cbn [hnext]. rewrite app_nil_r. split; auto.
      pose proof (TI h_rd (HR 0)) as T1. pose proof (TI h_ann (HR 0)) as T2.
      pose proof (TI h_wr (HR 0)) as T3. cbn [h_rd h_ann h_wr] in T1, T2, T3.
      eapply ginv_upd; [eauto..|unfold gth_ok; cbn; auto|]. rewrite mu_set_same. constructor; cbn [m_rd m_wr m_ann]; try lia.
      + rewrite ltb_false by lia. auto.
      + rewrite ltb_false by lia. auto.
  Qed.
  Lemma ginv_step c hs lk i c' :
    ginv c hs lk -> conf_step impl c i = Some c' ->
    exists hs' lk', ginv c' hs' (lk ++ lk') /\ ((c_sh c').2 = (c_sh c).2 \/ hs !! i = Some HW).
  Proof.
    intros I E. destruct (c_ths c !! i) as [t|] eqn:Et; [|unfold conf_step in E; by rewrite Et in E].
    destruct (hs !! i) as [h|] eqn:Eh.
    2:{ apply lookup_ge_None in Eh. apply lookup_lt_Some in Et. destruct I as [L _]. lia. }
    destruct (ginv_next _ _ _ _ _ _ _ I Et Eh E) as (lk' & I' & W). eexists _, _. split; [exact I'|].
    destruct W as [?| ->]; auto.
  Qed.
  Lemma ginv_init s0 todo : ginv (conf_init s0 todo) (replicate (length todo) (HR 0)) [].
  Proof.
    assert (Z : forall f, f (HR 0) = 0 -> total f (replicate (length todo) (HR 0) ++ []) = 0).
    { intros f E. rewrite app_nil_r. induction todo; cbn; auto. lia. }
    split; cbn.
    - rewrite replicate_length, fmap_length. auto.
    - intros i t h Et Eh. apply lookup_replicate in Eh as [-> _].
      rewrite list_lookup_fmap in Et. destruct (todo !! i) eqn:Eo; [|discriminate]. injection Et as <-.
      reflexivity.
    - constructor; rewrite ?(Z h_rd), ?(Z h_wr), ?(Z h_ann) by auto; auto.
    - intros (t & op & Hin & Hd). cbn in Hin. apply elem_of_list_fmap in Hin as (l & -> & _). inversion Hd.
  Qed.
  Lemma ginv_exec c hs lk sched c' :
    ginv c hs lk -> exec impl c sched = Some c' -> exists hs' lk', ginv c' hs' (lk ++ lk').
  Proof.
    revert c hs lk. induction sched as [|i sched IH]; intros c hs lk I E; cbn in E.
    - injection E as <-. exists hs, []. now rewrite app_nil_r.
    - destruct (conf_step impl c i) as [c1|] eqn:Es; [|discriminate].
      destruct (ginv_step _ _ _ _ _ I Es) as (hs1 & lk1 & I1 & _).
      destruct (IH _ _ _ I1 E) as (hs2 & lk2 & I2). exists hs2, (lk1 ++ lk2). now rewrite app_assoc.
  Qed.
  Lemma ginv_reach s0 todo c : reachable impl s0 todo c -> exists hs lk, ginv c hs lk.
  Proof.
    intros [sched E]. destruct (ginv_exec _ _ _ _ _ (ginv_init s0 todo) E) as (hs & lk & I). eauto.
  Qed.

  (** ** after a DOT the graph is frozen *)
  Lemma frozen_wr c hs lk : ginv c hs lk -> HR 2 ∈ lk -> total h_wr (hs ++ lk) = 0.
  Proof.
    intros I Hin. destruct (gi_mu _ _ _ I) as [_ _ _ _ Mx].
    destruct (Nat.eq_0_gt_0_cases (total h_wr (hs ++ lk))) as [|P]; auto. specialize (Mx P).
    apply elem_of_list_lookup in Hin as [j Ej]. rewrite total_app in Mx.
    pose proof (total_ge h_rd _ _ _ Ej) as G. cbn in G. lia.
  Qed.
  Lemma frozen_exec c hs lk sched c' :
    ginv c hs lk -> HR 2 ∈ lk -> exec impl c sched = Some c' -> (c_sh c').2 = (c_sh c).2.
  Proof.
    revert c hs lk. induction sched as [|i sched IH]; intros c hs lk I Hin E; cbn in E.
    - now injection E as <-.
    - destruct (conf_step impl c i) as [c1|] eqn:Es; [|discriminate].
      destruct (ginv_step _ _ _ _ _ I Es) as (hs1 & lk1 & I1 & W).
      rewrite (IH c1 hs1 (lk ++ lk1)); auto; [|apply elem_of_app; auto].
      destruct W as [W|W]; auto. exfalso. pose proof (frozen_wr _ _ _ I Hin) as Z.
      rewrite total_app in Z. pose proof (total_ge h_wr _ _ _ W) as G. cbn in G. lia.
  Qed.
  Lemma frozen_lock c hs lk i t op m k :
    ginv c hs lk -> HR 2 ∈ lk -> c_ths c !! i = Some t -> t_cur t = Some (op, LockWait m k) ->
    conf_step impl c i = None.
  Proof.
    intros I Hin Et Ec. unfold conf_step. rewrite Et, (thread_step_prog _ _ _ _ _ _ Ec) by discriminate.
    pose proof (lookup_lt_Some _ _ _ Et) as Lt. rewrite <- (gi_len _ _ _ I) in Lt.
    apply lookup_lt_is_Some in Lt as [h Eh]. pose proof (gi_ths _ _ _ I _ _ _ Et Eh) as O. unfold gth_ok in O. rewrite Ec in O.
    inversion O; subst. cbn. destruct (gi_mu _ _ _ I) as [Mr _ _ _ _].
    apply elem_of_list_lookup in Hin as [j Ej]. pose proof (total_ge h_rd _ _ _ Ej) as G. cbn in G.
    rewrite total_app in Mr. destruct (m_rd (c_mu c 1)); [lia|reflexivity].
  Qed.

  (** ** only SubGraph reads what another goroutine writes *)
  Lemma ginv_race c hs lk i j t1 t2 op1 op2 p1 p2 : ginv c hs lk ->
    i <> j -> c_ths c !! i = Some t1 -> c_ths c !! j = Some t2 ->
    t_cur t1 = Some (op1, p1) -> t_cur t2 = Some (op2, p2) ->
    graph_write p1 -> graph_write p2 \/ graph_read p2 -> is_subgraph op2.2 = true /\ ~ graph_write p2.
  Proof.
    intros I N E1 E2 C1 C2 W1 A2.
    assert (H : forall i t, c_ths c !! i = Some t -> exists h, hs !! i = Some h /\ gth_ok t h).
    { intros i0 t0 Et. pose proof (lookup_lt_Some _ _ _ Et) as Lt. rewrite <- (gi_len _ _ _ I) in Lt.
      apply lookup_lt_is_Some in Lt as [h Eh]. exists h. split; auto. eapply gi_ths; eauto. }
    destruct (H _ _ E1) as (h1 & Eh1 & O1). destruct (H _ _ E2) as (h2 & Eh2 & O2). unfold gth_ok in O1, O2.
    rewrite C1 in O1. rewrite C2 in O2.
    destruct W1 as (u1 & k1 & x1 & -> & W1). inversion O1 as [|? ? ? _ Hw _ _| | | | |]; subst.
    destruct Hw as [-> |Hw]; [|now rewrite Hw in W1].
    assert (Z : h2 = HR 0 \/ h2 = HA).
    { destruct (gi_mu _ _ _ I) as [_ _ _ M1 Mx]. rewrite !total_app in *.
      pose proof (total_ge h_wr _ _ _ Eh1) as G1. cbn in G1.
      pose proof (total_ge h_rd _ _ _ Eh2) as G2. pose proof (total_ge2 h_wr _ _ _ _ _ N Eh1 Eh2) as G3.
      destruct h2 as [[|n]| |]; cbn in *; auto; lia. }
    split.
    - destruct A2 as [(u2 & k2 & x2 & -> & W2)|(u2 & k2 & w & g & g' & -> & R2)];
        inversion O2 as [|? ? ? Na Hw Hr _| | | | |]; subst; (destruct Z as [-> |?]; [|contradiction]).
      + destruct Hw as [?|Hw]; [discriminate|now rewrite Hw in W2].
      + destruct Hr as [?|[?|Hr]]; [auto|congruence|now rewrite (Hr w g g') in R2].
    - intros (u2 & k2 & x2 & -> & W2). inversion O2 as [|? ? ? Na Hw Hr _| | | | |]; subst.
      destruct Z as [-> |?]; [|contradiction]. destruct Hw as [?|Hw]; [discriminate|now rewrite Hw in W2].
  Qed.
End leak.

(** ** calls that never ask for the write lock *)
Lemma nolock_gload : nolock gload.
Proof. constructor. intros. constructor. Qed.
Lemma nolock_galloc {A} (f : world -> A * world) : nolock (galloc f).
Proof. constructor. intros. constructor. Qed.
Lemma nolock_sub_peers o st sgn sg from peers : nolock (sub_peers_prog o st sgn sg from peers).
Proof.
  revert sg. induction peers as [|peer peers IH]; intros sg; cbn [sub_peers_prog]; [constructor|].
  destruct (sgn !! n_id peer); [|apply IH]. cbv zeta.
  apply nolock_bind; [apply nolock_gload|intros g]. apply nolock_bind; [apply nolock_galloc|intros [r sg1]].
  destruct r; [apply IH|constructor..].
Qed.
Lemma nolock_sub_nodes o st sgn sg todo : nolock (sub_nodes_prog o st sgn sg todo).
Proof.
  revert sg. induction todo as [|[id from] todo IH]; intros sg; cbn [sub_nodes_prog]; [constructor|]. cbv zeta.
  apply nolock_bind; [apply nolock_gload|intros g].
  destruct (b_from_nodes _ _ _ _); [|constructor..].
  apply nolock_bind; [apply nolock_sub_peers|intros r]. destruct r; [apply IH|constructor..].
Qed.
Lemma nolock_subgraph o st u d opts : nolock (subgraph_prog o st u d opts).
Proof.
  unfold subgraph_prog. constructor. apply nolock_bind; [apply nolock_gload|intros g].
  destruct (g_nodes g !! uid_string u); [|constructor; constructor].
  constructor. apply nolock_bind; [apply nolock_galloc|intros sg].
  constructor. apply nolock_bind; [apply nolock_gload|intros g1]. cbv zeta.
  constructor. destruct (bfs_walk _ _ _ _ _) as [[order|e|p]|]; try constructor.
  destruct (fold_left sub_visit order (sg, ∅, None)) as [[sg1 sgn] [e|]]; [constructor|].
  apply nolock_map, nolock_sub_nodes.
Qed.
Lemma nolock_graph o c : (forall e l, c.2 <> QNewNode e l) -> (forall n l, c.2 <> QAddNode n l) ->
  (forall e l, c.2 <> QCreate e l) -> (forall u, c.2 <> QRemoveNode u) -> (forall u v l, c.2 <> QLink u v l) ->
  (forall u v, c.2 <> QUnlink u v) -> nolock (graph_prog o c).
Proof.
  intros H1 H2 H3 H4 H5 H6. destruct c as [st q]; cbn [graph_prog fst snd] in *.
  assert (RL : forall (A : Type) (f : wg -> A), nolock (rlocked 1 (pbind gload (fun g => Ret (f g))))).
  { intros A f. unfold rlocked. constructor. apply nolock_bind; [|intros a; constructor; constructor].
    apply nolock_bind; [apply nolock_gload|intros g; constructor]. }
  destruct q; try solve [exfalso; first [by eapply H1|by eapply H2|by eapply H3|by eapply H4|by eapply H5|by eapply H6]].
  all: apply nolock_map; try apply RL; try apply nolock_subgraph.
  unfold dot_prog. constructor. apply nolock_bind; [apply nolock_gload|intros g]. constructor. constructor.
Qed.

(** ** calls that never change the graph *)
Inductive gro {R} : prog gstate R -> Prop :=
| ro_ret r : gro (Ret r)
| ro_act u k : (forall x, (u x).2 = x.2) -> (forall s, gro (k s)) -> gro (Act u k)
| ro_rlock m k : gro k -> gro (RLock m k)
| ro_runlock m k : gro k -> gro (RUnlock m k)
| ro_lock m k : gro k -> gro (Lock m k)
| ro_wait m k : gro k -> gro (LockWait m k)
| ro_unlock m k : gro k -> gro (Unlock m k).
Lemma gro_bind {A B} (p : prog gstate A) (f : A -> prog gstate B) : gro p -> (forall a, gro (f a)) -> gro (pbind p f).
Proof. intros D F. induction D; cbn [pbind]; [auto|constructor; auto..]. Qed.
Lemma gro_map {A B} (p : prog gstate A) (f : A -> B) : gro p -> gro (pmap f p).
Proof. intros D. apply gro_bind; [done|]. intros a. constructor. Qed.
Lemma gro_step {R} s mu (p : prog gstate R) s' mu' p' : gro p -> prog_step s mu p = Some (s', mu', p') -> gro p' /\ s'.2 = s.2.
Proof.
  intros D E. destruct D; cbn [prog_step] in E; repeat case_match; try discriminate; injection E as <- <- <-; auto.
  split; [by constructor|done].
Qed.
Lemma gro_gload : gro gload.
Proof. constructor; [done|]. intros. constructor. Qed.
Lemma gro_galloc {A} (f : world -> A * world) : gro (galloc f).
Proof. constructor; [done|]. intros. constructor. Qed.
Lemma gro_sub_peers o st sgn sg from peers : gro (sub_peers_prog o st sgn sg from peers).
Proof.
  revert sg. induction peers as [|peer peers IH]; intros sg; cbn [sub_peers_prog]; [constructor|].
  destruct (sgn !! n_id peer); [|apply IH]. cbv zeta.
  apply gro_bind; [apply gro_gload|intros g]. apply gro_bind; [apply gro_galloc|intros [r sg1]].
  destruct r; [apply IH|constructor..].
Qed.
Lemma gro_sub_nodes o st sgn sg todo : gro (sub_nodes_prog o st sgn sg todo).
Proof.
  revert sg. induction todo as [|[id from] todo IH]; intros sg; cbn [sub_nodes_prog]; [constructor|]. cbv zeta.
  apply gro_bind; [apply gro_gload|intros g].
  destruct (b_from_nodes _ _ _ _); [|constructor..].
  apply gro_bind; [apply gro_sub_peers|intros r]. destruct r; [apply IH|constructor..].
Qed.
Lemma gro_subgraph o st u d opts : gro (subgraph_prog o st u d opts).
Proof.
  unfold subgraph_prog. constructor. apply gro_bind; [apply gro_gload|intros g].
  destruct (g_nodes g !! uid_string u); [|constructor; constructor].
  constructor. apply gro_bind; [apply gro_galloc|intros sg].
  constructor. apply gro_bind; [apply gro_gload|intros g1]. cbv zeta.
  constructor. destruct (bfs_walk _ _ _ _ _) as [[order|e|p]|]; try constructor.
  destruct (fold_left sub_visit order (sg, ∅, None)) as [[sg1 sgn] [e|]]; [constructor|].
  apply gro_map, gro_sub_nodes.
Qed.
Lemma gro_new_node o st e opts : gro (new_node_prog o st e opts).
Proof.
  unfold new_node_prog. constructor. apply gro_bind; [apply gro_gload|intros g].
  destruct (newnode_id o st g); [|constructor; constructor|constructor].
  constructor. apply gro_bind; [apply gro_galloc|intros n]. constructor.
  apply gro_bind; [apply gro_gload|intros g']. constructor. constructor.
Qed.
Lemma gro_graph o c : (forall n l, c.2 <> QAddNode n l) ->
  (forall e l, c.2 <> QCreate e l) -> (forall u, c.2 <> QRemoveNode u) -> (forall u v l, c.2 <> QLink u v l) ->
  (forall u v, c.2 <> QUnlink u v) -> gro (graph_prog o c).
Proof.
  intros H2 H3 H4 H5 H6. destruct c as [st q]; cbn [graph_prog fst snd] in *.
  assert (RL : forall (A : Type) (f : wg -> A), gro (rlocked 1 (pbind gload (fun g => Ret (f g))))).
  { intros A f. unfold rlocked. constructor. apply gro_bind; [|intros a; constructor; constructor].
    apply gro_bind; [apply gro_gload|intros g; constructor]. }
  destruct q; try solve [exfalso; first [by eapply H2|by eapply H3|by eapply H4|by eapply H5|by eapply H6]].
  all: apply gro_map; try apply RL; try apply gro_subgraph; try apply gro_new_node.
  unfold dot_prog. constructor. apply gro_bind; [apply gro_gload|intros g]. constructor. constructor.
Qed.

(** a property of the code that a call still has to run, kept by every step *)
Lemma cur_inv {S R Op} (impl : Op -> prog S R) (I : Op -> prog S R -> Prop) s0 todo c :
  (forall op, I op (impl op)) ->
  (forall op s mu p s' mu' p', I op p -> prog_step s mu p = Some (s', mu', p') -> I op p') ->
  reachable impl s0 todo c -> forall i t op p, c_ths c !! i = Some t -> t_cur t = Some (op, p) -> I op p.
Proof.
  intros H0 Hs [sched E].
  assert (X : forall i t op p, c_ths (conf_init (R := R) s0 todo) !! i = Some t -> t_cur t = Some (op, p) -> I op p).
  { intros i t op p Et Ec. cbn in Et. rewrite list_lookup_fmap in Et. destruct (todo !! i); [|discriminate]. by injection Et as <-. }
  revert E X. generalize (conf_init (R := R) s0 todo). induction sched as [|n sched IH]; intros c0 E X; cbn in E.
  - by injection E as <-.
  - destruct (conf_step impl c0 n) as [c1|] eqn:Es; [|discriminate]. apply (IH c1 E). clear IH E.
    unfold conf_step in Es. destruct (c_ths c0 !! n) as [t|] eqn:Et; [|discriminate].
    destruct (thread_step _ _ _ _) as [[[s' mu'] t']|] eqn:Eh; [|discriminate]. injection Es as <-. cbn.
    intros i t1 op p E1 C1. destruct (decide (n = i)) as [<-|N].
    2:{ rewrite list_lookup_insert_ne in E1 by done. by eapply X. }
    rewrite list_lookup_insert in E1 by (by eapply lookup_lt_Some). injection E1 as ->.
    destruct (t_cur t) as [[op0 p0]|] eqn:Ec.
    + destruct (match p0 with Ret r => Some r | _ => None end) as [r|] eqn:Er.
      { destruct p0; try discriminate. unfold thread_step in Eh. rewrite Ec in Eh. injection Eh as <- <- <-. discriminate. }
      rewrite (thread_step_prog _ _ _ _ _ _ Ec) in Eh by (intros r ->; discriminate).
      destruct (prog_step _ _ p0) as [[[s1 mu1] p1]|] eqn:Ep; [|discriminate]. injection Eh as <- <- <-.
      injection C1 as <- <-. eapply Hs; [|exact Ep]. by eapply X.
    + unfold thread_step in Eh. rewrite Ec in Eh. destruct (t_todo t); [discriminate|]. injection Eh as <- <- <-.
      injection C1 as <- <-. apply H0.
Qed.
