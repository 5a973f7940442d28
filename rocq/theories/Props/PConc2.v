(** C99: are concurrent graph calls linearizable? *)
From Verif.Model Require Import Conc.
From Verif.Spec Require Import GraphSpec LinSpec.
From Verif.Proof Require Import GraphP GraphP2 LinP ConcP LinG LinG2.
From Verif.Props Require Import PGraph PConc.

(** the full statement *)
Definition c99_full : Prop :=
  forall dir o w g todo, tidy dir g -> linearization (graph_prog o) (graph_call o) (w, g) todo.

(** ** Link and RemoveNode: the ghost of C25 *)
Lemma link_remove_tidy dir o (x : gstate) log y :
  legal (graph_call o) x log y ->
  Forall (fun e : nat * gcall * gqret => (exists u v l, e.1.2.2 = QLink u v l) \/ exists u, e.1.2.2 = QRemoveNode u) log ->
  tidy dir x.2 -> tidy dir y.2.
Proof.
  induction 1 as [|x i [st q] r x1 l x2 E L IH]; intros F Ht; [done|].
  inversion F as [|? ? Hq F']; subst. apply IH; [done|]. destruct x as [w g]. cbn [fst snd] in *.
  destruct Hq as [(u & v & lo & ->)|[u ->]]; unfold graph_call in E; cbn [fst snd] in E.
  - pose proof (tidy_link dir w g u v lo Ht) as T. destruct (wg_link w g u v lo) as [r' x']. by injection E as <- <-.
  - pose proof (tidy_remove dir g u Ht) as T. destruct (wg_remove_node g u) as [r' x']. by injection E as <- <-.
Qed.
Lemma tidy_no_ghosts dir g : tidy dir g -> no_ghosts g.
Proof.
  intros T. pose proof (c03_lookup_enumeration_partial dir _ T) as A.
  intros o' st ns n En Hin. exists n. apply A. split; [|done].
  destruct (tidy_inv _ _ T) as ((Hd & Hb & Hk) & _). unfold wg_nodes in En. injection En as <-.
  apply listed_iff; [done|]. by apply GonumP.b_all_nodes_in in Hin.
Qed.
(** a log is made of the calls of its goroutines *)
Lemma log_calls {R Op} (log : list (nat * Op * R)) e : e ∈ log -> (e.1.2, e.2) ∈ calls_of e.1.1 log.
Proof.
  induction log as [|[[j op] r] l IH]; [by intros ?%elem_of_nil|]. intros [-> |H]%elem_of_cons; cbn.
  - rewrite Nat.eqb_refl. by left.
  - destruct (Nat.eqb j e.1.1); [right|]; auto.
Qed.
(** when no call is in progress, the log of a goroutine is what it has done *)
Lemma quiet_calls {S R Op} (impl : Op -> prog S R) call s0 todo c :
  linearization impl call s0 todo -> reachable impl s0 todo c -> quiet c ->
  exists log, legal call s0 log (c_sh c) /\
    (forall i t, c_ths c !! i = Some t -> calls_of i log = t_done t) /\
    (forall i, length (c_ths c) <= i -> calls_of i log = []).
Proof.
  intros (lin & _ & L) [sched E] Q. destruct (L sched _ E) as ((y & Hl & Hy) & Hc & Ho).
  exists (lin sched). split; [by rewrite (Hy Q)|]. split; [|done]. intros i t Et.
  destruct (Hc _ _ Et) as [Hd|(op & p & r & Hd & _)]; [done|].
  pose proof (Forall_lookup_1 _ _ _ _ Q Et) as Hn. cbn in Hn. congruence.
Qed.
Definition all_calls (f : gcall -> bool) (c : conf gstate gqret gcall) : bool :=
  forallb (fun t => forallb (fun d : gcall * gqret => f d.1) (t_done t)) (c_ths c).
Lemma all_calls_log f c log :
  all_calls f c = true ->
  (forall i t, c_ths c !! i = Some t -> calls_of i log = t_done t) ->
  (forall i, length (c_ths c) <= i -> calls_of i log = []) ->
  Forall (fun e : nat * gcall * gqret => f e.1.2 = true) log.
Proof.
  intros A Hc Ho. apply Forall_forall. intros e He. pose proof (log_calls _ _ He) as He'.
  destruct (c_ths c !! e.1.1) as [t|] eqn:Et.
  - rewrite (Hc _ _ Et) in He'. unfold all_calls in A. rewrite forallb_forall in A.
    specialize (A t (proj1 (elem_of_list_In _ _) (elem_of_list_lookup_2 _ _ _ Et))). cbn beta in A.
    rewrite forallb_forall in A. exact (A _ (proj1 (elem_of_list_In _ _) He')).
  - apply lookup_ge_None in Et. rewrite (Ho _ Et) in He'. by apply elem_of_nil in He'.
Qed.
Definition link_or_remove (c : gcall) : bool := match c.2 with QLink _ _ _ | QRemoveNode _ => true | _ => false end.
Lemma ghost_calls : all_calls link_or_remove ghost_conf = true.
Proof. vm_compute. reflexivity. Qed.
Theorem c99_calls_linearizable_refuted : ~ c99_full.
Proof.
  intros H. pose proof (H false iter_id w0 g3 link_remove g3_tidy) as L.
  destruct (quiet_calls _ _ _ _ _ L ghost_reach ghost_quiet) as (log & Hl & Hc & Ho).
  refine (ghost_argument ghost_conf _ ghost_missing ghost_listed).
  apply (tidy_no_ghosts false). eapply link_remove_tidy; [exact Hl| |exact g3_tidy].
  eapply Forall_impl; [exact (all_calls_log _ _ _ ghost_calls Hc Ho)|].
  intros [[i [st q]] r] E. cbn in *. destruct q; try discriminate; eauto.
Qed.
Print Assumptions c99_calls_linearizable_refuted.

(** ** RemoveNode and AddNode: RemoveNode looks the node up under the read lock and
    removes it under the write lock, as if it were still the same node. *)
Definition remove_add : list (list gcall) :=
  [[([], QRemoveNode ua)]; [([], QRemoveNode ua); ([], QAddNode (MemNode (mkn ua 9 1)) [])]].
(** the first RemoveNode has found the node; the other goroutine removes it and adds
    another one with the same UID; the first one goes on *)
Definition lost_conf : conf gstate gqret gcall :=
  play (w0, g3) remove_add (replicate 4 0 ++ replicate 22 1 ++ replicate 8 0).
Lemma lost_reach : reachable (graph_prog iter_id) (w0, g3) remove_add lost_conf.
Proof. apply play_reach. vm_compute. reflexivity. Qed.
Lemma lost_quiet : quiet lost_conf.
Proof. apply all_done_quiet. vm_compute. reflexivity. Qed.
Lemma merge12 {R Op} (l : list (nat * Op * R)) a b c :
  calls_of 0 l = [a] -> calls_of 1 l = [b; c] -> (forall i, 2 <= i -> calls_of i l = []) ->
  fmap (fun e : nat * Op * R => (e.1.2, e.2)) l ∈ [[a; b; c]; [b; a; c]; [b; c; a]].
Proof.
  intros H0 H1 H2. 
  assert (N : forall j op r, (j, op, r) ∈ l -> j < 2).
  { intros j op r Hin. destruct (decide (j < 2)); [done|]. pose proof (log_calls _ _ Hin) as X. cbn in X.
    rewrite H2 in X by lia. by apply elem_of_nil in X. }
  assert (T : forall (l : list (nat * Op * R)), (forall j op r, (j, op, r) ∈ l -> j < 2) ->
    forall xs, calls_of 0 l = [] -> calls_of 1 l = xs -> fmap (fun e : nat * Op * R => (e.1.2, e.2)) l = xs).
  { clear. intros l. induction l as [|[[j op] r] l IH]; intros N xs E0 E1; cbn in *; [done|].
    assert (j < 2) by (eapply N; by left). destruct j as [|[|j]]; [discriminate| |lia]. cbn in *. subst xs.
    f_equal. apply IH; auto. intros; eapply N; by right. }
  assert (T1 : forall (l : list (nat * Op * R)), (forall j op r, (j, op, r) ∈ l -> j < 2) ->
    forall a, calls_of 0 l = [a] -> calls_of 1 l = [] -> fmap (fun e : nat * Op * R => (e.1.2, e.2)) l = [a]).
  { clear -T. intros l. induction l as [|[[j op] r] l IH]; intros N a E0 E1; cbn in *; [done|].
    assert (j < 2) by (eapply N; by left). destruct j as [|[|j]]; [|discriminate|lia]. cbn in *.
    injection E0 as <- E0. f_equal. apply T; auto. intros; eapply N; by right. }
  clear H2. destruct l as [|[[j op] r] l]; [discriminate|].
  assert (j < 2) by (eapply N; by left).
  assert (N' : forall j op r, (j, op, r) ∈ l -> j < 2) by (intros; eapply N; by right).
  destruct j as [|[|j]]; [| |lia]; cbn in *.
  - injection H0 as <- H0. rewrite (T l N' _ H0 H1). by left.
  - injection H1 as <- H1. clear N. destruct l as [|[[j op2] r2] l]; [discriminate|].
    assert (j < 2) by (eapply N'; by left).
    assert (N2 : forall j op r, (j, op, r) ∈ l -> j < 2) by (intros; eapply N'; by right).
    destruct j as [|[|j]]; [| |lia]; cbn in *.
    + injection H0 as <- H0. rewrite (T l N2 _ H0 H1). right. by left.
    + injection H1 as <- H1. rewrite (T1 l N2 _ H0 H1). right. right. by left.
Qed.
Lemma legal_run {S R Op} (call : Op -> S -> R * S) s log s' :
  legal call s log s' ->
  s' = fold_left (fun s (e : Op * R) => (call e.1 s).2) ((fun e : nat * Op * R => (e.1.2, e.2)) <$> log) s.
Proof. induction 1 as [|s i op r s1 l s2 E L IH]; cbn; [done|]. by rewrite E. Qed.
(** Node finds ua, and Nodes lists it *)
Definition found_listed (g : wg) : bool * bool :=
  (match wg_node g ua with Ok _ => true | _ => false end,
   match wg_nodes iter_id [] g with Ok ns => existsb (fun n => bool_decide (n_uid n = ua)) ns | _ => false end).
Theorem c99_remove_add_refuted :
  ~ (forall dir o w g todo, tidy dir g ->
       Forall (Forall (fun c : gcall => (exists u, c.2 = QRemoveNode u) \/ exists a l, c.2 = QAddNode a l)) todo ->
       linearization (graph_prog o) (graph_call o) (w, g) todo).
Proof.
  intros H. assert (F : Forall (Forall (fun c : gcall => (exists u, c.2 = QRemoveNode u) \/ exists a l, c.2 = QAddNode a l)) remove_add).
  { unfold remove_add. repeat (apply Forall_cons; split); try apply Forall_nil; try done; cbn; eauto. }
  pose proof (H false iter_id w0 g3 remove_add g3_tidy F) as L. clear H.
  destruct (quiet_calls _ _ _ _ _ L lost_reach lost_quiet) as (log & Hl & Hc & Ho). clear L.
  assert (D : (fun t => t_done t) <$> c_ths lost_conf =
    [[(([], QRemoveNode ua), QRUnit (Ok ()))];
     [(([], QRemoveNode ua), QRUnit (Ok ())); (([], QAddNode (MemNode (mkn ua 9 1)) []), QRUnit (Ok ()))]]).
  { vm_compute. reflexivity. }
  assert (C : forall i l, ((fun t => t_done t) <$> c_ths lost_conf) !! i = Some l -> calls_of i log = l).
  { intros i l Hi. rewrite list_lookup_fmap in Hi. destruct (c_ths lost_conf !! i) as [t|] eqn:Et; [|discriminate].
    injection Hi as <-. by apply Hc. }
  rewrite D in C. pose proof (C 0 _ eq_refl) as C0. pose proof (C 1 _ eq_refl) as C1.
  assert (C2 : forall i, 2 <= i -> calls_of i log = []).
  { intros i Hi. apply Ho. replace (length (c_ths lost_conf)) with (length ((fun t => t_done t) <$> c_ths lost_conf))
      by apply fmap_length. rewrite D. done. }
  apply legal_run in Hl. pose proof (merge12 _ _ _ _ C0 C1 C2) as M.
  assert (X : found_listed (c_sh lost_conf).2 = (false, true)) by (vm_compute; reflexivity).
  rewrite Hl in X. clear -M X.
  apply elem_of_cons in M as [M|M]; [|apply elem_of_cons in M as [M|M]; [|apply elem_of_cons in M as [M|M]; [|by apply elem_of_nil in M]]];
    rewrite M in X; vm_compute in X; discriminate.
Qed.
Print Assumptions c99_remove_add_refuted.

(** ** Link and Link of the same pair: both look, neither finds an edge, both make one *)
Definition link_link : list (list gcall) := [[([], QLink ua ub [])]; [([], QLink ua ub [])]].
Definition twice_conf : conf gstate gqret gcall := play (w0, g3) link_link (replicate 8 0 ++ replicate 15 1 ++ replicate 7 0).
Lemma twice_reach : reachable (graph_prog iter_id) (w0, g3) link_link twice_conf.
Proof. apply play_reach. vm_compute. reflexivity. Qed.
Lemma twice_quiet : quiet twice_conf.
Proof. apply all_done_quiet. vm_compute. reflexivity. Qed.
(** the answers of calls made one after the other *)
Fixpoint answers {S R Op} (call : Op -> S -> R * S) (s : S) (ops : list Op) : list R :=
  match ops with [] => [] | op :: ops' => (call op s).1 :: answers call (call op s).2 ops' end.
Lemma legal_answers {S R Op} (call : Op -> S -> R * S) s log s' :
  legal call s log s' -> (fun e : nat * Op * R => e.2) <$> log = answers call s ((fun e : nat * Op * R => e.1.2) <$> log).
Proof. induction 1 as [|s i op r s1 l s2 E L IH]; cbn; [done|]. rewrite E. cbn. by f_equal. Qed.
Lemma merge11 {R Op} (l : list (nat * Op * R)) a b :
  calls_of 0 l = [a] -> calls_of 1 l = [b] -> (forall i, 2 <= i -> calls_of i l = []) ->
  fmap (fun e : nat * Op * R => (e.1.2, e.2)) l ∈ [[a; b]; [b; a]].
Proof.
  intros H0 H1 H2.
  assert (N : forall j op r, (j, op, r) ∈ l -> j < 2).
  { intros j op r Hin. destruct (decide (j < 2)); [done|]. pose proof (log_calls _ _ Hin) as X. cbn in X.
    rewrite H2 in X by lia. by apply elem_of_nil in X. }
  clear H2.
  assert (T : forall (l : list (nat * Op * R)), (forall j op r, (j, op, r) ∈ l -> j < 2) ->
    calls_of 0 l = [] -> calls_of 1 l = [] -> l = []).
  { clear. intros [|[[j op] r] l] N E0 E1; [done|]. assert (j < 2) by (eapply N; by left).
    destruct j as [|[|j]]; [discriminate|discriminate|lia]. }
  destruct l as [|[[j op] r] l]; [discriminate|].
  assert (j < 2) by (eapply N; by left).
  assert (N' : forall j op r, (j, op, r) ∈ l -> j < 2) by (intros; eapply N; by right). clear N.
  destruct l as [|[[j2 op2] r2] l]; [destruct j as [|[|j]]; discriminate|].
  assert (j2 < 2) by (eapply N'; by left).
  assert (N2 : forall j op r, (j, op, r) ∈ l -> j < 2) by (intros; eapply N'; by right).
  destruct j as [|[|j]]; [| |lia]; destruct j2 as [|[|j2]]; try lia; cbn in *; try discriminate.
  - injection H0 as <- H0. injection H1 as <- H1. rewrite (T l N2 H0 H1). by left.
  - injection H0 as <- H0. injection H1 as <- H1. rewrite (T l N2 H0 H1). right. by left.
Qed.
Definition links_only : list (list gcall) -> Prop := Forall (Forall (fun c : gcall => exists u v l, c.2 = QLink u v l)).
Theorem c99_link_link_refuted :
  ~ (forall dir o w g todo, tidy dir g -> links_only todo -> linearization (graph_prog o) (graph_call o) (w, g) todo).
Proof.
  intros H. assert (F : links_only link_link).
  { unfold links_only, link_link. repeat (apply Forall_cons; split); try apply Forall_nil; try done; cbn; eauto. }
  pose proof (H false iter_id w0 g3 link_link g3_tidy F) as L. clear H.
  destruct (quiet_calls _ _ _ _ _ L twice_reach twice_quiet) as (log & Hl & Hc & Ho). clear L.
  destruct (c_ths twice_conf !! 0) as [t0|] eqn:E0; [|vm_compute in E0; discriminate].
  destruct (c_ths twice_conf !! 1) as [t1|] eqn:E1; [|vm_compute in E1; discriminate].
  assert (C2 : forall i, 2 <= i -> calls_of i log = []) by (intros i Hi; by apply Ho).
  pose proof (Hc _ _ E0) as C0. pose proof (Hc _ _ E1) as C1.
  assert (D0 : (fun t => t_done t) <$> c_ths twice_conf !! 0 = Some (t_done t0)) by (by rewrite E0).
  assert (D1 : (fun t => t_done t) <$> c_ths twice_conf !! 1 = Some (t_done t1)) by (by rewrite E1).
  clear E0 E1 Hc Ho. revert C0 C1 D0 D1. generalize (t_done t0) (t_done t1). intros d0 d1 C0 C1 D0 D1.
  vm_compute in D0. vm_compute in D1. injection D0 as D0. injection D1 as D1. rewrite <- D0 in C0. rewrite <- D1 in C1.
  pose proof (merge11 _ _ _ C0 C1 C2) as M. apply legal_answers in Hl.
  assert (X : forall l : list (gcall * gqret), fmap (fun e : nat * gcall * gqret => (e.1.2, e.2)) log = l ->
    snd <$> l = answers (graph_call iter_id) (w0, g3) (fst <$> l)).
  { intros l <-. rewrite <- !list_fmap_compose. exact Hl. }
  clear -M X.
  apply elem_of_cons in M as [M|M]; [|apply elem_of_cons in M as [M|M]; [|by apply elem_of_nil in M]];
    specialize (X _ M); vm_compute in X; discriminate.
Qed.
Print Assumptions c99_link_link_refuted.

(** ** what is linearizable *)
(** Calls that look, together with AddNode: from every graph. *)
Theorem c99_adds_partial :
  forall o x todo,
    Forall (Forall (fun c : gcall => reads c.2 \/ exists a l, c.2 = QAddNode a l)) todo ->
    linearization (graph_prog o) (graph_call o) x todo.
Proof. exact adds_linearize. Qed.
Print Assumptions c99_adds_partial.
(** Calls that look, together with RemoveNode and Unlink, although these two look
    under one lock and remove under another. *)
Theorem c99_removes_partial :
  forall dir o w g todo, tidy dir g ->
    Forall (Forall (fun c : gcall =>
      reads c.2 \/ (exists u, c.2 = QRemoveNode u) \/ exists u v, c.2 = QUnlink u v)) todo ->
    linearization (graph_prog o) (graph_call o) (w, g) todo.
Proof. exact removes_linearize. Qed.
Print Assumptions c99_removes_partial.
(** Link too, although it reads under a read lock taken twice and writes under the
    write lock, when no other goroutine links the same pair of UIDs or removes one of
    them. *)
Definition apart (dir : bool) (todo : list (list gcall)) : Prop :=
  forall i j li lj c c' u v l, i <> j -> todo !! i = Some li -> todo !! j = Some lj ->
    c ∈ li -> c' ∈ lj -> c.2 = QLink u v l ->
    match c'.2 with
    | QLink u' v' _ => ~ same_ends dir u v u' v'
    | QRemoveNode u' => ~ same_text u' u /\ ~ same_text u' v
    | _ => True
    end.
Theorem c99_links_partial :
  forall dir o w g todo, tidy dir g -> apart dir todo ->
    Forall (Forall (fun c : gcall =>
      reads c.2 \/ (exists u, c.2 = QRemoveNode u) \/ (exists u v, c.2 = QUnlink u v) \/
      exists u v l, c.2 = QLink u v l)) todo ->
    linearization (graph_prog o) (graph_call o) (w, g) todo.
Proof.
  intros dir o w g todo Ht A F.
  apply (links_linearize dir o w g (fun i c => exists l, todo !! i = Some l /\ c ∈ l)); [done|..].
  - intros i c (l & Hl & Hc). pose proof (Forall_lookup_1 _ _ _ _ F Hl) as F'. rewrite Forall_forall in F'. by apply F'.
  - intros i j st u v l st' u' v' l' N (li & Hi & Hc) (lj & Hj & Hc').
    exact (A i j li lj _ _ u v l N Hi Hj Hc Hc' eq_refl).
  - intros i j st u v l st' u' N (li & Hi & Hc) (lj & Hj & Hc').
    exact (A i j li lj _ _ u v l N Hi Hj Hc Hc' eq_refl).
  - intros i l Hl. apply Forall_forall. eauto.
Qed.
Print Assumptions c99_links_partial.
(** two goroutines link two pairs with a common end, a third one unlinks and removes *)
Definition links3 : list (list gcall) :=
  [[([], QLink ua ub []); ([], QEdges)]; [([], QLink ub uc []); ([], QLink ua uc [])]; [([], QUnlink ua ub); ([], QEdge ua ub)]].
Definition links3_end : conf gstate gqret gcall :=
  play (w0, g3) links3 (replicate 8 0 ++ replicate 8 1 ++ replicate 7 0 ++ replicate 16 2 ++ replicate 22 1 ++ replicate 5 0).
Example c99_links_example :
  apart false links3 /\ ~ apart false link_link /\ all_done links3_end = true /\
  (fun t => length (t_done t)) <$> c_ths links3_end = [2; 2; 2] /\
  match wg_edges iter_id [] (c_sh links3_end).2 with Ok es => length es | _ => 0 end = 2.
Proof.
  split; [|split; [|split; [vm_compute; reflexivity|split; vm_compute; reflexivity]]].
  - intros i j li lj c c' u v l N Hi Hj Hc Hc' E.
    assert (X : forall k lk, links3 !! k = Some lk -> forall d, d ∈ lk ->
       match d.2 with QLink a b _ => (k = 0 /\ a = ua /\ b = ub) \/ (k = 1 /\ (a = ub \/ a = ua) /\ b = uc) | QRemoveNode _ => False | _ => True end).
    { intros k lk Hk d Hd. destruct k as [|[|[|k]]]; cbn in Hk; try discriminate; injection Hk as <-;
        repeat (apply elem_of_cons in Hd as [-> |Hd]; [cbn; auto 6|]); by apply elem_of_nil in Hd. }
    pose proof (X _ _ Hi _ Hc) as X1. pose proof (X _ _ Hj _ Hc') as X2. rewrite E in X1.
    destruct (c'.2); try done. unfold same_ends, same_text.
    destruct X1 as [(-> & -> & ->)|(-> & [-> | ->] & ->)], X2 as [(-> & -> & ->)|(-> & [-> | ->] & ->)]; try done;
      vm_compute; intros [[? ?]|(_ & ? & ?)]; discriminate.
  - intros A. specialize (A 0 1 _ _ ([], QLink ua ub []) ([], QLink ua ub []) ua ub [] ltac:(done) eq_refl eq_refl).
    cbn in A. apply A; [by left|by left|done|]. by left.
Qed.
(** two goroutines remove the same node, both having found it; a third one looks *)
Definition removes3 : list (list gcall) :=
  [[([], QRemoveNode ua)]; [([], QUnlink ua ub); ([], QRemoveNode ua)]; [([], QNode ua); ([], QNode ua)]].
Definition removes3_end : conf gstate gqret gcall :=
  play (w0, ex3 false) removes3 ([2; 2; 2; 2; 2] ++ replicate 4 0 ++ replicate 15 1 ++ replicate 8 0 ++ replicate 8 1 ++ replicate 5 2).
Example c99_example :
  reads (QNode ua) /\ ~ reads (QLink ua ub []) /\ all_done removes3_end = true /\
  nodes_now removes3_end = [ub; uc] /\
  (fun t => length (t_done t)) <$> c_ths removes3_end = [1; 2; 2].
Proof. split; [done|]. split; [intros []|]. split; [vm_compute; reflexivity|]. split; vm_compute; reflexivity. Qed.
