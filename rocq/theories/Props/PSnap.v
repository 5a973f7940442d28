(** SubGraph beside other calls: C110, panics beside other calls: C111,
    errors of SubGraph: C112. *)
From Verif.Model Require Import Conc.
From Verif.Spec Require Import GraphSpec SubSpec LinSpec ConcSpec SnapSpec.
From Verif.Proof Require Import AttrsP GonumP GraphP GraphP2 SubP SnapP SnapP2 LinP MutexP ConcP GraphLockP PanicP AnyP.
From Verif.Props Require Import PGraph PStore PConc.

(** ** C110: what SubGraph returns is the ball of the graph as it was at some moment *)
Definition c110_full : Prop :=
  forall dir o w g todo sched c st u d opts sg, tidy dir g ->
    exec (graph_prog o) (conf_init (w, g) todo) sched = Some c ->
    answered c (st, QSubGraph u d opts) (QRGraph (Some (Ok sg))) ->
    exists g', moment o (w, g) todo sched g' /\ snapshot g' u d sg.

(** two nodes and an edge; Unlink falls between the walk and the copying of the edges *)
Definition snap_g : wg := (wg_link w0 (put_tidy (put_tidy (gnew true) (gent0 ua)) (gent0 ub)) ua ub []).2.2.
Lemma snap_g_tidy : tidy true snap_g.
Proof. apply tidy_link. repeat apply put_tidy_ok. apply tidy_empty. Qed.
Definition snap_todo : list (list gcall) := [[([], QSubGraph ua 1 [])]; [([], QUnlink ua ub)]].
Definition snap_sched : list nat := replicate 8 0 ++ replicate 11 1 ++ replicate 3 0.
Definition first_graph (c : conf gstate gqret gcall) : option wg :=
  match c_ths c with
  | t :: _ => match t_done t with [(_, QRGraph (Some (Ok sg)))] => Some sg | _ => None end
  | [] => None
  end.
Definition torn (sg : wg) : bool :=
  match wg_node sg ub, wg_edge sg ua ub with Ok _, Ok _ => false | Ok _, _ => true | _, _ => false end.
Lemma torn_no_snapshot g sg : torn sg = true -> ~ snapshot g ua 1 sg.
Proof.
  unfold torn. intros H [Hn He]. destruct (wg_node sg ub) as [n| |] eqn:En; [|discriminate..].
  assert (Hb : in_ball g ua 1 ub) by (apply Hn; by exists n).
  pose proof Hb as (k & Hk & Hp). assert (Hka : known g ua).
  { clear -Hp. induction Hp; auto. }
  assert (Ha : in_ball g ua 1 ua). { exists 0. split; [right; lia|]. by constructor. }
  assert (Hed : exists e, wg_edge g ua ub = Ok e).
  { inversion Hp as [? ? Ht|k' v ? e Hp' Hedge]; subst; [discriminate|].
    destruct k' as [|k']; [|lia]. inversion Hp' as [? ? Ht|]; subst. exists e.
    rewrite wg_edge_cases in Hedge |- *. unfold wg_node in *. by rewrite <- Ht. }
  destruct (proj2 (He ua ub) (conj Ha (conj Hb Hed))) as [e E]. by rewrite E in H.
Qed.
Lemma first_found c sg q : first_graph c = Some sg ->
  (fmap fst <$> (t_done <$> c_ths c)) !! 0 = Some [q] -> answered c q (QRGraph (Some (Ok sg))).
Proof.
  unfold first_graph. intros H Hd. destruct (c_ths c) as [|t ths] eqn:Et; [discriminate|].
  destruct (t_done t) as [|[q' [| | | | |[[sg'| |]|]|]] [|? ?]] eqn:Ed; try discriminate. injection H as ->.
  exists t. rewrite Et. split; [by left|]. rewrite Ed. cbn in Hd. rewrite Ed in Hd. injection Hd as ->. by left.
Qed.
Definition snap_conf : conf gstate gqret gcall := play (w0, snap_g) snap_todo snap_sched.
Theorem c110_snapshot_refuted : ~ c110_full.
Proof.
  intros H.
  assert (E : exec (graph_prog iter_id) (conf_init (w0, snap_g) snap_todo) snap_sched = Some snap_conf).
  { unfold snap_conf, play. assert (X : match exec (graph_prog iter_id) (conf_init (w0, snap_g) snap_todo) snap_sched with Some _ => true | None => false end = true) by (vm_compute; reflexivity).
    by destruct (exec _ _ _). }
  assert (T : match first_graph snap_conf with Some sg => torn sg | None => false end = true) by (vm_compute; reflexivity).
  destruct (first_graph snap_conf) as [sg|] eqn:Ef; [|discriminate].
  assert (A : answered snap_conf ([], QSubGraph ua 1 []) (QRGraph (Some (Ok sg)))).
  { apply first_found; [done|vm_compute; reflexivity]. }
  destruct (H true iter_id w0 snap_g snap_todo snap_sched snap_conf [] ua 1%Z [] sg snap_g_tidy E A) as (g' & _ & Hs).
  by apply (torn_no_snapshot _ _ T) in Hs.
Qed.
Print Assumptions c110_snapshot_refuted.

(** An edge that SubGraph returns need not have been in the graph at any moment: ids are
    reused, and the edges are copied by id. *)
Definition c110_edges_full : Prop :=
  forall dir o w g todo sched c st u d opts sg x y e, tidy dir g ->
    exec (graph_prog o) (conf_init (w, g) todo) sched = Some c ->
    answered c (st, QSubGraph u d opts) (QRGraph (Some (Ok sg))) ->
    wg_edge sg x y = Ok e -> exists g' e', moment o (w, g) todo sched g' /\ wg_edge g' x y = Ok e'.
(** a -> b -> c; after the walk c is removed, d gets the id of c and is linked from a *)
Definition reuse_g : wg :=
  (wg_link w0 (wg_link w0 (put_tidy (put_tidy (put_tidy (gnew true) (gent0 ua)) (gent0 ub)) (gent0 uc)) ua ub []).2.2 ub uc []).2.2.
Lemma reuse_g_tidy : tidy true reuse_g.
Proof. do 2 apply tidy_link. repeat apply put_tidy_ok. apply tidy_empty. Qed.
Definition reuse_todo : list (list gcall) :=
  [[([], QSubGraph ua (-1) [])]; [([], QRemoveNode uc); ([], QCreate (gent0 (UVal "d")) []); ([], QLink ua (UVal "d") [])]].
Definition reuse_sched : list nat := replicate 8 0 ++ replicate 46 1 ++ replicate 8 0.
Definition reuse_conf : conf gstate gqret gcall := play (w0, reuse_g) reuse_todo reuse_sched.
Definition linked_ac (g : wg) : bool := match wg_edge g ua uc with Ok _ => true | _ => false end.
Definition linked_at (n : nat) : bool :=
  match exec (graph_prog iter_id) (conf_init (w0, reuse_g) reuse_todo) (take n reuse_sched) with
  | Some c => linked_ac (c_sh c).2 | None => false end.
Lemma never_linked n : linked_at n = false.
Proof.
  assert (H : forallb (fun n => negb (linked_at n)) (seq 0 (S (length reuse_sched))) = true) by (vm_compute; reflexivity).
  assert (Hle : forall n, n <= length reuse_sched -> linked_at n = false).
  { intros m Hm. rewrite forallb_forall in H. apply negb_true_iff, H, in_seq. lia. }
  destruct (decide (n <= length reuse_sched)) as [?|Hn]; [by apply Hle|].
  rewrite <- (Hle (length reuse_sched)) by done. unfold linked_at. by rewrite !take_ge by lia.
Qed.
Theorem c110_edges_refuted : ~ c110_edges_full.
Proof.
  intros H.
  assert (E : exec (graph_prog iter_id) (conf_init (w0, reuse_g) reuse_todo) reuse_sched = Some reuse_conf).
  { unfold reuse_conf, play. assert (X : match exec (graph_prog iter_id) (conf_init (w0, reuse_g) reuse_todo) reuse_sched with Some _ => true | None => false end = true) by (vm_compute; reflexivity).
    by destruct (exec _ _ _). }
  assert (T : match first_graph reuse_conf with Some sg => linked_ac sg | None => false end = true) by (vm_compute; reflexivity).
  destruct (first_graph reuse_conf) as [sg|] eqn:Ef; [|discriminate].
  assert (A : answered reuse_conf ([], QSubGraph ua (-1) []) (QRGraph (Some (Ok sg)))).
  { apply first_found; [done|vm_compute; reflexivity]. }
  unfold linked_ac in T. destruct (wg_edge sg ua uc) as [e| |] eqn:Ee; [|discriminate..].
  destruct (H true iter_id w0 reuse_g reuse_todo reuse_sched reuse_conf [] ua (-1)%Z [] sg ua uc e reuse_g_tidy E A Ee)
    as (g'&e'&(n&c1&E1&<-)&He'). pose proof (never_linked n) as N. unfold linked_at in N.
  rewrite E1 in N. unfold linked_ac in N. by rewrite He' in N.
Qed.
Print Assumptions c110_edges_refuted.

(** If no goroutine makes a call that changes the graph, every SubGraph returns the
    ball of the graph, with its edges, weights and attributes, whatever else runs. *)
Theorem c110_snapshot_partial :
  forall dir o w g todo sched c st u d opts r, tidy dir g ->
    (forall l q, l ∈ todo -> q ∈ l -> changes q.2 = false) ->
    exec (graph_prog o) (conf_init (w, g) todo) sched = Some c ->
    answered c (st, QSubGraph u d opts) (QRGraph r) ->
    (c_sh c).2 = g /\
    match wg_node g u with
    | Ok _ => exists sg, r = Some (Ok sg) /\ snapshot g u d sg /\
        ((forall e, edge_listed g e -> (ed_attrs e < w_next w)%N) -> same_content w g (c_sh c).1 sg)
    | _ => r = Some (Err GraphErrNodeNotFound)
    end.
Proof.
  intros dir o w g todo sched c st u d opts r Ht Hn E A.
  destruct (c03_tidy_consistent _ _ Ht) as [Hr Hc]. pose proof (reach_base _ _ Hr) as (_&Hb&Hk).
  apply gwf_consistent in Hc; [|done..].
  destruct (stays_exec o w g (fun q => changes q.2 = false) (subpost w g) todo sched c) as (H1&H2&H3);
    [apply subpost_stable| |done..|].
  - intros q w' Hq F. apply (graph_stays dir); auto; intros; intros Eq; rewrite Eq in Hq; discriminate.
  - split; [done|]. specialize (H3 _ _ A). unfold subpost in H3. cbn in H3.
    destruct (wg_node g u) as [n| |] eqn:Eu; [|by injection H3..]. destruct H3 as (sg&[= ->]&Hs). exists sg. split; [done|].
    split; [by eapply subres_snapshot|]. intros Hat. by eapply subres_content.
Qed.
Print Assumptions c110_snapshot_partial.
(** If the only calls that change the graph are Link and Unlink, the nodes are those of
    the ball at one moment; an edge is returned only if it was there at some moment,
    with the weight of an edge of some moment, and an edge that is there all the time
    between two of the nodes is returned. *)
Definition keeps_nodes (q : gq) : bool :=
  match q with QAddNode _ _ | QCreate _ _ | QRemoveNode _ => false | _ => true end.
Theorem c110_links_partial :
  forall dir o w g todo sched c st u d opts r, tidy dir g ->
    (forall l q, l ∈ todo -> q ∈ l -> keeps_nodes q.2 = true) ->
    exec (graph_prog o) (conf_init (w, g) todo) sched = Some c ->
    answered c (st, QSubGraph u d opts) (QRGraph r) ->
    match wg_node g u with
    | Ok _ => exists sg, r = Some (Ok sg) /\
        (exists g', moment o (w, g) todo sched g' /\ forall v, known sg v <-> in_ball g' u d v) /\
        (forall x y e, wg_edge sg x y = Ok e -> known sg x /\ known sg y /\
           (exists g' e', moment o (w, g) todo sched g' /\ wg_edge g' x y = Ok e') /\
           (exists g' e', moment o (w, g) todo sched g' /\ edge_listed g' e' /\ ed_weight e = ed_weight e')) /\
        (forall x y, known sg x -> known sg y ->
           (forall g', moment o (w, g) todo sched g' -> exists e, wg_edge g' x y = Ok e) ->
           exists e, wg_edge sg x y = Ok e)
    | _ => r = Some (Err GraphErrNodeNotFound)
    end.
Proof.
  intros dir o w g todo sched c st u d opts r Ht Hn E A.
  destruct (c03_tidy_consistent _ _ Ht) as [Hr _]. pose proof (reach_base _ _ Hr) as Hbase. pose proof Hbase as (_&Hb&Hk).
  pose proof (c03_lookup_enumeration_partial _ _ Ht) as Hx. apply gexact_agree in Hx; [|done..]. destruct Hx as [Hx1 Hx2].
  set (inv := fixd dir (b_nodes (g_b g)) (g_nodes g)).
  destruct (runs_exec inv o w g (fun q => keeps_nodes q.2 = true) (linkpost (g_nodes g)) todo sched c)
    as (M&H1&H2&H3&H4); [done| | |done..|].
  - intros q r0 s M s1 M1 H F. by eapply linkpost_later.
  - intros q s M Hq. apply (graph_runs dir _ _ Hx1 Hx2); intros; intros Eq; rewrite Eq in Hq; discriminate.
  - specialize (H2 _ _ A). unfold linkpost in H2. cbn in H2. unfold wg_node at 1.
    assert (Hmom : forall s, s ∈ M -> moment o (w, g) todo sched s.2).
    { intros s Hs. apply H3 in Hs as (n&c1&E1&<-). by exists n, c1. }
    destruct (g_nodes g !! uid_string u) as [n|] eqn:Eu; [|by injection H2].
    destruct H2 as (sg&[= ->]&(s&w1&sg1&P&B1&I&B3&B4&B5&B6)). exists sg. split; [done|].
    pose proof (H4 _ B1) as Hfx. pose proof (fixd_exact _ _ _ Hx1 Hx2 _ Hfx) as Hex. destruct Hfx as (Hbs&HN&Hgn).
    pose proof (reach_base _ _ (si_reach _ _ _ _ _ _ I)) as Hbase'. pose proof (si_exact _ _ _ _ _ _ I) as [Hy1 Hy2].
    assert (Hws : gwf s.2) by (destruct Hbs as (_&?&?); by apply gexact_gwf).
    assert (Hus : wg_node s.2 u = Ok n) by (apply wg_node_Ok; by rewrite Hgn).
    destruct (ball_nodes dir s.2 u n d sg Hbs Hws Hus Hbase' (conj Hy1 Hy2) B5 B6) as [Hmatch Hkn].
    split; [exists s.2; auto|].
    (* every moment has the nodes of the walk *)
    assert (Hnode : forall s' v a, s' ∈ M -> wg_node sg v = Ok a -> exists a', wg_node s'.2 v = Ok a' /\ n_id a' = n_id a).
    { intros s' v a Hs' Ha. destruct (Hmatch _ _ Ha) as (a'&Ha'&Hi). exists a'. split; [|done].
      destruct (H4 _ Hs') as (_&_&Hg'). apply wg_node_Ok in Ha'. apply wg_node_Ok. by rewrite Hg', <- Hgn. }
    split.
    + intros x y e He. pose proof He as He0. rewrite wg_edge_cases in He.
      destruct (wg_node sg x) as [a| |] eqn:Ha; [|done..]. destruct (wg_node sg y) as [b| |] eqn:Hb1; [|done..].
      split; [eexists; exact Ha|]. split; [eexists; exact Hb1|].
      destruct (b_weighted_edge (g_b sg) (n_id a) (n_id b)) as [e'|] eqn:Ee; [|done]. injection He as ->.
      unfold b_weighted_edge in Ee. destruct (adj_get (b_from (g_b sg)) (n_id a) (n_id b)) as [e1|] eqn:Eadj; [|done].
      destruct Hbase' as (Hd'&_). rewrite Hd' in Ee. injection Ee as ->.
      destruct (si_some _ _ _ _ _ _ I _ _ _ Eadj) as [HP (e0&(s0&Hs0&He1)&Hwt&_)]. split.
      * destruct (B3 _ _ HP) as (_&_&s2&Hs2&Had).
        destruct (Hnode s2 x a Hs2 Ha) as (a'&Ha'&Hai). destruct (Hnode s2 y b Hs2 Hb1) as (b'&Hb'&Hbi).
        rewrite <- Hai, <- Hbi in Had. apply (edge_adj s2.2 x y a' b' Ha' Hb') in Had as [e2 He2].
        exists s2.2, e2. auto.
      * exists s0.2, e0. split; [auto|]. split; [|done]. apply edge_listed_iff; [|done].
        by destruct (H4 _ Hs0) as ((_&?&_)&_).
    + intros x y [a Ha] [b Hb1] Hall. apply (edge_adj sg x y a b Ha Hb1), (si_none _ _ _ _ _ _ I), B4.
      * apply wg_node_Ok in Ha. apply Hy1 in Ha. eauto.
      * apply wg_node_Ok in Hb1. apply Hy1 in Hb1. eauto.
      * intros s2 Hs2. destruct (Hnode s2 x a Hs2 Ha) as (a'&Ha'&<-). destruct (Hnode s2 y b Hs2 Hb1) as (b'&Hb'&<-).
        apply (edge_adj s2.2 x y a' b' Ha' Hb'). apply Hall. auto.
Qed.
Print Assumptions c110_links_partial.
(** Beside any calls: the nodes are the root as it was at one moment and nodes the graph
    has at one moment, an edge connects two of them and has the weight of an
    edge of some moment.  Nothing else can be in the result. *)
Theorem c110_any_partial :
  forall dir o w g todo sched c st u d opts sg, reach dir g ->
    exec (graph_prog o) (conf_init (w, g) todo) sched = Some c ->
    answered c (st, QSubGraph u d opts) (QRGraph (Some (Ok sg))) ->
    exists g0 g1 r, moment o (w, g) todo sched g0 /\ moment o (w, g) todo sched g1 /\ wg_node g0 u = Ok r /\
      (forall n, listed sg n -> n = r \/ listed g1 n) /\
      (forall v n, wg_node sg v = Ok n -> n = r \/ listed g1 n) /\
      (forall e, edge_listed sg e ->
         (ed_from e = r \/ listed g1 (ed_from e)) /\ (ed_to e = r \/ listed g1 (ed_to e)) /\
         exists g' e', moment o (w, g) todo sched g' /\ edge_listed g' e' /\ ed_weight e = ed_weight e').
Proof.
  intros dir o w g todo sched c st u d opts sg Hr E A.
  destruct (lruns_exec (gbase dir) o w g (anypost o) todo sched c) as (M&H1&H2&H3&H4);
    [by apply reach_base| | |done|].
  - intros q0 r0 s M s1 M1 H F. by eapply anypost_later.
  - intros q0 s M. apply any_lruns.
  - destruct (H2 _ _ A) as [_ H]. cbn in H. destruct H as (x&[= <-]&(s0&s1&r&Hs0&Hs1&Er&(Hb&Hn&Hg&He))).
    assert (Hmom : forall s, s ∈ M -> moment o (w, g) todo sched s.2).
    { intros s Hs. apply H3 in Hs as (n&c1&E1&<-). by exists n, c1. }
    assert (Hl : forall n, n = r \/ b_nodes (g_b s1.2) !! n_id n = Some n -> n = r \/ listed s1.2 n).
    { intros n [?|?]; [by left|right]. apply listed_iff; [|done]. by destruct (H4 _ Hs1) as (_&?&_). }
    exists s0.2, s1.2, r. split; [auto|]. split; [auto|]. split; [by apply wg_node_Ok|].
    destruct Hb as (_&Hb&_). split; [|split].
    + intros n Hn'. apply listed_iff in Hn'; [|done]. by apply Hl, (Hn (n_id n)).
    + intros v n Hv. apply wg_node_Ok in Hv. by eapply Hl, Hg.
    + intros e He'. apply edge_listed_iff in He'; [|done]. destruct (He _ _ _ He') as (A1&A2&(e0&(s2&Hs2&Hin)&Hw)).
      split; [auto|]. split; [auto|]. exists s2.2, e0. split; [auto|]. split; [|done].
      apply edge_listed_iff; [|done]. by destruct (H4 _ Hs2) as (_&?&_).
Qed.
Print Assumptions c110_any_partial.
(** the run with the reused id: three nodes, and the edge from a to c beside that from a to b *)
Example c110_any_example :
  match first_graph reuse_conf with
  | Some sg => match wg_nodes iter_id [] sg, wg_edges iter_id [] sg with
               | Ok ns, Ok es => n_key <$> ns = ["a"; "b"; "c"]%string /\ 2 <= length es
               | _, _ => False end
  | None => False end.
Proof. vm_compute. split; [reflexivity|lia]. Qed.
(** two SubGraph calls in turns, beside NewNode and Edges; the witness of the refutation is torn *)
Definition snap_calm : list (list gcall) :=
  [[([], QSubGraph ua 1 []); ([], QSubGraph ub (-1) [])]; [([], QSubGraph ua (-1) [])];
   [([], QNewNode (gent0 (UVal "d")) []); ([], QEdges)]].
Example c110_example :
  (forall l q, l ∈ snap_calm -> q ∈ l -> changes q.2 = false) /\ tidy true snap_g /\
  all_done (play (w0, snap_g) snap_calm (robin 200 0 (conf_init (w0, snap_g) snap_calm))) = true /\
  (forall e, edge_listed snap_g e -> (ed_attrs e < w_next (wg_link w0 (put_tidy (put_tidy (gnew true) (gent0 ua)) (gent0 ub)) ua ub []).2.1)%N) /\
  (forall l q, l ∈ snap_todo -> q ∈ l -> keeps_nodes q.2 = true) /\
  match first_graph (play (w0, snap_g) snap_todo (replicate 13 0)) with
  | Some sg => torn sg = false /\ wg_node sg ub = wg_node snap_g ub | None => False end.
Proof.
  split; [|split; [exact snap_g_tidy|split; [vm_compute; reflexivity|split; [|split]]]].
  - intros l q Hl Hq. unfold snap_calm in Hl. rewrite !elem_of_cons, elem_of_nil in Hl.
    destruct Hl as [->|[->|[->|[]]]]; rewrite !elem_of_cons, elem_of_nil in Hq; naive_solver.
  - intros e He. destruct (He iter_id []) as (es&Hes&Hin). vm_compute in Hes. injection Hes as <-.
    repeat (apply elem_of_cons in Hin as [->|Hin]; [vm_compute; reflexivity|]). by apply elem_of_nil in Hin.
  - intros l q Hl Hq. unfold snap_todo in Hl. rewrite !elem_of_cons, elem_of_nil in Hl.
    destruct Hl as [->|[->|[]]]; rewrite !elem_of_cons, elem_of_nil in Hq; naive_solver.
  - vm_compute. split; reflexivity.
Qed.

(** ** C111: a call made beside other calls panics only if it would panic alone, on the
    graph as it is at some moment of the execution *)
Definition c111_full : Prop :=
  forall dir o w g todo sched c q r, reach dir g ->
    exec (graph_prog o) (conf_init (w, g) todo) sched = Some c ->
    answered c q r -> panics r = true -> panics_alone o (w, g) todo sched q.
(** SubGraph looks its root up, releases the lock and walks from the node it found.  If
    the node was removed and another took its id, the walk can meet the UID of the root
    again, and the copy links it with itself. *)
(** a -> b; a is removed, c gets its id, a new a is added and linked from c *)
Definition back_todo : list (list gcall) :=
  [[([], QSubGraph ua 1 [])];
   [([], QRemoveNode ua); ([], QCreate (gent0 uc) []); ([], QCreate (gent0 ua) []); ([], QLink uc ua [])]].
Definition back_sched : list nat := replicate 4 0 ++ replicate 65 1 ++ replicate 8 0.
Definition back_conf : conf gstate gqret gcall := play (w0, snap_g) back_todo back_sched.
Definition first_panic (c : conf gstate gqret gcall) : option gopanic :=
  match c_ths c with
  | t :: _ => match t_done t with [(_, QRGraph (Some (Panic p)))] => Some p | _ => None end
  | [] => None
  end.
Lemma panic_found c p q : first_panic c = Some p ->
  (fmap fst <$> (t_done <$> c_ths c)) !! 0 = Some [q] -> answered c q (QRGraph (Some (Panic p))).
Proof.
  unfold first_panic. intros H Hd. destruct (c_ths c) as [|t ths] eqn:Et; [discriminate|].
  destruct (t_done t) as [|[q' [| | | | |[[| |p']|]|]] [|? ?]] eqn:Ed; try discriminate. injection H as ->.
  exists t. rewrite Et. split; [by left|]. rewrite Ed. cbn in Hd. rewrite Ed in Hd. injection Hd as ->. by left.
Qed.
Definition back_alone (n : nat) : bool :=
  match exec (graph_prog iter_id) (conf_init (w0, snap_g) back_todo) (take n back_sched) with
  | Some c => panics (graph_call iter_id ([], QSubGraph ua 1 []) (c_sh c)).1 | None => false end.
Lemma never_alone n : back_alone n = false.
Proof.
  assert (H : forallb (fun n => negb (back_alone n)) (seq 0 (S (length back_sched))) = true) by (vm_compute; reflexivity).
  assert (Hle : forall n, n <= length back_sched -> back_alone n = false).
  { intros m Hm. rewrite forallb_forall in H. apply negb_true_iff, H, in_seq. lia. }
  destruct (decide (n <= length back_sched)) as [?|Hn]; [by apply Hle|].
  rewrite <- (Hle (length back_sched)) by done. unfold back_alone. by rewrite !take_ge by lia.
Qed.
Theorem c111_subgraph_refuted : ~ c111_full.
Proof.
  intros H.
  assert (E : exec (graph_prog iter_id) (conf_init (w0, snap_g) back_todo) back_sched = Some back_conf).
  { unfold back_conf, play. assert (X : match exec (graph_prog iter_id) (conf_init (w0, snap_g) back_todo) back_sched with Some _ => true | None => false end = true) by (vm_compute; reflexivity).
    by destruct (exec _ _ _). }
  assert (T : match first_panic back_conf with Some _ => true | None => false end = true) by (vm_compute; reflexivity).
  destruct (first_panic back_conf) as [p|] eqn:Ef; [|discriminate].
  assert (A : answered back_conf ([], QSubGraph ua 1 []) (QRGraph (Some (Panic p)))).
  { apply panic_found; [done|vm_compute; reflexivity]. }
  destruct (c03_tidy_consistent _ _ snap_g_tidy) as [Hr _].
  destruct (H true iter_id w0 snap_g back_todo back_sched back_conf _ _ Hr E A eq_refl) as (n&c1&E1&Hp).
  pose proof (never_alone n) as N. unfold back_alone in N. rewrite E1 in N. by rewrite Hp in N.
Qed.
Print Assumptions c111_subgraph_refuted.
(** It holds of every call but SubGraph, beside any calls. *)
Theorem c111_panics_partial :
  forall dir o w g todo sched c q r, reach dir g ->
    exec (graph_prog o) (conf_init (w, g) todo) sched = Some c ->
    answered c q r -> panics r = true ->
    (forall u d opts, q.2 <> QSubGraph u d opts) -> panics_alone o (w, g) todo sched q.
Proof.
  intros dir o w g todo sched c q r Hr E A Hp Hq.
  destruct (lruns_exec (gbase dir) o w g (panpost o) todo sched c) as (M&H1&H2&H3&H4);
    [by apply reach_base| | |done|].
  - intros q0 r0 s M s1 M1 H F. by eapply panpost_later.
  - intros q0 s M. apply panics_lruns.
  - specialize (H2 _ _ A). unfold panpost in H2.
    assert (Hs : exists s, s ∈ M /\ panics (graph_call o q s).1 = true) by (destruct (q.2); first [by destruct (Hq u depth opts)|auto]).
    destruct Hs as (s&Hs&Hp'). destruct (H3 _ Hs) as (n&c1&E1&<-). by exists n, c1.
Qed.
Print Assumptions c111_panics_partial.
(** So the calls that only read, AddNode, RemoveNode and Unlink never panic, and Link
    panics only if at some moment both UIDs belong to nodes with one id. *)
Theorem c111_which_partial :
  forall dir o w g todo sched c st q r, reach dir g ->
    exec (graph_prog o) (conf_init (w, g) todo) sched = Some c ->
    answered c (st, q) r -> panics r = true ->
    match q with
    | QNewNode _ _ | QCreate _ _ => exists g' p, moment o (w, g) todo sched g' /\ newnode_id o st g' = Panic p
    | QLink u v _ => exists g' a b, moment o (w, g) todo sched g' /\ wg_node g' u = Ok a /\ wg_node g' v = Ok b /\ n_id a = n_id b
    | QSubGraph _ _ _ => True
    | _ => False
    end.
Proof.
  intros dir o w g todo sched c st q r Hr E A Hp.
  assert (H : (exists u d opts, q = QSubGraph u d opts) \/ panics_alone o (w, g) todo sched (st, q)).
  { destruct q; try (right; eapply c111_panics_partial; eauto; discriminate). left. eauto. }
  destruct H as [(u&d&opts&->)|(n&c1&E1&Hc)]; [done|].
  assert (Hm : moment o (w, g) todo sched (c_sh c1).2) by (by exists n, c1).
  assert (Hb : gbase dir (c_sh c1).2).
  { destruct (lruns_exec (gbase dir) o w g (panpost o) todo (take n sched) c1) as (M&H1&_&_&H4);
      [by apply reach_base| | |done|by apply H4].
    - intros q0 r0 s M s1 M1 H F. by eapply panpost_later.
    - intros q0 s M. apply panics_lruns. }
  destruct (c_sh c1) as [w1 g1]. cbn in Hm, Hb. unfold graph_call in Hc. cbn [fst snd] in Hc.
  destruct q; cbn in Hc; try done.
  - exists g1. unfold wg_new_node in Hc. destruct (newnode_id o st g1) as [i|x|p]; cbn in Hc; [|done|by exists p].
    by destruct (mem_new_node _ _ _ _).
  - pose proof (add_no_panic g1 n0 opts) as N. destruct (wg_add_node g1 n0 opts) as [[| |p] g2]; [done..|]. by destruct (N p).
  - exists g1. unfold wg_new_node in Hc. destruct (newnode_id o st g1) as [i|x|p]; cbn in Hc; [|done|by exists p].
    destruct (mem_new_node w1 i e opts) as [n' w2]. cbn in Hc.
    pose proof (add_no_panic g1 (MemNode (newnode_lookup g1 n')) []) as N. cbn in N.
    destruct (addnode_commit _ _ _) as [[| |p] g2]; [done..|]. by destruct (N p).
  - unfold wg_node in Hc. by destruct (_ !! _).
  - unfold wg_remove_node in Hc. by destruct (_ !! _).
  - unfold wg_link in Hc. unfold link_check in Hc.
    pose proof (edge_no_panic g1 u v) as N. destruct (wg_edge g1 u v) as [e|x|p]; [done| |by destruct (N p)].
    case_bool_decide; [|done].
    destruct (g_nodes g1 !! uid_string u) as [a|] eqn:Ea; [|done]. destruct (g_nodes g1 !! uid_string v) as [b|] eqn:Eb; [|done].
    exists g1, a, b. split; [done|]. split; [by apply wg_node_Ok|]. split; [by apply wg_node_Ok|].
    unfold link_commit in Hc. destruct (new_edge w1 a b opts) as [e w2] eqn:Ew.
    destruct (new_edge_ends _ _ _ _ _ _ Ew) as [Hef Het]. rewrite <- Hef, <- Het.
    destruct (decide (n_id (ed_from e) = n_id (ed_to e))) as [?|Ne]; [done|].
    destruct (b_set_edge_ok (g_b g1) e Ne) as (b'&Eb'&_). by rewrite Eb' in Hc.
  - pose proof (edge_no_panic g1 u v) as N. destruct (wg_edge g1 u v) as [| |p]; [done..|]. by destruct (N p).
  - unfold wg_from in Hc. destruct (_ !! _) as [n0|]; [|done].
    destruct Hb as (_&Hb&_). by destruct (b_from_nodes_ok o st (g_b g1) (n_id n0) Hb) as (ns&E2&_); rewrite E2 in Hc.
  - unfold wg_unlink in Hc. destruct (_ !! _); [|done]. by destruct (_ !! _).
Qed.
Print Assumptions c111_which_partial.
(** SubGraph panics only if two nodes it walked over have one UID and different ids, where
    the walk is over the root as found at one moment and nodes of one moment. *)
Theorem c111_twins_partial :
  forall dir o w g todo sched c st u d opts p, reach dir g ->
    exec (graph_prog o) (conf_init (w, g) todo) sched = Some c ->
    answered c (st, QSubGraph u d opts) (QRGraph (Some (Panic p))) ->
    exists g0 g1 r a b, moment o (w, g) todo sched g0 /\ moment o (w, g) todo sched g1 /\ wg_node g0 u = Ok r /\
      (a = r \/ listed g1 a) /\ (b = r \/ listed g1 b) /\ same_text (n_uid a) (n_uid b) /\ n_id a <> n_id b.
Proof.
  intros dir o w g todo sched c st u d opts p Hr E A.
  destruct (lruns_exec (gbase dir) o w g subpanpost todo sched c) as (M&H1&H2&H3&H4);
    [by apply reach_base| | |done|].
  - intros q0 r0 s M s1 M1 H F. by eapply subpanpost_later.
  - intros q0 s M. apply subpan_lruns.
  - pose proof (H2 _ _ A) as H. cbn in H. destruct H as (x&[= <-]&(s0&s1&r&order&Hs0&Hs1&Er&(a&b&Ha&Hb&Hk&Hne)&Ho)).
    assert (Hmom : forall s, s ∈ M -> moment o (w, g) todo sched s.2).
    { intros s Hs. apply H3 in Hs as (n&c1&E1&<-). by exists n, c1. }
    assert (Hl : forall n, n ∈ order -> n = r \/ listed s1.2 n).
    { intros n Hn. destruct (Ho _ Hn) as [?|?]; [by left|right]. apply listed_iff; [|done]. by destruct (H4 _ Hs1) as (_&?&_). }
    exists s0.2, s1.2, r, a, b. split; [auto|]. split; [auto|]. split; [by apply wg_node_Ok|]. auto.
Qed.
Print Assumptions c111_twins_partial.
(** So, as long as no graph of the execution has two nodes with one UID, SubGraph panics
    only if its root was replaced: a node with the UID asked for has another id. *)
Theorem c111_root_partial :
  forall dir o w g todo sched c st u d opts p, reach dir g ->
    (forall g' a b, moment o (w, g) todo sched g' -> listed g' a -> listed g' b ->
       same_text (n_uid a) (n_uid b) -> n_id a = n_id b) ->
    exec (graph_prog o) (conf_init (w, g) todo) sched = Some c ->
    answered c (st, QSubGraph u d opts) (QRGraph (Some (Panic p))) ->
    exists g0 g1 r n, moment o (w, g) todo sched g0 /\ moment o (w, g) todo sched g1 /\
      wg_node g0 u = Ok r /\ listed g1 n /\ same_text (n_uid n) (n_uid r) /\ n_id n <> n_id r.
Proof.
  intros dir o w g todo sched c st u d opts p Hr Hu E A.
  destruct (c111_twins_partial _ _ _ _ _ _ _ _ _ _ _ _ Hr E A) as (g0&g1&r&a&b&M0&M1&Er&Ha&Hb&Ht&Hne).
  exists g0, g1, r. destruct Ha as [->|Ha], Hb as [->|Hb]; [done| | |].
  - exists b. unfold same_text in *. by repeat (split; [auto|]); auto.
  - exists a. unfold same_text in *. by repeat (split; [auto|]); auto.
  - by destruct Hne; eapply Hu.
Qed.
Print Assumptions c111_root_partial.
(** In the run of the refutation no graph has two nodes with one UID. *)
Definition uniq_keys (g : wg) : bool :=
  bool_decide (NoDup (n_key <$> b_all_nodes iter_id [] (g_b g))).
Example c111_root_example :
  forallb (fun n => match exec (graph_prog iter_id) (conf_init (w0, snap_g) back_todo) (take n back_sched) with
                    | Some c => uniq_keys (c_sh c).2 | None => false end) (seq 0 (S (length back_sched))) = true /\
  match first_panic back_conf with Some p => True | None => False end.
Proof. split; vm_compute; [reflexivity|exact I]. Qed.
(** Link of a node with itself beside RemoveNode of the other node *)
Definition self_todo : list (list gcall) := [[([], QLink ua ua [])]; [([], QRemoveNode ub)]].
Definition self_conf : conf gstate gqret gcall := play (w0, snap_g) self_todo (robin 100 0 (conf_init (w0, snap_g) self_todo)).
Example c111_example :
  all_done self_conf = true /\ fmap (fun x => (x.1, panics x.2)) <$> (t_done <$> c_ths self_conf) =
    [[(([], QLink ua ua []), true)]; [(([], QRemoveNode ub), false)]].
Proof. split; vm_compute; reflexivity. Qed.

(** ** C112: beside any calls SubGraph ends, and it fails only with ErrNodeNotFound and only
    if its root is unknown at some moment *)
Theorem c112_subgraph_errors :
  forall dir o w g todo sched c st u d opts r, reach dir g ->
    exec (graph_prog o) (conf_init (w, g) todo) sched = Some c ->
    answered c (st, QSubGraph u d opts) (QRGraph r) ->
    r <> None /\
    forall e, r = Some (Err e) -> e = GraphErrNodeNotFound /\
      exists g0, moment o (w, g) todo sched g0 /\ wg_node g0 u = Err GraphErrNodeNotFound.
Proof.
  intros dir o w g todo sched c st u d opts r Hr E A.
  destruct (lruns_exec (gbase dir) o w g suberrpost todo sched c) as (M&H1&H2&H3&H4);
    [by apply reach_base| | |done|].
  - intros q0 r0 s M s1 M1 H F. by eapply suberrpost_later.
  - intros q0 s M. apply suberr_lruns.
  - pose proof (H2 _ _ A) as H. cbn in H. destruct H as (x&[= <-]&Hx). split; [by intros ->|].
    intros e ->. destruct Hx as (->&s0&Hs0&Hu). split; [done|]. exists s0.2. split.
    + apply H3 in Hs0 as (n&c1&E1&<-). by exists n, c1.
    + unfold wg_node. by rewrite Hu.
Qed.
Print Assumptions c112_subgraph_errors.
(** So a root that is in the graph all the time is always found. *)
Theorem c112_subgraph_found :
  forall dir o w g todo sched c st u d opts r, reach dir g ->
    (forall g', moment o (w, g) todo sched g' -> known g' u) ->
    exec (graph_prog o) (conf_init (w, g) todo) sched = Some c ->
    answered c (st, QSubGraph u d opts) (QRGraph r) ->
    exists x, r = Some x /\ forall e, x <> Err e.
Proof.
  intros dir o w g todo sched c st u d opts r Hr Hk E A.
  destruct (c112_subgraph_errors _ _ _ _ _ _ _ _ _ _ _ _ Hr E A) as [H1 H2].
  destruct r as [x|]; [|done]. exists x. split; [done|]. intros e ->. destruct (H2 e eq_refl) as (_&g0&Hm&Hn).
  destruct (Hk _ Hm) as [n Hx]. congruence.
Qed.
Print Assumptions c112_subgraph_found.
(** SubGraph of b beside RemoveNode of b, before and after it; b is walked from although it is gone *)
Definition gone_todo : list (list gcall) := [[([], QSubGraph ub 1 []); ([], QSubGraph ub 1 [])]; [([], QRemoveNode ub)]].
Definition gone_conf : conf gstate gqret gcall :=
  play (w0, snap_g) gone_todo (replicate 4 0 ++ replicate 12 1 ++ replicate 11 0).
Definition gone_kind (r : gqret) : nat :=
  match r with QRGraph (Some (Ok _)) => 0 | QRGraph (Some (Err GraphErrNodeNotFound)) => 1 | QRUnit (Ok _) => 2 | _ => 3 end.
Example c112_example :
  fmap (fun x => gone_kind x.2) <$> (t_done <$> c_ths gone_conf) = [[0; 1]; [2]].
Proof. vm_compute. reflexivity. Qed.
