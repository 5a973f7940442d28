(** Which graph calls are linearizable. *)
From Verif.Model Require Import Conc.
From Verif.Spec Require Import GraphSpec LinSpec.
From Verif.Proof Require Import GonumP GraphP GraphP2 LinP ConcP LinG.

(** ** calls that only read *)
Definition reads (q : gq) : Prop :=
  match q with QNode _ | QNodes | QEdge _ _ | QEdges | QFrom _ => True | _ => False end.
Lemma reads_section o good later i (c : gcall) :
  reads c.2 -> section (graph_call o) good later i c (graph_prog o c).
Proof.
  destruct c as [st q]. destruct q; cbn [reads snd]; try done; intros _.
  all: apply sec_read;
    [by repeat constructor | intros [w g] _ _; reflexivity | intros s k' _ E; discriminate E].
Qed.
Lemma reads_same o (c : gcall) x : reads c.2 -> (graph_call o c x).2 = x.
Proof. destruct c as [st q], x as [w g]. by destruct q. Qed.

(** ** AddNode *)
Lemma add_section o good later i st a opts :
  section (graph_call o) good later i (st, QAddNode a opts) (graph_prog o (st, QAddNode a opts)).
Proof.
  destruct a as [n|x].
  - pose proof (fun x => seqrun_graph o (st, QAddNode (MemNode n) opts) x) as Hq.
    unfold graph_prog in *. cbn [snd] in *. unfold add_node_prog, locked in *. cbn [pmap pbind] in *.
    apply sec_write.
    + constructor. intros s. destruct (b_nodes (g_b s.2) !! n_id n) eqn:E1.
      * cbn. constructor. intros s1. destruct (g_nodes s1.2 !! n_key n).
        -- destruct (go_upsert _); cbn; repeat (constructor; intros).
        -- cbn; repeat (constructor; intros).
      * cbn. constructor. intros s1. destruct (b_add_node (g_b s1.2) n); cbn; repeat (constructor; intros).
    + intros s _. specialize (Hq s). cbn [seqrun] in Hq. apply Hq. intros; discriminate.
  - apply sec_pure. intros [w g] _. reflexivity.
Qed.

(** ** RemoveNode and Unlink, with no calls that add nodes or edges *)
Definition shrunk (x y : gstate) : Prop :=
  (forall k n, g_nodes x.2 !! k = Some n ->
     g_nodes y.2 !! k = Some n \/ g_nodes y.2 !! k = None /\ b_nodes (g_b y.2) !! n_id n = None) /\
  (forall k, g_nodes x.2 !! k = None -> g_nodes y.2 !! k = None) /\
  (forall i, b_nodes (g_b x.2) !! i = None -> b_nodes (g_b y.2) !! i = None).
Lemma shrunk_refl x : shrunk x x.
Proof. split_and!; auto. Qed.
Lemma shrunk_trans x y z : shrunk x y -> shrunk y z -> shrunk x z.
Proof.
  intros (A1 & A2 & A3) (B1 & B2 & B3). split_and!; eauto.
  intros k n H. destruct (A1 _ _ H) as [H1|[H1 H2]]; eauto.
Qed.
Lemma shrunk_remove dir w g u : gtidy dir g -> shrunk (w, g) (w, (wg_remove_node g u).2).
Proof.
  intros ((Hd & Hb & Hk) & [Hx1 Hx2] & Ho). unfold wg_remove_node.
  destruct (g_nodes g !! uid_string u) as [n|] eqn:En; [|apply shrunk_refl].
  destruct (b_remove_node_ok _ (n_id n) Hb) as (_ & Hn' & _). cbn [snd].
  unfold shrunk, removenode_commit. cbn [snd g_nodes g_b wg_set_nodes wg_set_b]. rewrite Hn'. split_and!.
  - intros k m Hm. destruct (decide (k = uid_string u)) as [-> |Ne].
    + rewrite En in Hm. injection Hm as <-. right. by rewrite !lookup_delete.
    + left. by rewrite lookup_delete_ne.
  - intros k Hm. rewrite lookup_delete_None. auto.
  - intros i Hm. rewrite lookup_delete_None. auto.
Qed.
Lemma shrunk_unlink dir w g u v : gtidy dir g -> shrunk (w, g) (w, (wg_unlink g u v).2).
Proof.
  intros ((Hd & Hb & Hk) & [Hx1 Hx2] & Ho). unfold wg_unlink.
  destruct (g_nodes g !! uid_string u) as [n|] eqn:En; [|apply shrunk_refl].
  destruct (g_nodes g !! uid_string v) as [m|] eqn:Em; [|apply shrunk_refl].
  destruct (b_remove_edge_ok _ (n_id n) (n_id m) Hb) as (_ & Hn' & _). cbn [snd].
  unfold shrunk, unlink_commit. cbn [snd g_nodes g_b wg_set_nodes wg_set_b]. rewrite Hn'. auto.
Qed.
Lemma remove_section dir o (later : nat -> gstate -> gstate -> Prop) i st u :
  (forall x y, later i x y -> shrunk x y) ->
  section (graph_call o) (fun x => gtidy dir x.2) later i (st, QRemoveNode u) (graph_prog o (st, QRemoveNode u)).
Proof.
  intros HL. pose proof (fun x => seqrun_graph o (st, QRemoveNode u) x) as Hq.
  unfold graph_prog in *. cbn [snd] in *. unfold remove_node_prog in *. cbn [pmap pbind gload] in *.
  apply sec_read.
  - constructor; [done|]. intros s. destruct (g_nodes s.2 !! uid_string u) as [n|]; cbn; repeat (constructor; intros).
  - intros s _ _. specialize (Hq s). cbn [seqrun] in Hq. apply Hq. intros; discriminate.
  - intros [w g] k' G E. cbn [goes_on snd] in E. destruct (g_nodes g !! uid_string u) as [n|] eqn:En; cbn in E; [|discriminate].
    injection E as <-. intros [w' g'] G' (L1 & L2 & L3)%HL. cbn [snd fst] in *.
    unfold graph_call; cbn [snd fst]. unfold wg_remove_node. destruct (L1 _ _ En) as [H|[H1 H2]].
    + rewrite H. cbn. by destruct g'.
    + rewrite H1. cbn. unfold b_remove_node. rewrite H2. rewrite delete_notin by done. by destruct g'.
Qed.
Lemma unlink_section dir o (later : nat -> gstate -> gstate -> Prop) i st u v :
  (forall x y, later i x y -> shrunk x y) ->
  section (graph_call o) (fun x => gtidy dir x.2) later i (st, QUnlink u v) (graph_prog o (st, QUnlink u v)).
Proof.
  intros HL. pose proof (fun x => seqrun_graph o (st, QUnlink u v) x) as Hq.
  unfold graph_prog in *. cbn [snd] in *. unfold unlink_prog in *. cbn [pmap pbind gload] in *.
  apply sec_read.
  - constructor; [done|]. intros s. destruct (g_nodes s.2 !! uid_string u) as [n|]; cbn; [|repeat (constructor; intros)].
    constructor; [done|]. intros s1. destruct (g_nodes s1.2 !! uid_string v) as [m|]; cbn; repeat (constructor; intros).
  - intros s _ _. specialize (Hq s). cbn [seqrun] in Hq. apply Hq. intros; discriminate.
  - intros [w g] k' G E. cbn [goes_on snd] in E. destruct (g_nodes g !! uid_string u) as [n|] eqn:En; cbn in E; [|discriminate].
    destruct (g_nodes g !! uid_string v) as [m|] eqn:Em; cbn in E; [|discriminate].
    injection E as <-. intros [w' g'] G' (L1 & L2 & L3)%HL. cbn [snd fst] in *.
    unfold graph_call; cbn [snd fst]. unfold wg_unlink.
    destruct (L1 _ _ En) as [H|[H1 H2]]; [rewrite H; destruct (L1 _ _ Em) as [H'|[H1 H2]]; [by rewrite H'|]|].
    + rewrite H1. cbn. unfold b_remove_edge. rewrite H2. destruct (b_nodes _ !! n_id n); by destruct g'.
    + rewrite H1. cbn. unfold b_remove_edge. rewrite H2. by destruct g'.
Qed.

(** ** Link *)
Lemma wg_edge_no_panic g u v p : wg_edge g u v <> Panic p.
Proof.
  unfold wg_edge. destruct (g_nodes g !! uid_string u); [|done]. destruct (g_nodes g !! uid_string v); [|done].
  by destruct (b_weighted_edge _ _ _).
Qed.
Lemma wg_edge_nodes g u v : wg_edge g u v = Err GraphErrEdgeNotExist -> is_Some (g_nodes g !! uid_string u) /\ is_Some (g_nodes g !! uid_string v).
Proof.
  unfold wg_edge. destruct (g_nodes g !! uid_string u); [|done]. destruct (g_nodes g !! uid_string v); [|done]. eauto.
Qed.
(** nobody has linked or removed the pair *)
Definition free (u v : UID) (x y : gstate) : Prop :=
  wg_edge x.2 u v = Err GraphErrEdgeNotExist ->
  g_nodes y.2 !! uid_string u = g_nodes x.2 !! uid_string u /\
  g_nodes y.2 !! uid_string v = g_nodes x.2 !! uid_string v /\
  wg_edge y.2 u v = Err GraphErrEdgeNotExist.
Lemma link_section dir o (later : nat -> gstate -> gstate -> Prop) i st u v opts :
  (forall x y, later i x y -> free u v x y) ->
  section (graph_call o) (fun x => gtidy dir x.2) later i (st, QLink u v opts) (graph_prog o (st, QLink u v opts)).
Proof.
  intros HL. pose proof (fun x => seqrun_graph o (st, QLink u v opts) x) as Hq.
  unfold graph_prog in *. cbn [snd] in *. unfold link_prog, edge_prog, rlocked in *. cbn [pmap pbind gload] in *.
  apply sec_read.
  - apply rd_in. constructor; [done|]. intros s. cbn. apply (rd_out 0).
    destruct (wg_edge s.2 u v) as [e|x|p] eqn:Ee; [cbn; constructor| |by apply wg_edge_no_panic in Ee].
    case_bool_decide; [|cbn; constructor]. cbn. constructor; [done|]. intros s1.
    destruct (g_nodes s1.2 !! uid_string u) as [n|]; cbn; [|constructor].
    constructor; [done|]. intros s2. destruct (g_nodes s2.2 !! uid_string v) as [m|]; cbn; [|constructor].
    apply rd_up. constructor. intros s3. cbn. constructor. intros s4.
    destruct (b_set_edge _ _); cbn; repeat (constructor; intros).
  - intros s _ _. specialize (Hq s). cbn [seqrun] in Hq. apply Hq. intros; discriminate.
  - intros [w g] k' G E. cbn [goes_on snd pmap pbind] in E.
    destruct (wg_edge g u v) as [e|x|p] eqn:Ee; [discriminate E| |discriminate E].
    case_bool_decide as Hx; [|discriminate E]. subst x. cbn in E.
    destruct (g_nodes g !! uid_string u) as [n|] eqn:En; cbn in E; [|discriminate].
    destruct (g_nodes g !! uid_string v) as [m|] eqn:Em; cbn in E; [|discriminate].
    injection E as <-. intros [w' g'] G' L. destruct (HL _ _ L Ee) as (L1 & L2 & L3). cbn [snd fst] in *.
    rewrite En in L1. rewrite Em in L2.
    unfold graph_call; cbn [snd fst]. unfold wg_link, link_check. rewrite L3.
    rewrite bool_decide_true by done. rewrite L1, L2. unfold link_commit. cbn.
    destruct (new_edge w' n m opts) as [e w1]. cbn. by destruct (b_set_edge (g_b g') e).
Qed.
Lemma gtidy_gwf dir g : gtidy dir g -> gwf g.
Proof. intros ((Hd & Hb & Hk) & Hx & _). by apply gexact_gwf. Qed.
(** what Link does to the nodes and to the other pairs *)
Lemma link_nodes dir w g u v opts : gtidy dir g ->
  g_nodes (wg_link w g u v opts).2.2 = g_nodes g /\ b_nodes (g_b (wg_link w g u v opts).2.2) = b_nodes (g_b g) /\
  forall x y, ~ same_ends dir x y u v -> wg_edge (wg_link w g u v opts).2.2 x y = wg_edge g x y.
Proof.
  intros T. pose proof (gtidy_gwf _ _ T) as W. destruct T as (Hbase & [Hx1 Hx2] & Ho).
  rewrite (wg_link_cases dir) by done.
  destruct (wg_node g u) as [a| |] eqn:Ha; [|done..].
  destruct (wg_node g v) as [b| |] eqn:Hbn; [|done..].
  destruct (wg_edge g u v); [done|..].
  all: destruct (decide (n_id a = n_id b)) as [Heq|Hne];
    [destruct (link_commit_self w g a b opts Heq) as [w1 ->]; done|].
  all: destruct (link_commit_ok w g a b opts Hne) as (e1&w1&b'&_&Hf&Ht&->&_&Hd'&Hn&Hadj); cbn [fst snd].
  all: assert (Hst : ~ same_text u v) by (rewrite <- (id_text g u v a b W Ha Hbn); done).
  all: split; [done|]; split.
  1, 3: apply wg_node_Ok in Ha, Hbn; pose proof (Hx1 _ _ Ha) as Ha'; pose proof (Hx1 _ _ Hbn) as Hb';
    cbn; rewrite Hn, (insert_id (b_nodes (g_b g)) (n_id a) a) by done; by rewrite insert_id.
  all: intros x y Hxy; rewrite (link_edge_obs dir g u v a b b' e1 x y) by done;
    rewrite !bool_decide_false; [done|done|]; intros Hs; apply Hxy; by left.
Qed.
Lemma shrunk_link dir w g u v opts : gtidy dir g -> shrunk (w, g) (wg_link w g u v opts).2.
Proof.
  intros T. destruct (link_nodes dir w g u v opts T) as (H1 & H2 & _). unfold shrunk. rewrite H1, H2. auto.
Qed.
(** what the other calls do to a pair *)
Lemma free_refl u v x : free u v x x.
Proof. done. Qed.
Lemma free_trans u v x y z : free u v x y -> free u v y z -> free u v x z.
Proof. intros A B E. destruct (A E) as (A1 & A2 & A3). destruct (B A3) as (B1 & B2 & B3). split_and!; congruence. Qed.
Lemma free_link dir w g u v u' v' opts : gtidy dir g -> ~ same_ends dir u v u' v' -> free u v (w, g) (wg_link w g u' v' opts).2.
Proof.
  intros T N E. destruct (link_nodes dir w g u' v' opts T) as (H1 & _ & H2). rewrite H1, H2; auto.
Qed.
Lemma free_remove dir w g u v u' : gtidy dir g -> ~ same_text u' u -> ~ same_text u' v ->
  free u v (w, g) (w, (wg_remove_node g u').2).
Proof.
  intros T N1 N2 E. cbn [snd] in *. split_and!.
  - unfold wg_remove_node. destruct (g_nodes g !! uid_string u'); [|done]. cbn. by rewrite lookup_delete_ne.
  - unfold wg_remove_node. destruct (g_nodes g !! uid_string u'); [|done]. cbn. by rewrite lookup_delete_ne.
  - rewrite (remove_edge_obs dir); [|by destruct T|by eapply gtidy_gwf]. rewrite bool_decide_false; [done|].
    unfold same_text in *. intros [H|H]; congruence.
Qed.
Lemma free_unlink dir w g u v u' v' : gtidy dir g -> free u v (w, g) (w, (wg_unlink g u' v').2).
Proof.
  intros T E. cbn [snd] in *. split_and!.
  - unfold wg_unlink. destruct (g_nodes g !! uid_string u'); [|done]. by destruct (g_nodes g !! uid_string v').
  - unfold wg_unlink. destruct (g_nodes g !! uid_string u'); [|done]. by destruct (g_nodes g !! uid_string v').
  - rewrite (unlink_edge_obs dir); [|by destruct T|by eapply gtidy_gwf]. rewrite E. by case_bool_decide.
Qed.

Lemma todo_forall {A} (P : A -> Prop) (todo : list (list A)) :
  Forall (Forall P) todo -> forall i l, todo !! i = Some l -> Forall P l.
Proof. intros F i l. by apply Forall_lookup_1. Qed.
Lemma adds_linearize o x todo :
  Forall (Forall (fun c : gcall => reads c.2 \/ exists a l, c.2 = QAddNode a l)) todo ->
  linearization (graph_prog o) (graph_call o) x todo.
Proof.
  intros F. pose proof (todo_forall _ _ F) as F'. revert F'.
  apply (sections_linearize (graph_prog o) (graph_call o) (fun _ c => reads c.2 \/ exists a l, c.2 = QAddNode a l) (fun _ => True) (fun _ _ _ => True)); auto.
  intros i [st q] [H|(a & l & H)]; [by apply reads_section|]. cbn in H. subst q. apply add_section.
Qed.
Lemma removes_linearize dir o w g todo :
  tidy dir g ->
  Forall (Forall (fun c : gcall => reads c.2 \/ (exists u, c.2 = QRemoveNode u) \/ exists u v, c.2 = QUnlink u v)) todo ->
  linearization (graph_prog o) (graph_call o) (w, g) todo.
Proof.
  intros Ht F. pose proof (todo_forall _ _ F) as F'. revert F'.
  apply (sections_linearize (graph_prog o) (graph_call o)
    (fun _ c => reads c.2 \/ (exists u, c.2 = QRemoveNode u) \/ exists u v, c.2 = QUnlink u v)
    (fun x => gtidy dir x.2) (fun _ => shrunk)).
  - intros. apply shrunk_refl.
  - intros. by eapply shrunk_trans.
  - intros i [st q] [w1 g1] H G. cbn [snd] in *. destruct H as [H|[[u H]|(u & v & H)]].
    + rewrite reads_same by done. split; [done|intros; apply shrunk_refl].
    + subst q. unfold graph_call; cbn [snd fst]. pose proof (gtidy_remove _ _ u G). pose proof (shrunk_remove _ w1 _ u G).
      by destruct (wg_remove_node g1 u).
    + subst q. unfold graph_call; cbn [snd fst]. pose proof (gtidy_unlink _ _ u v G). pose proof (shrunk_unlink _ w1 _ u v G).
      by destruct (wg_unlink g1 u v).
  - intros i [st q] H. cbn [snd] in *. destruct H as [H|[[u H]|(u & v & H)]].
    + by apply reads_section.
    + subst q. by apply remove_section.
    + subst q. by apply unlink_section.
  - by apply tidy_inv.
Qed.
(** [P i c]: goroutine i makes the call c.  Nobody else links a pair that i links, or
    removes one of its ends. *)
Lemma links_linearize dir o w g (P : nat -> gcall -> Prop) todo :
  tidy dir g ->
  (forall i c, P i c -> reads c.2 \/ (exists u, c.2 = QRemoveNode u) \/ (exists u v, c.2 = QUnlink u v) \/ exists u v l, c.2 = QLink u v l) ->
  (forall i j st u v l st' u' v' l', i <> j -> P i (st, QLink u v l) -> P j (st', QLink u' v' l') -> ~ same_ends dir u v u' v') ->
  (forall i j st u v l st' u', i <> j -> P i (st, QLink u v l) -> P j (st', QRemoveNode u') -> ~ same_text u' u /\ ~ same_text u' v) ->
  (forall i l, todo !! i = Some l -> Forall (P i) l) ->
  linearization (graph_prog o) (graph_call o) (w, g) todo.
Proof.
  intros Ht HP HL HR.
  apply (sections_linearize (graph_prog o) (graph_call o) P (fun x => gtidy dir x.2)
    (fun i x y => shrunk x y /\ forall st u v l, P i (st, QLink u v l) -> free u v x y)).
  - intros. split; [apply shrunk_refl|]. intros. apply free_refl.
  - intros i s1 s2 s3 [A1 A2] [B1 B2]. split; [by eapply shrunk_trans|]. intros. eapply free_trans; eauto.
  - intros i [st q] [w1 g1] Hc G. cbn [snd] in *. pose proof (HP _ _ Hc) as H. cbn [snd] in H.
    destruct H as [H|[[u H]|[(u & v & H)|(u & v & lo & H)]]].
    + rewrite reads_same by done. split; [done|]. intros. split; [apply shrunk_refl|]. intros. apply free_refl.
    + subst q. unfold graph_call; cbn [snd fst]. pose proof (gtidy_remove _ _ u G). pose proof (shrunk_remove _ w1 _ u G).
      assert (X : forall j st u0 v0 l, j <> i -> P j (st, QLink u0 v0 l) -> free u0 v0 (w1, g1) (w1, (wg_remove_node g1 u).2)).
      { intros j st' u0 v0 l Hj HPj. destruct (HR _ _ _ _ _ _ _ _ Hj HPj Hc) as [N1 N2]. by apply (free_remove dir). }
      destruct (wg_remove_node g1 u). cbn [snd] in *. split; [done|]. intros j Hj. split; [done|]. intros. by eapply X.
    + subst q. unfold graph_call; cbn [snd fst]. pose proof (gtidy_unlink _ _ u v G). pose proof (shrunk_unlink _ w1 _ u v G).
      pose proof (fun u0 v0 => free_unlink dir w1 g1 u0 v0 u v G) as X.
      destruct (wg_unlink g1 u v). cbn [snd] in *. split; [done|]. intros j Hj. split; [done|]. intros. apply X.
    + subst q. unfold graph_call; cbn [snd fst]. pose proof (gtidy_link dir w1 _ u v lo G). pose proof (shrunk_link dir w1 _ u v lo G).
      assert (X : forall j st u0 v0 l, j <> i -> P j (st, QLink u0 v0 l) -> free u0 v0 (w1, g1) (wg_link w1 g1 u v lo).2).
      { intros j st' u0 v0 l Hj HPj. apply (free_link dir); [done|]. by eapply HL. }
      destruct (wg_link w1 g1 u v lo). cbn [snd] in *. split; [done|]. intros j Hj. split; [done|]. intros. by eapply X.
  - intros i [st q] Hc. pose proof (HP _ _ Hc) as H. cbn [snd] in H.
    destruct H as [H|[[u H]|[(u & v & H)|(u & v & lo & H)]]].
    + by apply reads_section.
    + subst q. apply remove_section. by intros x y [? _].
    + subst q. apply unlink_section. by intros x y [? _].
    + subst q. apply link_section. intros x y [_ L]. by eapply L.
  - by apply tidy_inv.
Qed.
