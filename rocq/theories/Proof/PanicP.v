(** What the graph calls return beside any other calls, given the locks they take. *)
From Verif.Model Require Import Conc.
From Verif.Spec Require Import GraphSpec SubSpec LinSpec ConcSpec SnapSpec.
From Verif.Proof Require Import AttrsP GonumP GraphP GraphP2 SubP SnapP SnapP2 LinP MutexP ConcP GraphLockP.

(** ** as [runs], but a goroutine that holds g.mu sees a graph that stays the same *)
Section lruns.
  Context (inv : wg -> Prop).
  Notation later := (later inv).
  Definition lat (h : hold) (s : gstate) (M : list gstate) (s1 : gstate) (M1 : list gstate) : Prop :=
    later s M s1 M1 /\ (h <> HR 0 -> s1.2 = s.2).
  Lemma lat_trans h s M s1 M1 s2 M2 : lat h s M s1 M1 -> lat h s1 M1 s2 M2 -> lat h s M s2 M2.
  Proof. intros [A1 A2] [B1 B2]. split; [by eapply later_trans|]. intros N. rewrite (B2 N). auto. Qed.
  Definition fine (s : gstate) (M : list gstate) : Prop := s ∈ M /\ forall x, x ∈ M -> inv x.2.
  Lemma lat_refl h s M : fine s M -> lat h s M s M.
  Proof. intros [H1 H2]. split; [|done]. split; [apply wframe_refl|auto]. Qed.
  Lemma lat_fine h s M s1 M1 : lat h s M s1 M1 -> fine s1 M1.
  Proof. by intros [(_&_&H1&H2) _]. Qed.
  Lemma lat_add h s M s1 M1 : lat h s M s1 M1 -> lat h s M s1 (s1 :: M1).
  Proof.
    intros [(H1&H2&H3&H4) H5]. split; [|done]. split; [done|]. split; [intros; right; auto|]. split; [by left|].
    intros x. rewrite elem_of_cons. intros [->|?]; auto.
  Qed.

  Fixpoint lruns {R} (Q : hold -> R -> gstate -> list gstate -> Prop) (h : hold) (p : prog gstate R)
      (s : gstate) (M : list gstate) : Prop :=
    match p with
    | Ret r => forall s1 M1, lat h s M s1 M1 -> Q h r s1 M1
    | Act u k => forall s1 M1, lat h s M s1 M1 ->
        wframe s1.1 (u s1).1 /\ inv (u s1).2 /\ lruns Q h (k s1) (u s1) (u s1 :: M1)
    | Lock _ k => forall s1 M1, lat h s M s1 M1 -> forall s2 M2, lat HA s1 M1 s2 M2 -> lruns Q HW k s2 M2
    | RLock m k => forall s1 M1, lat h s M s1 M1 -> lruns Q (hnext h (RLock m k)) k s1 M1
    | RUnlock m k => forall s1 M1, lat h s M s1 M1 -> lruns Q (hnext h (RUnlock m k)) k s1 M1
    | LockWait m k => forall s1 M1, lat h s M s1 M1 -> lruns Q HW k s1 M1
    | Unlock m k => forall s1 M1, lat h s M s1 M1 -> lruns Q (HR 0) k s1 M1
    end.
  Lemma lruns_lat {R} (Q : hold -> R -> gstate -> list gstate -> Prop) h p s M s1 M1 :
    lat h s M s1 M1 -> lruns Q h p s M -> lruns Q h p s1 M1.
  Proof. intros F Hp. destruct p; cbn [lruns] in *; intros s2 M2 F2; apply Hp; by eapply lat_trans. Qed.
  Lemma lruns_mono {R} (Q Q' : hold -> R -> gstate -> list gstate -> Prop) p : forall h s M,
    (forall h1 r s1 M1, later s M s1 M1 -> Q h1 r s1 M1 -> Q' h1 r s1 M1) -> lruns Q h p s M -> lruns Q' h p s M.
  Proof.
    induction p as [r|u k IH|m k IH|m k IH|m k IH|m k IH|m k IH]; cbn [lruns]; intros h s M HQ Hp s1 M1 F;
      assert (HQ' : forall h1 r s2 M2, later s1 M1 s2 M2 -> Q h1 r s2 M2 -> Q' h1 r s2 M2)
        by (intros h1 r0 s2 M2 F2; apply HQ; eapply later_trans; [apply F|exact F2]).
    - apply HQ; [apply F|by apply Hp].
    - destruct (Hp s1 M1 F) as (A1&A2&A3). split; [done|]. split; [done|]. apply IH; [|done].
      intros h1 r s2 M2 F2. apply HQ'. eapply later_trans; [|exact F2].
      destruct (lat_fine _ _ _ _ _ F) as [B1 B2]. split; [done|]. split; [intros; by right|]. split; [by left|].
      intros x. rewrite elem_of_cons. intros [->|?]; auto.
    - apply IH; auto.
    - apply IH; auto.
    - intros s2 M2 F2. apply IH; [|by eapply Hp]. intros h1 r s3 M3 F3. apply HQ'. eapply later_trans; [apply F2|exact F3].
    - apply IH; auto.
    - apply IH; auto.
  Qed.
  Lemma lruns_bind {A B} (Q : hold -> B -> gstate -> list gstate -> Prop) (p : prog gstate A) f : forall h s M,
    fine s M -> lruns (fun h' a s' M' => lruns Q h' (f a) s' M') h p s M -> lruns Q h (pbind p f) s M.
  Proof.
    induction p as [r|u k IH|m k IH|m k IH|m k IH|m k IH|m k IH]; cbn [lruns pbind]; intros h s M Hf Hp.
    - apply Hp. by apply lat_refl.
    - intros s1 M1 F. destruct (Hp s1 M1 F) as (A1&A2&A3). split; [done|]. split; [done|]. apply IH; [|done].
      destruct (lat_fine _ _ _ _ _ F) as [B1 B2]. split; [by left|]. intros x. rewrite elem_of_cons. intros [->|?]; auto.
    - intros s1 M1 F. apply IH; [by eapply lat_fine|]. by apply Hp.
    - intros s1 M1 F. apply IH; [by eapply lat_fine|]. by apply Hp.
    - intros s1 M1 F s2 M2 F2. apply IH; [by eapply lat_fine|]. by eapply Hp.
    - intros s1 M1 F. apply IH; [by eapply lat_fine|]. by apply Hp.
    - intros s1 M1 F. apply IH; [by eapply lat_fine|]. by apply Hp.
  Qed.
  Lemma lruns_load {R} (Q : hold -> R -> gstate -> list gstate -> Prop) h f s M :
    (forall s1 M1, lat h s M s1 M1 -> lruns Q h (f s1.2) s1 M1) -> lruns Q h (pbind gload f) s M.
  Proof.
    intros H. cbn. intros s1 M1 F. split; [apply wframe_refl|]. pose proof (lat_fine _ _ _ _ _ F) as [H1 H2].
    split; [by apply H2|]. unfold id. eapply lruns_lat; [|by apply H]. apply lat_add. by apply lat_refl.
  Qed.
  Lemma lruns_alloc {A R} (Q : hold -> R -> gstate -> list gstate -> Prop) h (a : world -> A * world) f s M :
    (forall w, wframe w (a w).2) ->
    (forall w s1 M1, lat h s M s1 M1 -> lruns Q h (f (a w).1) s1 M1) -> lruns Q h (pbind (galloc a) f) s M.
  Proof.
    intros Hf H. cbn. intros s1 M1 F. split; [apply Hf|]. pose proof (lat_fine _ _ _ _ _ F) as [H1 H2].
    split; [by apply H2|]. apply H. eapply lat_trans; [exact F|]. split; [|done].
    split; [apply Hf|]. split; [intros; by right|]. split; [by left|].
    intros x. rewrite elem_of_cons. intros [->|?]; auto. by apply (H2 s1).
  Qed.
  Lemma lruns_save {R} (Q : hold -> R -> gstate -> list gstate -> Prop) h F f s M :
    (forall g, inv g -> inv (F g)) ->
    (forall s1 M1, later s M s1 M1 -> lruns Q h (f ()) s1 M1) -> lruns Q h (pbind (gsave F) f) s M.
  Proof.
    intros Hi H. cbn. intros s1 M1 L. pose proof (lat_fine _ _ _ _ _ L) as [H1 H2]. split; [apply wframe_refl|].
    split; [by apply Hi, H2|]. apply H. eapply later_trans; [apply L|]. split; [apply wframe_refl|].
    split; [intros; by right|]. split; [by left|]. intros x. rewrite elem_of_cons. intros [->|?]; auto. cbn. auto.
  Qed.
  Lemma lruns_ret {R} (Q : hold -> R -> gstate -> list gstate -> Prop) h r s M :
    (forall s1 M1, later s M s1 M1 -> Q h r s1 M1) -> lruns Q h (Ret r) s M.
  Proof. intros H s1 M1 L. apply H, L. Qed.

  (** ** executions *)
  Lemma lruns_exec o w g (Q : gcall -> gqret -> gstate -> list gstate -> Prop) todo sched c :
    inv g ->
    (forall q r s M s1 M1, Q q r s M -> later s M s1 M1 -> Q q r s1 M1) ->
    (forall q s M, fine s M -> lruns (fun _ => Q q) (HR 0) (graph_prog o q) s M) ->
    exec (graph_prog o) (conf_init (w, g) todo) sched = Some c ->
    exists M, c_sh c ∈ M /\ (forall q r, answered c q r -> Q q r (c_sh c) M) /\
      (forall s, s ∈ M -> exists n c1, exec (graph_prog o) (conf_init (w, g) todo) (take n sched) = Some c1 /\ c_sh c1 = s) /\
      (forall s, s ∈ M -> inv s.2).
  Proof.
    intros Hg HQ Hp E. set (c0 := conf_init (w, g) todo) in *.
    set (tinv := fun (h : hold) (s : gstate) (M : list gstate) (t : thread gstate gqret gcall) =>
      (forall q p, t_cur t = Some (q, p) -> lruns (fun _ => Q q) h p s M) /\
      (forall q r, (q, r) ∈ t_done t -> Q q r s M)).
    assert (tinv_lat : forall h s M s1 M1 t, lat h s M s1 M1 -> tinv h s M t -> tinv h s1 M1 t).
    { intros h s M s1 M1 t F (T2&T3). split.
      - intros q p Ec. eapply lruns_lat; [exact F|by apply T2].
      - intros q r Hin. eapply HQ; [by apply T3|apply F]. }
    assert (I : exists M hs lk, ginv c hs lk /\ fine (c_sh c) M /\
      (forall i t h, c_ths c !! i = Some t -> hs !! i = Some h -> tinv h (c_sh c) M t) /\
      (forall s, s ∈ M -> exists n c1, exec (graph_prog o) c0 (take n sched) = Some c1 /\ c_sh c1 = s)).
    2:{ destruct I as (M&hs&lk&I0&[I1 I4]&I2&I3). exists M. split; [done|]. split; [|done]. intros q r (t&Ht&Hd).
        apply elem_of_list_lookup in Ht as [i Hi]. pose proof (lookup_lt_Some _ _ _ Hi) as Lt.
        rewrite <- (gi_len _ _ _ I0) in Lt. apply lookup_lt_is_Some in Lt as [h Hh]. by apply (I2 _ _ _ Hi Hh). }
    revert c E. induction sched as [|n sched IH] using rev_ind; intros c E.
    - injection E as <-. exists [(w, g)], (replicate (length todo) (HR 0)), []. split; [apply ginv_init|]. split; [|split].
      + split; [by left|]. intros x. rewrite elem_of_list_singleton. by intros ->.
      + intros i t h Ht _. cbn in Ht. rewrite list_lookup_fmap in Ht. destruct (todo !! i); [|done]. injection Ht as <-.
        split; cbn; [done|]. intros q r H. by apply elem_of_nil in H.
      + intros s. rewrite elem_of_list_singleton. intros ->. by exists 0, c0.
    - assert (Hx : exists c1, exec (graph_prog o) c0 sched = Some c1 /\ conf_step (graph_prog o) c1 n = Some c).
      { clear -E. revert E. generalize c0. induction sched as [|i sched IH]; intros d E; cbn in E |- *.
        - destruct (conf_step (graph_prog o) d n) as [d1|] eqn:Ed; [|done]. injection E as <-. eauto.
        - destruct (conf_step (graph_prog o) d i); [|done]. by apply IH. }
      destruct Hx as (c1&E1&Es). destruct (IH c1 E1) as (M&hs&lk&I0&If&I2&I3). clear IH.
      destruct (c_ths c1 !! n) as [t|] eqn:Et; [|unfold conf_step in Es; by rewrite Et in Es].
      pose proof (lookup_lt_Some _ _ _ Et) as Lt. rewrite <- (gi_len _ _ _ I0) in Lt.
      apply lookup_lt_is_Some in Lt as [h Eh].
      destruct (ginv_next o _ _ _ _ _ _ _ I0 Et Eh Es) as (lk'&I0'&W).
      pose proof (I2 _ _ _ Et Eh) as (T2&T3). pose proof Es as Es0.
      unfold conf_step in Es. rewrite Et in Es.
      destruct (thread_step _ _ _ _) as [[[s' mu'] t']|] eqn:Eth; [|discriminate]. injection Es as <-.
      cbn [c_sh] in W.
      assert (Hsame : forall h0, lat h0 (c_sh c1) M (c_sh c1) (c_sh c1 :: M)) by (intros h0; apply lat_add, lat_refl, If).
      assert (H : later (c_sh c1) M s' (s' :: M) /\ tinv (tnext t h) s' (s' :: M) t').
      { unfold thread_step in Eth. unfold tnext. destruct (t_cur t) as [[op p]|] eqn:Ec.
        - pose proof (T2 _ _ eq_refl) as Hst.
          assert (Hdone : forall s1, later (c_sh c1) M s1 (s1 :: M) -> forall q r, (q, r) ∈ t_done t -> Q q r s1 (s1 :: M)).
          { intros s1 F q r Hin. eapply HQ; [by apply T3|exact F]. }
          destruct p as [r|u k|m k|m k|m k|m k|m k]; cbn [prog_step] in Eth.
          + injection Eth as <- <- <-. split; [apply (Hsame (HR 0))|]. split; [done|]. intros q' r' Hin. cbn in Hin.
            apply elem_of_app in Hin as [Hin|Hin]; [apply Hdone; [apply (Hsame (HR 0))|done]|].
            apply elem_of_list_singleton in Hin. injection Hin as -> ->. cbn in Hst. by apply Hst.
          + injection Eth as <- <- <-. cbn [lruns] in Hst. destruct (Hst _ _ (lat_refl h _ _ If)) as (A1&A2&A3).
            assert (F : later (c_sh c1) M (u (c_sh c1)) (u (c_sh c1) :: M)).
            { destruct If as [If1 If2]. split; [done|]. split; [intros; by right|]. split; [by left|].
              intros x. rewrite elem_of_cons. intros [->|?]; auto. }
            split; [done|]. split; [|by apply Hdone]. cbn. by intros q p [= <- <-].
          + destruct (m_ann (c_mu c1 m)); [done|]. injection Eth as <- <- <-. split; [apply (Hsame (HR 0))|].
            split; [|apply Hdone, (Hsame (HR 0))]. cbn [t_cur]. intros q p [= <- <-]. cbn [lruns] in Hst. apply Hst, Hsame.
          + destruct (m_rd (c_mu c1 m)); [done|]. injection Eth as <- <- <-. split; [apply (Hsame (HR 0))|].
            split; [|apply Hdone, (Hsame (HR 0))]. cbn [t_cur]. intros q p [= <- <-]. cbn [lruns] in Hst. apply Hst, Hsame.
          + destruct (m_ann (c_mu c1 m)); [done|]. injection Eth as <- <- <-. split; [apply (Hsame (HR 0))|].
            split; [|apply Hdone, (Hsame (HR 0))]. cbn [t_cur]. intros q p [= <- <-]. cbn [lruns] in Hst |- *. apply Hst, Hsame.
          + destruct (m_rd (c_mu c1 m)); [|done]. injection Eth as <- <- <-. split; [apply (Hsame (HR 0))|].
            split; [|apply Hdone, (Hsame (HR 0))]. cbn [t_cur]. intros q p [= <- <-]. cbn [lruns] in Hst. apply Hst, Hsame.
          + destruct (m_wr (c_mu c1 m)); [|done]. injection Eth as <- <- <-. split; [apply (Hsame (HR 0))|].
            split; [|apply Hdone, (Hsame (HR 0))]. cbn [t_cur]. intros q p [= <- <-]. cbn [lruns] in Hst. apply Hst, Hsame.
        - destruct (t_todo t) as [|op ops] eqn:Eo; [discriminate|]. injection Eth as <- <- <-.
          split; [apply (Hsame (HR 0))|]. split; cbn.
          + intros q p [= <- <-]. apply Hp. by eapply lat_fine, (Hsame (HR 0)).
          + intros q r Hin. eapply HQ; [by apply T3|apply (Hsame (HR 0))]. }
      destruct H as (F&A3). exists (s' :: M), (<[n := tnext t h]> hs), (lk ++ lk').
      assert (Hlast : forall s, s ∈ M -> exists k c2, exec (graph_prog o) c0 (take k (sched ++ [n])) = Some c2 /\ c_sh c2 = s).
      { intros s Hs. destruct (I3 _ Hs) as (k&c2&E2&<-). exists (k `min` length sched), c2. split; [|done].
        rewrite take_app_le by lia. destruct (Nat.le_ge_cases k (length sched)); [by rewrite Nat.min_l|].
        rewrite Nat.min_r by done. rewrite firstn_all. rewrite take_ge in E2; done. }
      split; [done|]. split; [by destruct F as (_&_&?&?)|]. split.
      + intros j t1 h1 Ht1 Hh1. cbn in Ht1 |- *. destruct (decide (n = j)) as [<-|N].
        * rewrite list_lookup_insert in Ht1 by (by eapply lookup_lt_Some).
          rewrite list_lookup_insert in Hh1 by (by eapply lookup_lt_Some). injection Ht1 as <-. injection Hh1 as <-. done.
        * rewrite list_lookup_insert_ne in Ht1 by done. rewrite list_lookup_insert_ne in Hh1 by done.
          eapply tinv_lat; [|by eapply I2]. split; [done|]. intros Nh. destruct W as [W| ->]; [done|].
          exfalso. destruct (gi_mu _ _ _ I0) as [_ _ _ M1 Mx]. rewrite !total_app in *.
          pose proof (total_ge h_wr _ _ _ Eh) as G1. cbn in G1.
          pose proof (total_ge h_rd _ _ _ Hh1) as G2. pose proof (total_ge h_ann _ _ _ Hh1) as G3.
          pose proof (total_ge2 h_wr _ _ _ _ _ N Eh Hh1) as G4.
          destruct h1 as [[|m]| |]; cbn in *; [done|lia..].
      + intros s. rewrite elem_of_cons. intros [->|Hs]; [|by apply Hlast].
        eexists (length (sched ++ [n])), _. rewrite firstn_all. split; [exact E|done].
  Qed.
End lruns.

(** ** programs that only read the graph and allocate *)
Fixpoint reads {R} (p : prog gstate R) : Prop :=
  match p with
  | Ret _ => True
  | Act u k => forall x, (u x).2 = x.2 /\ wframe x.1 (u x).1 /\ reads (k x)
  | Lock _ k | LockWait _ k | Unlock _ k | RLock _ k | RUnlock _ k => reads k
  end.
Lemma reads_bind {A B} (p : prog gstate A) (f : A -> prog gstate B) : reads p -> (forall a, reads (f a)) -> reads (pbind p f).
Proof. induction p; cbn; intros Hp Hf; auto. intros x. destruct (Hp x) as (?&?&?). auto. Qed.
Lemma reads_load {R} (f : wg -> prog gstate R) : (forall g, reads (f g)) -> reads (pbind gload f).
Proof. intros H x. split; [done|]. split; [apply wframe_refl|]. apply H. Qed.
Lemma reads_alloc {A R} (a : world -> A * world) (f : A -> prog gstate R) :
  (forall w, wframe w (a w).2) -> (forall x, reads (f x)) -> reads (pbind (galloc a) f).
Proof. intros Ha H x. split; [done|]. split; [apply Ha|]. apply H. Qed.
Lemma reads_sub_peers o from peers : forall st sgn sg, reads (sub_peers_prog o st sgn sg from peers).
Proof.
  induction peers as [|peer peers IH]; intros st sgn sg; cbn [sub_peers_prog]; [done|].
  destruct (sgn !! n_id peer) as [t|]; [|apply IH]. apply reads_load. intros g. apply reads_alloc.
  - intros w. pose proof (wframe_sub_edges o from t (b_weighted_edges o ((st ++ [length peers]) ++ [0]) (g_b g))
      ((st ++ [length peers]) ++ [1]) w sg) as F. by destruct (sub_link_edges _ _ _ _ _ _ _) as [r [w1 sg1]].
  - intros [r sg1]. destruct r; [apply IH|done..].
Qed.
Lemma reads_sub_nodes o todo : forall st sgn sg, reads (sub_nodes_prog o st sgn sg todo).
Proof.
  induction todo as [|[id from] todo IH]; intros st sgn sg; cbn [sub_nodes_prog]; [done|].
  apply reads_load. intros g. destruct (b_from_nodes _ _ _ _); [|done..].
  apply reads_bind; [apply reads_sub_peers|]. intros r. destruct r; [apply IH|done..].
Qed.
Lemma reads_subgraph o st u d opts : reads (subgraph_prog o st u d opts).
Proof.
  unfold subgraph_prog. cbn [reads]. apply reads_load. intros g. destruct (g_nodes g !! uid_string u) as [root|]; [|done].
  cbn [reads]. apply reads_alloc; [intros; apply wframe_new|]. intros sg. cbn [reads]. apply reads_load. intros g1. cbn [reads].
  destruct (bfs_walk _ _ _ _ _) as [[order| |]|]; [|done..]. destruct (fold_left _ _ _) as [[sg1 sgn] [e|]]; [done|].
  apply reads_bind; [apply reads_sub_nodes|done].
Qed.

(** ** when a call panics *)
Lemma add_no_panic g a opts p : (wg_add_node g a opts).1 <> Panic p.
Proof.
  unfold wg_add_node. destruct a as [n|u]; [|done]. unfold addnode_commit.
  destruct (b_nodes (g_b g) !! n_id n) eqn:E.
  - destruct (g_nodes g !! n_key n); [destruct (go_upsert _)|]; done.
  - destruct (b_add_node_ok _ _ E) as (b&->&_). done.
Qed.
Section panics.
  Context (dir : bool).
  Notation inv := (gbase dir).
  Notation lruns := (lruns inv).
  Notation fine := (fine inv).
  Notation later := (later inv).
  Definition pan {R} (X : gstate -> Prop) (_ : hold) (r : res R) (_ : gstate) (M : list gstate) : Prop :=
    match r with Panic _ => exists s, s ∈ M /\ X s | _ => True end.
  Definition safe {R} (_ : hold) (r : res R) (_ : gstate) (_ : list gstate) : Prop := forall p, r <> Panic p.
  Lemma safe_pan {R} X h p s M : lruns (@safe R) h p s M -> lruns (@pan R X) h p s M.
  Proof. apply lruns_mono. intros h1 r s1 M1 _ H. destruct r; cbn; try done. by destruct (H p0). Qed.
  Lemma pan_later {R} X h h1 (r : res R) s M s1 M1 : later s M s1 M1 -> pan X h r s M -> pan X h1 r s1 M1.
  Proof. intros (_&H&_) Hp. destruct r; cbn in *; [done..|]. destruct Hp as (x&?&?). eauto. Qed.
  Lemma set_b g b : inv g -> b_dir b = dir -> bwf b -> inv (wg_set_b g b).
  Proof. intros (_&_&Hk) Hd Hb. done. Qed.
  Lemma set_nodes g m : inv g -> (forall k n, m !! k = Some n -> n_key n = k) -> inv (wg_set_nodes g m).
  Proof. intros (?&?&_) Hm. done. Qed.
  Lemma key_insert (m : gmap string node) n : (forall k x, m !! k = Some x -> n_key x = k) ->
    forall k x, <[n_key n := n]> m !! k = Some x -> n_key x = k.
  Proof. intros H k x. rewrite lookup_insert_Some. intros [[<- <-]|[_ ?]]; auto. Qed.
  Lemma key_delete (m : gmap string node) i : (forall k x, m !! k = Some x -> n_key x = k) ->
    forall k x, delete i m !! k = Some x -> n_key x = k.
  Proof. intros H k x. rewrite lookup_delete_Some. intros [_ ?]. auto. Qed.
  Lemma lat_inv h s M s1 M1 : lat inv h s M s1 M1 -> inv s1.2.
  Proof. intros L. destruct (lat_fine _ _ _ _ _ _ L) as [H1 H2]. auto. Qed.
  Lemma later_lat s M s1 M1 : later s M s1 M1 -> fine s1 M1.
  Proof. by intros (_&_&?&?). Qed.

  Lemma lruns_set_b {R} (Q : hold -> R -> gstate -> list gstate -> Prop) h f k s M :
    (forall b, bwf b -> b_dir b = dir -> bwf (f b) /\ b_dir (f b) = dir) ->
    (forall s1 M1, later s M s1 M1 -> lruns Q h (k ()) s1 M1) -> lruns Q h (pbind (gset_b f) k) s M.
  Proof.
    intros Hf Hk. unfold gset_b.
    change (pbind (pbind gload (fun g => gsave (fun g' => wg_set_b g' (f (g_b g))))) k)
      with (pbind gload (fun g => pbind (gsave (fun g' => wg_set_b g' (f (g_b g)))) k)).
    apply lruns_load. intros s1 M1 L. pose proof (lat_inv _ _ _ _ _ L) as (Hd&Hb&_). destruct (Hf _ Hb Hd) as [H1 H2].
    apply lruns_save; [intros g Hg; by apply set_b|]. intros s2 M2 L2. apply Hk. eapply later_trans; [apply L|exact L2].
  Qed.
  Lemma lruns_set_nodes {R} (Q : hold -> R -> gstate -> list gstate -> Prop) h f k s M :
    (forall m : gmap string node, (forall k x, m !! k = Some x -> n_key x = k) -> forall k x, f m !! k = Some x -> n_key x = k) ->
    (forall s1 M1, later s M s1 M1 -> lruns Q h (k ()) s1 M1) -> lruns Q h (pbind (gset_nodes f) k) s M.
  Proof.
    intros Hf Hk. unfold gset_nodes.
    change (pbind (pbind gload (fun g => gsave (fun g' => wg_set_nodes g' (f (g_nodes g))))) k)
      with (pbind gload (fun g => pbind (gsave (fun g' => wg_set_nodes g' (f (g_nodes g)))) k)).
    apply lruns_load. intros s1 M1 L. pose proof (lat_inv _ _ _ _ _ L) as (_&_&Hk1).
    apply lruns_save; [intros g Hg; apply set_nodes; [done|by apply Hf]|].
    intros s2 M2 L2. apply Hk. eapply later_trans; [apply L|exact L2].
  Qed.
  Lemma lruns_locked {R} X (body : prog gstate (res R)) s M :
    (forall s1 M1, later s M s1 M1 -> lruns (pan X) HW body s1 M1) -> lruns (pan X) (HR 0) (locked 1 body) s M.
  Proof.
    intros H. unfold locked. cbn [PanicP.lruns]. intros s1 M1 L1 s2 M2 L2. apply lruns_bind; [by eapply lat_fine|].
    eapply lruns_mono; [|apply H; eapply later_trans; [apply L1|apply L2]].
    cbn [PanicP.lruns]. intros h r s3 M3 L3 Hr s4 M4 L4 s5 M5 L5.
    eapply pan_later; [|exact Hr]. eapply later_trans; [apply L4|apply L5].
  Qed.
  Lemma safe_ret {R} h (r : res R) s M : (forall p, r <> Panic p) -> lruns safe h (Ret r) s M.
  Proof. intros H s1 M1 _. done. Qed.
  Lemma pan_ret {R} X h (r : res R) s M : (forall p, r <> Panic p) -> lruns (pan X) h (Ret r) s M.
  Proof. intros H. by apply safe_pan, safe_ret. Qed.

  Lemma add_node_lruns X a opts s M : lruns (pan X) (HR 0) (add_node_prog a opts) s M.
  Proof.
    destruct a as [n|u]; cbn [add_node_prog]; [|by apply pan_ret]. apply lruns_locked. intros s1 M1 _.
    apply lruns_load. intros s2 M2 L2. destruct (b_nodes (g_b s2.2) !! n_id n) as [n'|] eqn:En.
    - apply lruns_load. intros s3 M3 L3. destruct (g_nodes s3.2 !! n_key n); [destruct (go_upsert _)|].
      + apply lruns_set_nodes; [intros m; apply key_insert|]. intros s4 M4 _.
        apply lruns_set_nodes; [intros m; apply key_insert|]. intros s5 M5 _. by apply pan_ret.
      + by apply pan_ret.
      + apply lruns_set_nodes; [intros m; apply key_insert|]. intros s4 M4 _. by apply pan_ret.
    - apply lruns_load. intros s3 M3 L3. destruct L3 as [L3 E3]. rewrite E3 by done.
      pose proof (lat_inv _ _ _ _ _ L2) as (Hd&Hb&_).
      destruct (b_add_node_ok _ _ En) as (b&Eb&H1&_). rewrite Eb.
      apply lruns_save; [intros g Hg; apply set_b; [done|congruence|by eapply bwf_add]|]. intros s4 M4 _.
      apply lruns_set_nodes; [intros m; apply key_insert|]. intros s5 M5 _. by apply pan_ret.
  Qed.
  Lemma remove_node_lruns X u s M : lruns (pan X) (HR 0) (remove_node_prog u) s M.
  Proof.
    unfold remove_node_prog. cbn [PanicP.lruns hnext]. intros s1 M1 _. apply lruns_load. intros s2 M2 L2.
    destruct (g_nodes s2.2 !! uid_string u); cbn [PanicP.lruns hnext pred Nat.pred]; intros s3 M3 L3; [|done].
    apply lruns_locked. intros s4 M4 _.
    apply lruns_set_b.
    { intros b Hb Hd. split; [by apply bwf_remove_node|]. by destruct (b_remove_node_ok b (n_id n) Hb) as (->&_). }
    intros s5 M5 _. apply lruns_set_nodes; [intros m; apply key_delete|]. intros s6 M6 _. by apply pan_ret.
  Qed.
  Lemma unlink_lruns X u v s M : lruns (pan X) (HR 0) (unlink_prog u v) s M.
  Proof.
    unfold unlink_prog. cbn [PanicP.lruns hnext]. intros s1 M1 _. apply lruns_load. intros s2 M2 L2.
    destruct (g_nodes s2.2 !! uid_string u) as [f|]; [|done]. apply lruns_load. intros s3 M3 L3.
    destruct (g_nodes s3.2 !! uid_string v) as [t|]; [|done].
    cbn [PanicP.lruns hnext pred Nat.pred]. intros s4 M4 _. apply lruns_locked. intros s5 M5 _.
    apply lruns_set_b.
    { intros b Hb Hd. split; [by apply bwf_remove_edge|]. by destruct (b_remove_edge_ok b (n_id f) (n_id t) Hb) as (->&_). }
    intros s6 M6 _. by apply pan_ret.
  Qed.
  Definition no_id (o : iter_order) (st : site) (s : gstate) : Prop := exists p, newnode_id o st s.2 = Panic p.
  Lemma new_node_lruns o st e opts s M :
    lruns (fun h r s M => pan (no_id o st) h r s M /\ ((forall p, r <> Panic p) -> h = HR 0)) (HR 0) (new_node_prog o st e opts) s M.
  Proof.
    unfold new_node_prog. cbn [PanicP.lruns hnext]. intros s1 M1 _ s2 M2 _. apply lruns_load. intros s3 M3 L3.
    destruct (newnode_id o st s3.2) as [id|x|p] eqn:En.
    - cbn [PanicP.lruns hnext]. intros s4 M4 _. apply lruns_alloc; [intros; apply wframe_node|]. intros w s5 M5 _.
      cbn [PanicP.lruns hnext]. intros s6 M6 _ s7 M7 _. apply lruns_load. intros s8 M8 _. by cbn.
    - by cbn.
    - cbn [PanicP.lruns]. intros s4 M4 [(_&L4&_) _]. split; [|intros H; by destruct (H p)]. exists s3. split; [|by exists p].
      apply L4. by destruct (lat_fine _ _ _ _ _ _ L3).
  Qed.
  (** the two ends have one id *)
  Definition self_link (u v : UID) (s : gstate) : Prop :=
    exists f t, wg_edge s.2 u v = Err GraphErrEdgeNotExist /\
      g_nodes s.2 !! uid_string u = Some f /\ g_nodes s.2 !! uid_string v = Some t /\ n_id f = n_id t.
  Lemma link_lruns u v opts s M : fine s M -> lruns (pan (self_link u v)) (HR 0) (link_prog u v opts) s M.
  Proof.
    intros Hf. unfold link_prog. cbn [PanicP.lruns hnext]. intros s0 M0 L0.
    apply lruns_bind; [by eapply lat_fine|]. unfold edge_prog, rlocked.
    change (RLock 1 (pbind (pbind gload (fun g => Ret (wg_edge g u v))) (fun a => RUnlock 1 (Ret a))))
      with (RLock 1 (pbind gload (fun g => RUnlock 1 (Ret (wg_edge g u v))))).
    cbn [PanicP.lruns hnext]. intros s1 M1 L1. apply lruns_load. intros s2 M2 L2.
    cbn [PanicP.lruns hnext pred Nat.pred]. intros s3 M3 L3 s4 M4 L4.
    pose proof (edge_no_panic s2.2 u v) as NP. destruct (wg_edge s2.2 u v) as [e|x|p] eqn:Ee; [done| |by destruct (NP p)].
    clear NP. case_bool_decide as Ex; [|done]. subst x.
    apply lruns_load. intros s5 M5 L5. destruct (g_nodes s5.2 !! uid_string u) as [f|] eqn:Ef; [|done].
    apply lruns_load. intros s6 M6 L6. destruct (g_nodes s6.2 !! uid_string v) as [t|] eqn:Et; [|done].
    assert (E2 : s5.2 = s2.2) by (rewrite (proj2 L5), (proj2 L4), (proj2 L3) by done; done).
    assert (E6 : s6.2 = s2.2) by (rewrite (proj2 L6) by done; done).
    assert (H6 : s6 ∈ M6) by (by destruct (lat_fine _ _ _ _ _ _ L6)).
    cbn [PanicP.lruns hnext pred Nat.pred]. intros s7 M7 L7. apply lruns_locked. intros s8 M8 L8.
    apply lruns_alloc; [intros; apply wframe_edge|]. intros w s9 M9 L9. apply lruns_load. intros sa Ma La.
    destruct (new_edge w f t opts) as [e w1] eqn:Ew. cbn [fst].
    destruct (new_edge_ends _ _ _ _ _ _ Ew) as [Hef Het].
    destruct (decide (n_id f = n_id t)) as [Eq|Ne].
    - unfold b_set_edge. rewrite bool_decide_true by congruence. cbn [PanicP.lruns]. intros sb Mb Lb.
      exists s6. split.
      + destruct L7 as [(_&L7&_) _]. destruct L8 as (_&L8&_). destruct L9 as [(_&L9&_) _].
        destruct La as [(_&La&_) _]. destruct Lb as [(_&Lb&_) _]. by apply Lb, La, L9, L8, L7.
      + exists f, t. rewrite E2 in Ef. rewrite E6 in Et |- *. auto.
    - pose proof (lat_inv _ _ _ _ _ La) as (Hd&Hb&_).
      destruct (b_set_edge_ok (g_b sa.2) e) as (b&Eb&H1&_); [congruence|]. rewrite Eb.
      apply lruns_save; [intros g Hg; apply set_b; [done|congruence|by eapply bwf_set_edge]|].
      intros sb Mb _. by apply pan_ret.
  Qed.
  Lemma read_lruns {R} X (f : wg -> res R) s M :
    (forall g p, inv g -> f g <> Panic p) -> lruns (pan X) (HR 0) (rlocked 1 (pbind gload (fun g => Ret (f g)))) s M.
  Proof.
    intros Hf. unfold rlocked.
    change (pbind (pbind gload (fun g => Ret (f g))) (fun a => RUnlock 1 (Ret a)))
      with (pbind gload (fun g => RUnlock 1 (Ret (f g)))).
    cbn [PanicP.lruns]. intros s1 M1 _. apply lruns_load. intros s2 M2 L2. cbn [PanicP.lruns]. intros s3 M3 _ s4 M4 _.
    pose proof (lat_inv _ _ _ _ _ L2) as Hi. destruct (f s2.2) as [| |p] eqn:E; [done..|]. by destruct (Hf _ p Hi).
  Qed.
  Lemma reads_lruns {R} (p : prog gstate R) : forall h s M, reads p -> lruns (fun _ _ _ _ => True) h p s M.
  Proof.
    induction p as [r|u k IH|m k IH|m k IH|m k IH|m k IH|m k IH]; cbn [PanicP.lruns reads]; intros h s M Hp s1 M1 L; auto.
    destruct (Hp s1) as (H1&H2&H3). split; [done|]. split; [|auto]. rewrite H1. by eapply lat_inv.
  Qed.

  (** a call that is no SubGraph panics only if it would alone in a state seen so far *)
  Definition panpost (o : iter_order) (q : gcall) (r : gqret) (_ : gstate) (M : list gstate) : Prop :=
    match q.2 with QSubGraph _ _ _ => True | _ =>
      panics r = true -> exists s, s ∈ M /\ panics (graph_call o q s).1 = true end.
  Lemma panpost_later o q r s M s1 M1 : panpost o q r s M -> later s M s1 M1 -> panpost o q r s1 M1.
  Proof.
    intros H (_&L&_). unfold panpost in *. destruct (q.2); try done; intros Hp; destruct (H Hp) as (x&?&?); eauto.
  Qed.
  Lemma lruns_pmap {R} o q (X : gstate -> Prop) (h : res R -> gqret) p s M :
    fine s M -> (forall r, panics (h r) = true -> exists x, r = Panic x) ->
    (forall x, X x -> panics (graph_call o q x).1 = true) ->
    lruns (pan X) (HR 0) p s M -> lruns (fun _ => panpost o q) (HR 0) (pmap h p) s M.
  Proof.
    intros Hf Hh HX Hp. unfold pmap. apply lruns_bind; [done|]. eapply lruns_mono; [|exact Hp].
    cbn [PanicP.lruns]. intros h1 r s1 M1 _ Hr s2 M2 L2.
    assert (H : panics (h r) = true -> exists s, s ∈ M2 /\ panics (graph_call o q s).1 = true).
    { intros Hpn. apply Hh in Hpn as [x ->]. destruct Hr as (s3&H1&H2). exists s3. split; [|auto].
      by apply L2. }
    unfold panpost. by destruct (q.2).
  Qed.
  Lemma no_id_new o st e opts s : no_id o st s -> exists p, wg_new_node o st s.1 s.2 e opts = Panic p.
  Proof. intros [p E]. unfold wg_new_node. rewrite E. by exists p. Qed.
  Lemma self_link_panics o st u v opts s : self_link u v s -> panics (graph_call o (st, QLink u v opts) s).1 = true.
  Proof.
    intros (f&t&E&Ef&Et&Eq). destruct s as [w g]. cbn in *. unfold wg_link, link_check.
    rewrite E, (bool_decide_true (GraphErrEdgeNotExist = _)), Ef, Et by done. unfold link_commit. destruct (new_edge w f t opts) as [e w1] eqn:Ew.
    destruct (new_edge_ends _ _ _ _ _ _ Ew) as [Hef Het]. unfold b_set_edge. rewrite bool_decide_true; [done|]. congruence.
  Qed.
  Lemma panics_lruns o q s M : fine s M -> lruns (fun _ => panpost o q) (HR 0) (graph_prog o q) s M.
  Proof.
    intros Hf. destruct q as [st q]. unfold graph_prog. cbn [fst snd].
    destruct q as [e opts|a opts|e opts|u| |u|u v opts|u v| |u|u v|u d opts|].
    - eapply (lruns_pmap _ _ (no_id o st)); [done|by intros [| |]; eauto| |].
      + intros x Hx. destruct (no_id_new o st e opts x Hx) as [p E]. destruct x. cbn in *. by rewrite E.
      + eapply lruns_mono; [|apply new_node_lruns]. by intros h r s1 M1 _ [? _].
    - eapply (lruns_pmap _ _ (fun _ => False)); [done|by intros [| |]; eauto|done|apply add_node_lruns].
    - apply lruns_bind; [done|]. eapply lruns_mono; [|apply new_node_lruns].
      intros h r s1 M1 L1 [Hr Hh]. cbv beta. destruct r as [n|x|p].
      + rewrite (Hh (fun p H => ltac:(discriminate H))).
        eapply (lruns_pmap _ _ (fun _ => False)); [by eapply later_lat|by intros [| |]; eauto|done|apply add_node_lruns].
      + cbn [PanicP.lruns]. by intros s2 M2 _.
      + cbn [PanicP.lruns]. intros s2 M2 L2 _. destruct Hr as (x&Hx&Hn). exists x. split; [by apply L2|].
        destruct (no_id_new o st e opts x Hn) as [p' E]. destruct x. cbn in *. by rewrite E.
    - eapply (lruns_pmap _ _ (fun _ => False)); [done|by intros [| |]; eauto|done|]. apply read_lruns.
      intros g p _. unfold wg_node. by destruct (_ !! _).
    - eapply (lruns_pmap _ _ (fun _ => False)); [done|by intros [| |]; eauto|done|]. by apply read_lruns.
    - eapply (lruns_pmap _ _ (fun _ => False)); [done|by intros [| |]; eauto|done|apply remove_node_lruns].
    - eapply (lruns_pmap _ _ (self_link u v)); [done|by intros [| |]; eauto| |by apply link_lruns].
      intros x. apply self_link_panics.
    - eapply (lruns_pmap _ _ (fun _ => False)); [done|by intros [| |]; eauto|done|]. apply read_lruns.
      intros g p _. apply edge_no_panic.
    - eapply (lruns_pmap _ _ (fun _ => False)); [done|by intros [| |]; eauto|done|]. by apply read_lruns.
    - eapply (lruns_pmap _ _ (fun _ => False)); [done|by intros [| |]; eauto|done|]. apply read_lruns.
      intros g p (_&Hb&_). unfold wg_from. destruct (_ !! _) as [n|]; [|done].
      by destruct (b_from_nodes_ok o st (g_b g) (n_id n) Hb) as (ns&->&_).
    - eapply (lruns_pmap _ _ (fun _ => False)); [done|by intros [| |]; eauto|done|apply unlink_lruns].
    - eapply lruns_mono; [|apply reads_lruns]; [done|]. apply reads_bind; [apply reads_subgraph|done].
    - unfold pmap. apply lruns_bind; [done|]. eapply lruns_mono; [|apply reads_lruns].
      + intros h r s1 M1 _ _. cbn [PanicP.lruns]. by intros s2 M2 _.
      + unfold dot_prog. cbn [reads]. by apply reads_load.
  Qed.
End panics.
