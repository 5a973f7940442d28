(** SubGraph beside Link and Unlink. *)
From Verif.Model Require Import Conc.
From Verif.Spec Require Import GraphSpec SubSpec LinSpec ConcSpec SnapSpec.
From Verif.Proof Require Import AttrsP GonumP BfsP GraphP GraphP2 SubP SnapP.

(** ** code that runs while others allocate and change the graph within [inv]; the
    states so far are in M *)
Section runs.
  Context (inv : wg -> Prop).
  Definition later (s : gstate) (M : list gstate) (s1 : gstate) (M1 : list gstate) : Prop :=
    wframe s.1 s1.1 /\ (forall x, x ∈ M -> x ∈ M1) /\ s1 ∈ M1 /\ forall x, x ∈ M1 -> inv x.2.
  Lemma later_trans s M s1 M1 s2 M2 : later s M s1 M1 -> later s1 M1 s2 M2 -> later s M s2 M2.
  Proof. intros (A1&A2&A3&A4) (B1&B2&B3&B4). split; [by eapply wframe_trans|]. auto. Qed.
  Fixpoint runs {R} (Q : R -> gstate -> list gstate -> Prop) (p : prog gstate R) (s : gstate) (M : list gstate) : Prop :=
    match p with
    | Ret r => forall s1 M1, later s M s1 M1 -> Q r s1 M1
    | Act u k => forall s1 M1, later s M s1 M1 ->
        wframe s1.1 (u s1).1 /\ inv (u s1).2 /\ runs Q (k s1) (u s1) (u s1 :: M1)
    | RLock _ k | RUnlock _ k | Lock _ k | LockWait _ k | Unlock _ k => runs Q k s M
    end.
  Lemma runs_later {R} (Q : R -> gstate -> list gstate -> Prop) p : forall s M s1 M1,
    later s M s1 M1 -> runs Q p s M -> runs Q p s1 M1.
  Proof.
    induction p; cbn [runs]; intros s M s1 M1 F Hp; eauto.
    - intros s2 M2 F2. apply Hp. by eapply later_trans.
    - intros s2 M2 F2. apply Hp. by eapply later_trans.
  Qed.
  Lemma runs_bind {A B} (Q : B -> gstate -> list gstate -> Prop) (p : prog gstate A) f : forall s M,
    s ∈ M -> (forall x, x ∈ M -> inv x.2) ->
    runs (fun a s' M' => runs Q (f a) s' M') p s M -> runs Q (pbind p f) s M.
  Proof.
    induction p; cbn [runs pbind]; intros s M Hs HM Hp; eauto.
    - apply Hp. split; [apply wframe_refl|]. auto.
    - intros s1 M1 F. destruct (Hp s1 M1 F) as (A1&A2&A3). split; [done|]. split; [done|]. destruct F as (_&_&_&F).
      apply H; [by left| |done]. intros x. rewrite elem_of_cons. intros [->|Hx]; auto.
  Qed.
  Lemma runs_mono {R} (Q Q' : R -> gstate -> list gstate -> Prop) p : forall s M,
    (forall r s1 M1, later s M s1 M1 -> Q r s1 M1 -> Q' r s1 M1) -> s ∈ M -> runs Q p s M -> runs Q' p s M.
  Proof.
    induction p; cbn [runs]; intros s M HQ Hs Hp; eauto.
    intros s1 M1 F. destruct (Hp s1 M1 F) as (A1&A2&A3). split; [done|]. split; [done|].
    assert (F1 : later s1 M1 (u s1) (u s1 :: M1)).
    { destruct F as (_&_&_&F). split; [done|]. split; [intros; by right|]. split; [by left|].
      intros x. rewrite elem_of_cons. intros [->|Hx]; auto. }
    apply H; [|by left|done]. intros r s2 M2 F2. apply HQ. eapply later_trans; [exact F|].
    by eapply later_trans.
  Qed.
  Lemma runs_load {R} (Q : R -> gstate -> list gstate -> Prop) f s M :
    (forall s1 M1, later s M s1 M1 -> runs Q (f s1.2) s1 M1) -> runs Q (pbind gload f) s M.
  Proof.
    intros H. cbn. intros s1 M1 F. split; [apply wframe_refl|]. pose proof F as (_&_&F3&F4). split; [auto|].
    unfold id. eapply runs_later; [|by apply H]. split; [apply wframe_refl|]. split; [intros; by right|].
    split; [by left|]. intros x. rewrite elem_of_cons. intros [->|Hx]; auto.
  Qed.
  Lemma runs_alloc {A R} (Q : R -> gstate -> list gstate -> Prop) (h : world -> A * world) f s M :
    (forall s1 M1 s2 M2, later s M s1 M1 -> s2 = ((h s1.1).2, s1.2) -> later s1 M1 s2 M2 ->
       runs Q (f (h s1.1).1) s2 M2) ->
    (forall w, wframe w (h w).2) -> runs Q (pbind (galloc h) f) s M.
  Proof.
    intros H Hf. cbn. intros s1 M1 F. pose proof F as (_&_&F3&F4). split; [auto|]. split; [auto|].
    assert (F1 : later s1 M1 ((h s1.1).2, s1.2) (((h s1.1).2, s1.2) :: M1)).
    { split; [apply Hf|]. split; [intros; by right|]. split; [by left|].
      intros x. rewrite elem_of_cons. intros [->|Hx]; auto. apply (F4 _ F3). }
    eapply H; eauto.
  Qed.

  (** ** executions *)
  Lemma runs_exec o w g (ok : gcall -> Prop) (Q : gcall -> gqret -> gstate -> list gstate -> Prop) todo sched c :
    inv g ->
    (forall q r s M s1 M1, Q q r s M -> later s M s1 M1 -> Q q r s1 M1) ->
    (forall q s M, ok q -> s ∈ M -> (forall x, x ∈ M -> inv x.2) -> runs (Q q) (graph_prog o q) s M) ->
    (forall l q, l ∈ todo -> q ∈ l -> ok q) ->
    exec (graph_prog o) (conf_init (w, g) todo) sched = Some c ->
    exists M, c_sh c ∈ M /\ (forall q r, answered c q r -> Q q r (c_sh c) M) /\
      (forall s, s ∈ M <-> exists n c1, exec (graph_prog o) (conf_init (w, g) todo) (take n sched) = Some c1 /\ c_sh c1 = s) /\
      (forall s, s ∈ M -> inv s.2).
  Proof.
    intros Hg HQ Hp Hok E. set (c0 := conf_init (w, g) todo) in *.
    set (tinv := fun (s : gstate) (M : list gstate) (t : thread gstate gqret gcall) =>
      (forall q, q ∈ t_todo t -> ok q) /\
      (forall q p, t_cur t = Some (q, p) -> runs (Q q) p s M) /\
      (forall q r, (q, r) ∈ t_done t -> Q q r s M)).
    assert (tinv_later : forall s M s1 M1 t, later s M s1 M1 -> tinv s M t -> tinv s1 M1 t).
    { intros s M s1 M1 t F (T1&T2&T3). split; [done|]. split; [|by eauto].
      intros q p Ec. eapply runs_later; [exact F|by apply T2]. }
    assert (I : exists M, c_sh c ∈ M /\ (forall t, t ∈ c_ths c -> tinv (c_sh c) M t) /\
      (forall s, s ∈ M <-> exists n c1, exec (graph_prog o) c0 (take n sched) = Some c1 /\ c_sh c1 = s) /\
      (forall s, s ∈ M -> inv s.2)).
    2:{ destruct I as (M&I1&I2&I3&I4). exists M. split; [done|]. split; [|done]. intros q r (t&Ht&Hd). by apply (I2 _ Ht). }
    revert c E. induction sched as [|n sched IH] using rev_ind; intros c E.
    - injection E as <-. exists [(w, g)]. split; [by left|]. split; [|split].
      + intros t Ht. cbn in Ht. apply elem_of_list_fmap in Ht as (l&->&Hl).
        split; [|split]; cbn; [eauto|done|]. intros q r H. by apply elem_of_nil in H.
      + intros s. rewrite elem_of_list_singleton. split.
        * intros ->. by exists 0, c0.
        * intros (k&c1&E1&<-). rewrite take_nil in E1. by injection E1 as <-.
      + intros s. rewrite elem_of_list_singleton. by intros ->.
    - assert (Hx : exists c1, exec (graph_prog o) c0 sched = Some c1 /\ conf_step (graph_prog o) c1 n = Some c).
      { clear -E. revert E. generalize c0. induction sched as [|i sched IH]; intros d E; cbn in E |- *.
        - destruct (conf_step (graph_prog o) d n) as [d1|] eqn:Ed; [|done]. injection E as <-. eauto.
        - destruct (conf_step (graph_prog o) d i); [|done]. by apply IH. }
      destruct Hx as (c1&E1&Es). destruct (IH c1 E1) as (M&I1&I2&I3&I4). clear IH.
      unfold conf_step in Es. destruct (c_ths c1 !! n) as [t|] eqn:Et; [|discriminate].
      destruct (thread_step _ _ _ _) as [[[s' mu'] t']|] eqn:Eh; [|discriminate]. injection Es as <-.
      pose proof (I2 t (elem_of_list_lookup_2 _ _ _ Et)) as (T1&T2&T3).
      assert (Hrefl : later (c_sh c1) M (c_sh c1) M) by (split; [apply wframe_refl|auto]).
      assert (Hstep : wframe (c_sh c1).1 s'.1 -> inv s'.2 -> later (c_sh c1) M s' (s' :: M)).
      { intros A1 A2. split; [done|]. split; [intros; by right|]. split; [by left|].
        intros x. rewrite elem_of_cons. intros [->|Hx]; auto. }
      assert (H : later (c_sh c1) M s' (s' :: M) /\ tinv s' (s' :: M) t').
      { unfold thread_step in Eh. destruct (t_cur t) as [[op p]|] eqn:Ec.
        - pose proof (T2 _ _ eq_refl) as Hst.
          destruct (match p with Ret r => Some r | _ => None end) as [r|] eqn:Er.
          { destruct p; try discriminate. injection Eh as <- <- <-.
            assert (F : later (c_sh c1) M (c_sh c1) (c_sh c1 :: M)) by (apply Hstep; [apply wframe_refl|auto]).
            split; [done|]. split; [exact T1|]. split; [done|]. intros q' r' Hin. cbn in Hin.
            apply elem_of_app in Hin as [Hin|Hin]; [eapply HQ; [by apply T3|done]|]. apply elem_of_list_singleton in Hin.
            injection Hin as -> ->. cbn in Hst. by apply Hst. }
          assert (Hm : match prog_step (c_sh c1) (c_mu c1) p with
                       | Some (s1, mu1, p1) => wframe (c_sh c1).1 s1.1 /\ inv s1.2 /\ runs (Q op) p1 s1 (s1 :: M)
                       | None => True end).
          { assert (Hsame : forall p1, runs (Q op) p1 (c_sh c1) M ->
              wframe (c_sh c1).1 (c_sh c1).1 /\ inv (c_sh c1).2 /\ runs (Q op) p1 (c_sh c1) (c_sh c1 :: M)).
            { intros p1 H1. split; [apply wframe_refl|]. split; [auto|]. eapply runs_later; [|exact H1].
              split; [apply wframe_refl|]. split; [intros; by right|]. split; [by left|].
              intros x. rewrite elem_of_cons. intros [->|Hx]; auto. }
            destruct p; cbn in Hst |- *; [done|by apply Hst|..].
            - destruct (m_ann (c_mu c1 m)); [done|]. by apply Hsame.
            - destruct (m_rd (c_mu c1 m)); [done|]. by apply Hsame.
            - destruct (m_ann (c_mu c1 m)); [done|]. by apply Hsame.
            - destruct (m_rd (c_mu c1 m)); [|done]. by apply Hsame.
            - destruct (m_wr (c_mu c1 m)); [|done]. by apply Hsame. }
          assert (Eh' : match prog_step (c_sh c1) (c_mu c1) p with
                       | Some (s1, mu1, p1) => Some (s1, mu1, Thread (Some (op, p1)) (t_todo t) (t_done t))
                       | None => None end = Some (s', mu', t')).
          { destruct p; try discriminate; exact Eh. }
          clear Eh. destruct (prog_step _ _ p) as [[[s1 mu1] p1]|]; [|discriminate]. injection Eh' as <- <- <-.
          destruct Hm as (A1&A2&A3). pose proof (Hstep A1 A2) as F. split; [done|]. split; [exact T1|]. split.
          + cbn. by intros q p2 [= <- <-].
          + cbn. intros q r Hin. eapply HQ; [|exact F]. by apply T3.
        - destruct (t_todo t) as [|op ops] eqn:Eo; [discriminate|]. injection Eh as <- <- <-.
          assert (F : later (c_sh c1) M (c_sh c1) (c_sh c1 :: M)) by (apply Hstep; [apply wframe_refl|auto]).
          split; [done|]. split; [|split]; cbn.
          + intros q Hq. apply T1. by right.
          + intros q p [= <- <-]. apply Hp; [apply T1; by left|by left|by apply F].
          + intros q r Hin. eapply HQ; [|exact F]. by apply T3. }
      destruct H as (F&A3). exists (s' :: M). cbn. split; [by left|]. split; [|split].
      + intros t1 Ht1. apply elem_of_list_lookup in Ht1 as [k Hk]. destruct (decide (n = k)) as [<-|N].
        * rewrite list_lookup_insert in Hk by (by eapply lookup_lt_Some). by injection Hk as <-.
        * rewrite list_lookup_insert_ne in Hk by done. eapply tinv_later; [exact F|]. apply I2.
          by eapply elem_of_list_lookup_2.
      + intros s. rewrite elem_of_cons, I3. split.
        * intros [->|(k&c2&E2&<-)].
          -- exists (length (sched ++ [n])), (Conf s' mu' (<[n:=t']> (c_ths c1))). rewrite firstn_all. split; [exact E|done].
          -- exists (k `min` length sched), c2. split; [|done]. rewrite take_app_le by lia.
             destruct (Nat.le_ge_cases k (length sched)); [by rewrite Nat.min_l|].
             rewrite Nat.min_r by done. rewrite firstn_all. rewrite take_ge in E2; done.
        * intros (k&c2&E2&<-). destruct (Nat.le_gt_cases k (length sched)).
          -- right. exists k, c2. by rewrite take_app_le in E2.
          -- left. rewrite take_ge in E2 by (rewrite app_length; cbn; lia). rewrite E in E2. by injection E2 as <-.
      + apply F.
  Qed.
End runs.

(** ** SubGraph while the nodes stay and edges come and go *)
Definition ever (M : list gstate) (i j : Z) : Prop := exists s, s ∈ M /\ is_Some (adj_get (b_from (g_b s.2)) i j).
Definition always (M : list gstate) (i j : Z) : Prop := forall s, s ∈ M -> is_Some (adj_get (b_from (g_b s.2)) i j).
Definition copies (M : list gstate) (e : edge) : Prop := exists s, s ∈ M /\ in_b (g_b s.2) e.
Lemma subinv_src (S S' : edge -> Prop) w0 sg0 P w sg :
  (forall e, S e -> S' e) -> subinv S w0 sg0 P w sg -> subinv S' w0 sg0 P w sg.
Proof.
  intros HS [H1 H2 H0 H3 H4 H5 H6 H7 H8]. split; try done.
  intros i j e He. destruct (H6 _ _ _ He) as [? (e0&?&?)]. split; [done|]. exists e0. auto.
Qed.

Section links.
  Context (dir : bool) (N : gmap Z node) (gn : gmap string node).
  Context (Hex1 : forall k n, gn !! k = Some n -> N !! n_id n = Some n).
  Context (Hex2 : forall i m, N !! i = Some m -> gn !! n_key m = Some m).
  Definition fixd (g : wg) : Prop := gbase dir g /\ b_nodes (g_b g) = N /\ g_nodes g = gn.
  Lemma fixd_exact g : fixd g -> gexact g.
  Proof. intros (_&E1&E2). split; rewrite E1, E2; [exact Hex1|exact Hex2]. Qed.
  Lemma fixd_set g b : fixd g -> b_dir b = dir -> bwf b -> b_nodes b = N -> fixd (wg_set_b g b).
  Proof. intros ((_&_&Hk)&_&E2) H1 H2 H3. split; [|done]. split; [done|]. done. Qed.
  Notation later := (later fixd).
  Notation runs := (runs fixd).
  Lemma subinv_later M M1 s s1 w0 sg0 P sg :
    later s M s1 M1 -> subinv (copies M) w0 sg0 P s.1 sg -> subinv (copies M1) w0 sg0 P s1.1 sg.
  Proof.
    intros (F1&F2&_) I. eapply subinv_frame; [exact F1|]. eapply subinv_src; [|exact I].
    intros e (s0&H0&H). exists s0. auto.
  Qed.
  Lemma always_later s M s1 M1 i j : later s M s1 M1 -> always M1 i j -> always M i j.
  Proof. intros (_&F&_) H s0 H0. by apply H, F. Qed.
  Lemma later_refl s M s1 M1 : later s M s1 M1 -> later s1 M1 s1 M1.
  Proof. intros (_&_&F3&F4). split; [apply wframe_refl|]. auto. Qed.
  Lemma ever_later s M s1 M1 i j : later s M s1 M1 -> ever M i j -> ever M1 i j.
  Proof. intros (_&F&_) (s0&H0&H). exists s0. auto. Qed.

  Lemma sub_peers_runs o w0 sg0 from :
    b_nodes (g_b sg0) !! n_id from = Some from ->
    (forall i n, b_nodes (g_b sg0) !! i = Some n -> n_id n = i) ->
    forall peers st P s M sg,
    later s M s M ->
    (forall p, p ∈ peers -> ever M (n_id from) (n_id p)) ->
    subinv (copies M) w0 sg0 P s.1 sg ->
    runs (fun r s' M' => exists sg' P', r = Ok sg' /\ subinv (copies M') w0 sg0 P' s'.1 sg' /\
        (forall i j, P i j -> P' i j) /\
        (forall i j, P' i j -> P i j \/ (i = n_id from /\ j ∈ ids peers /\ is_Some (b_nodes (g_b sg0) !! j))) /\
        (forall j, j ∈ ids peers -> is_Some (b_nodes (g_b sg0) !! j) -> always M' (n_id from) j -> P' (n_id from) j))
      (sub_peers_prog o st (b_nodes (g_b sg0)) sg from peers) s M.
  Proof.
    intros Hf Hid. induction peers as [|p peers IH]; intros st P s M sg Hl Hp I.
    - cbn. intros s1 M1 F. exists sg, P. split; [done|]. split; [by eapply subinv_later|]. split; [done|]. split; [by left|].
      intros j H. by apply elem_of_nil in H.
    - cbn [sub_peers_prog].
      assert (Hp' : forall M1 s1, later s M s1 M1 -> forall q, q ∈ peers -> ever M1 (n_id from) (n_id q)).
      { intros M1 s1 F q Hq. eapply ever_later; [exact F|]. apply Hp. by right. }
      destruct (b_nodes (g_b sg0) !! n_id p) as [to|] eqn:Eto.
      + destruct (Hp p) as (sa&Ha&[e He]); [by left|].
        assert (Hba : bwf (g_b sa.2)). { destruct Hl as (_&_&_&Hl). destruct (Hl _ Ha) as ((_&Hb&_)&_). done. }
        destruct (bw_edge _ Hba _ _ _ He) as (Hne&_).
        pose proof (Hid _ _ Eto) as Hto. cbv zeta. apply runs_load. intros s1 M1 F1.
        assert (Hs1 : s1 ∈ M1 /\ fixd s1.2) by (destruct F1 as (_&_&?&F1); auto).
        assert (Hb1 : bwf (g_b s1.2)) by (destruct Hs1 as [_ ((_&Hb&_)&_)]; done).
        set (es := b_weighted_edges o ((st ++ [length peers]) ++ [0]) (g_b s1.2)).
        apply runs_alloc.
        2:{ intros w. pose proof (wframe_sub_edges o from to es ((st ++ [length peers]) ++ [1]) w sg) as Hfr.
            destruct (sub_link_edges o ((st ++ [length peers]) ++ [1]) w sg from to es) as [r [w1 sg1]]. exact Hfr. }
        intros s2 M2 s3 M3 F2 -> F3.
        destruct (sub_edges_ok o (copies M2) w0 sg0 from to Hf) with
          (es := es) (st := (st ++ [length peers]) ++ [1])
          (P := P) (w := s2.1) (sg := sg) as (w3&sg1&Ed&I1).
        * by rewrite Hto.
        * by rewrite Hto.
        * intros e' He'. apply b_weighted_edges_in in He'; [|done]. exists s1. split; [|done]. apply F2, Hs1.
        * eapply subinv_later; [|exact I]. by eapply later_trans.
        * rewrite Ed in F3 |- *. cbn [fst snd] in F3 |- *.
          assert (F0 : later s M (w3, s2.2) M3).
          { eapply later_trans; [exact F1|]. eapply later_trans; [exact F2|exact F3]. }
          assert (I3 : subinv (copies M3) w0 sg0 (fun i j => P i j \/ (es <> [] /\ i = n_id from /\ j = n_id to)) w3 sg1).
          { eapply subinv_src; [|exact I1]. intros e0 (s0&H0&H). exists s0. split; [|done]. by apply F3. }
          eapply runs_mono; [|apply F3|
            exact (IH st _ (w3, s2.2) M3 sg1 (later_refl _ _ _ _ F3) (Hp' _ _ F0) I3)].
          cbn beta. intros r s' M' F4 (sg2&P2&->&I2&Q1&Q2&Q3). exists sg2, P2. split; [done|]. split; [done|].
          split; [auto|]. rewrite Hto in *. unfold ids in *. split.
          -- intros i j H. rewrite fmap_cons, elem_of_cons. destruct (Q2 _ _ H) as [[?|(_&->&->)]|(->&?&?)]; [by left|right|right].
             ++ split; [done|]. split; [by left|]. eauto.
             ++ split; [done|]. split; [by right|done].
          -- intros j. rewrite fmap_cons, elem_of_cons. intros [->|Hj] Hnj Hal; [|by apply Q3].
             apply Q1. right. split; [|done]. destruct (Hal s1) as [e1 He1].
             { apply F4, F3, F2, Hs1. }
             pose proof (b_weighted_edges_complete o ((st ++ [length peers]) ++ [0]) (g_b s1.2) _ _ _ Hb1 He1) as H.
             fold es in H. destruct es; [by apply elem_of_nil in H|done].
      + eapply runs_mono; [|apply Hl|exact (IH st P s M sg Hl (Hp' _ _ Hl) I)].
        cbn beta. intros r s' M' F4 (sg2&P2&->&I2&Q1&Q2&Q3). exists sg2, P2. split; [done|]. split; [done|].
        split; [auto|]. unfold ids in *. split.
        * intros i j H. rewrite fmap_cons, elem_of_cons. destruct (Q2 _ _ H) as [?|(->&?&?)]; [by left|right].
          split; [done|]. split; [by right|done].
        * intros j. rewrite fmap_cons, elem_of_cons. intros [->|Hj] Hnj Hal; [|by apply Q3].
          rewrite Eto in Hnj. by destruct Hnj.
  Qed.

  Lemma sub_nodes_runs o w0 sg0 :
    (forall i n, b_nodes (g_b sg0) !! i = Some n -> n_id n = i) ->
    forall todo st P s M sg,
    later s M s M ->
    (forall i n, (i, n) ∈ todo -> b_nodes (g_b sg0) !! i = Some n) ->
    subinv (copies M) w0 sg0 P s.1 sg ->
    runs (fun r s' M' => exists sg' P', r = Ok sg' /\ subinv (copies M') w0 sg0 P' s'.1 sg' /\
        (forall i j, P i j -> P' i j) /\
        (forall i j, P' i j -> P i j \/ (i ∈ todo.*1 /\ ever M' i j /\ is_Some (b_nodes (g_b sg0) !! j))) /\
        (forall i j, i ∈ todo.*1 -> is_Some (b_nodes (g_b sg0) !! j) -> always M' i j -> P' i j))
      (sub_nodes_prog o st (b_nodes (g_b sg0)) sg todo) s M.
  Proof.
    intros Hid. induction todo as [|[i0 from] todo IH]; intros st P s M sg Hl Htodo I.
    - cbn. intros s1 M1 F. exists sg, P. split; [done|]. split; [by eapply subinv_later|]. split; [done|]. split; [by left|].
      intros i j H. by apply elem_of_nil in H.
    - cbn [sub_nodes_prog]. cbv zeta. apply runs_load. intros s1 M1 F1.
      assert (Hs1 : s1 ∈ M1 /\ fixd s1.2) by (destruct F1 as (_&_&?&?); auto).
      assert (Hb1 : bwf (g_b s1.2)) by (destruct Hs1 as [_ ((_&Hb&_)&_)]; done).
      destruct (b_from_nodes_ok o ((st ++ [length todo]) ++ [0]) (g_b s1.2) i0 Hb1) as (peers&->&_&Hin).
      assert (Hi0 : b_nodes (g_b sg0) !! i0 = Some from) by (apply Htodo; left).
      pose proof (Hid _ _ Hi0) as Hfid. subst i0.
      apply runs_bind; [apply Hs1|by apply F1|].
      eapply runs_mono; [|apply Hs1|apply (sub_peers_runs o w0 sg0 from Hi0 Hid) with (P := P)].
      2:{ by eapply later_refl. }
      2:{ intros p Hp. exists s1. split; [apply Hs1|]. by apply Hin. }
      2:{ by eapply subinv_later. }
      cbn beta. intros r s2 M2 F2 (sg1&P1&->&I1&Q1&Q2&Q3).
      eapply runs_mono; [|apply F2|exact (IH st P1 s2 M2 sg1 (later_refl _ _ _ _ F2)
        (fun i n H => Htodo i n (elem_of_list_further _ _ _ H)) I1)].
      cbn beta. intros r s3 M3 F3 (sg2&P2&->&I2&R1&R2&R3). exists sg2, P2. split; [done|]. split; [done|].
      assert (Hpeer : forall j, j ∈ ids peers <-> is_Some (adj_get (b_from (g_b s1.2)) (n_id from) j)).
      { intros j. unfold ids. rewrite elem_of_list_fmap. split.
        - intros (p&->&Hp). by apply Hin.
        - intros Ha. pose proof Ha as [e He]. destruct (bw_edge _ Hb1 _ _ _ He) as (_&_&[m Hm]&_).
          exists m. pose proof (bw_id _ Hb1 _ _ Hm) as Hmid. split; [done|]. apply Hin. rewrite Hmid. done. }
      assert (Hs3 : s1 ∈ M3) by (apply F3, F2, Hs1).
      split; [auto|]. split.
      + intros i j H. rewrite fmap_cons, elem_of_cons. destruct (R2 _ _ H) as [H1|(?&?&?)].
        * destruct (Q2 _ _ H1) as [?|(->&Hj&?)]; [by left|right]. split; [by left|]. split; [|done].
          exists s1. split; [done|]. by apply Hpeer.
        * right. split; [by right|done].
      + intros i j. rewrite fmap_cons, elem_of_cons. cbn [fst]. intros [->|Hi] Hnj Hal; [|by apply R3].
        apply R1, Q3; [|done|by eapply always_later]. apply Hpeer. by apply Hal.
  Qed.

  (** the graph at the time of the walk is [s.2] for some s in M *)
  Definition linkres (r : node) (d : Z) (M : list gstate) (w' : world) (sg : wg) : Prop :=
    exists s w1 sg1 P, s ∈ M /\
      subinv (copies M) w1 sg1 P w' sg /\
      (forall i j, P i j -> is_Some (b_nodes (g_b sg) !! i) /\ is_Some (b_nodes (g_b sg) !! j) /\ ever M i j) /\
      (forall i j, is_Some (b_nodes (g_b sg) !! i) -> is_Some (b_nodes (g_b sg) !! j) -> always M i j -> P i j) /\
      (forall i, is_Some (b_nodes (g_b sg) !! i) <->
         exists k, in_radius d k /\ bpath (g_b s.2) (n_id r) k i) /\
      (forall i n, b_nodes (g_b sg) !! i = Some n -> n = r \/ b_nodes (g_b s.2) !! i = Some n).
  Lemma linkres_later r d s M s1 M1 sg : later s M s1 M1 -> linkres r d M s.1 sg -> linkres r d M1 s1.1 sg.
  Proof.
    intros F (s0&w1&sg1&P&A1&A2&A3&A4&A5). exists s0, w1, sg1, P. split; [by apply F|]. split; [by eapply subinv_later|].
    split; [|split; [|done]].
    - intros i j H. destruct (A3 _ _ H) as (?&?&?). split; [done|]. split; [done|]. by eapply ever_later.
    - intros i j H1 H2 H3. apply A4; [done..|]. by eapply always_later.
  Qed.

  Lemma subgraph_runs o st u d opts s M :
    later s M s M ->
    runs (fun x s' M' => match gn !! uid_string u with
                         | Some r => exists sg, x = Some (Ok sg) /\ linkres r d M' s'.1 sg
                         | None => x = Some (Err GraphErrNodeNotFound)
                         end) (subgraph_prog o st u d opts) s M.
  Proof.
    intros Hl. unfold subgraph_prog. cbn [SnapP2.runs]. apply runs_load. intros sa Ma Fa.
    assert (Hga : g_nodes sa.2 = gn). { destruct Fa as (_&_&H1&H2). by apply H2. }
    rewrite Hga. destruct (gn !! uid_string u) as [r|] eqn:Hu; [|cbn; by intros].
    cbn [SnapP2.runs]. apply runs_alloc; [|intros w; apply wframe_new].
    intros sb Mb sc Mc Fb -> Fc. destruct (new_wdg sb.1 opts) as [sg0 w1] eqn:Enew. cbn [fst snd SnapP2.runs] in Fc |- *.
    apply runs_load. intros s1 M1 F1. cbv zeta. cbn [SnapP2.runs].
    assert (Hs1 : s1 ∈ M1 /\ fixd s1.2) by (destruct F1 as (_&_&?&?); auto). destruct Hs1 as [Hs1 Hfx].
    pose proof (fixd_exact _ Hfx) as Hex. destruct Hfx as ((Hd&Hb&Hk)&HN&Hgn).
    assert (Hlook : forall n, n = r \/ b_nodes (g_b s1.2) !! n_id n = Some n -> gn !! n_key n = Some n).
    { intros n [->|Hn].
      - rewrite <- Hgn in Hu. pose proof (Hk _ _ Hu) as E. rewrite <- Hgn. congruence.
      - rewrite HN in Hn. by apply Hex2 in Hn. }
    assert (Hroot : is_Some (b_nodes (g_b s1.2) !! n_id r)). { rewrite HN. exists r. by eapply Hex1. }
    destruct (bfs_walk_ok o (st ++ [0]) (g_b s1.2) r d Hb Hroot) as (order&->&Hnd&Hst&Hball).
    pose proof (new_fields true sb.1 opts) as Hnf. cbn zeta in Hnf. rewrite Enew in Hnf. cbn [fst] in Hnf.
    destruct Hnf as [[x Hsb] Hsn].
    destruct (visit_all order sg0 ∅) as (sg1&->&Hr1&Hx1&Hadj1&Hg1&Hg2&Hg3&Hnodes).
    - pose proof (reach_new true sb.1 opts) as H. by rewrite Enew in H.
    - split; rewrite ?Hsb, ?Hsn; intros k n H; cbn in H; by rewrite lookup_empty in H.
    - intros a b. by rewrite Hsb.
    - by rewrite Hsb.
    - done.
    - apply nodup_keys; [done|]. intros n m Hn Hm E.
      pose proof (Hlook n (Hst n Hn)) as Hn'. pose proof (Hlook m (Hst m Hm)) as Hm'.
      rewrite E in Hn'. congruence.
    - intros n Hn. by rewrite Hsb, Hsn, !lookup_empty.
    - pose proof (reach_base _ _ Hr1) as (_&Hb1&_).
      assert (Hsg1 : forall i n, b_nodes (g_b sg1) !! i = Some n <-> n ∈ order /\ n_id n = i).
      { intros i n. rewrite Hnodes, Hsb. cbn. rewrite lookup_empty. naive_solver. }
      assert (I0 : subinv (copies M1) s1.1 sg1 (fun _ _ => False) s1.1 sg1).
      { split; try done.
        - intros i j e. by rewrite Hadj1.
        - by destruct sg1.
        - intros i j e. by rewrite Hadj1.
        - intros i j e i' j' e'. by rewrite Hadj1. }
      unfold pmap. apply runs_bind; [done|by apply F1|]. eapply runs_mono; [|done|
        apply (sub_nodes_runs o s1.1 sg1) with (P := fun _ _ : Z => False); [apply (bw_id _ Hb1)|by eapply later_refl| |exact I0]].
      2:{ intros i n Hin. by apply elem_of_map_range in Hin. }
      cbn beta. intros y s2 M2 F2 (sg2&P2&->&I2&Q1&Q2&Q3). cbn [SnapP2.runs]. intros s3 M3 F3.
      exists sg2. split; [done|]. eapply linkres_later; [exact F3|].
      pose proof (si_nodes _ _ _ _ _ _ I2) as Hn2.
      assert (Hk1 : forall i, i ∈ (map_range o (st ++ [1]) (b_nodes (g_b sg1))).*1 <-> is_Some (b_nodes (g_b sg1) !! i)).
      { intros i. rewrite elem_of_list_fmap. split.
        - intros ([i' n]&->&Hin). apply elem_of_map_range in Hin. cbn. eauto.
        - intros [n Hn]. exists (i, n). split; [done|]. by apply elem_of_map_range. }
      exists s1, s1.1, sg1, P2. split; [by apply F2|]. split; [done|]. rewrite Hn2. split; [|split; [|split]].
      + intros i j H. destruct (Q2 _ _ H) as [[]|(?&?&?)]. split; [by apply Hk1|done].
      + intros i j Hi Hj Hal. apply Q3; [by apply Hk1|done|done].
      + intros i. rewrite <- Hball. unfold ids. rewrite elem_of_list_fmap. split.
        * intros [n Hn]. apply Hsg1 in Hn as [? ?]. eauto.
        * intros (n&->&Hn). exists n. by apply Hsg1.
      + intros i n Hn. apply Hsg1 in Hn as [Hn <-]. by apply Hst.
  Qed.

  (** ** all calls that keep the nodes *)
  Definition linkpost (q : gcall) (r : gqret) (s : gstate) (M : list gstate) : Prop :=
    match q.2 with
    | QSubGraph u d _ =>
        match gn !! uid_string u with
        | Some n => exists sg, r = QRGraph (Some (Ok sg)) /\ linkres n d M s.1 sg
        | None => r = QRGraph (Some (Err GraphErrNodeNotFound))
        end
    | _ => True
    end.
  Lemma linkpost_later q r s M s1 M1 : linkpost q r s M -> later s M s1 M1 -> linkpost q r s1 M1.
  Proof.
    intros H F. unfold linkpost in *. destruct q.2; try done. destruct (gn !! uid_string u); [|done].
    destruct H as (sg&->&H). exists sg. split; [done|]. by eapply linkres_later.
  Qed.
  Lemma runs_set {R} (Q : R -> gstate -> list gstate -> Prop) b f s M :
    b_dir b = dir -> bwf b -> b_nodes b = N ->
    (forall s1 M1, later s1 M1 s1 M1 -> runs Q (f ()) s1 M1) ->
    runs Q (pbind (gsave (fun g => wg_set_b g b)) f) s M.
  Proof.
    intros H1 H2 H3 Hf. cbn. intros s1 M1 (F1&F2&F3&F4). split; [apply wframe_refl|].
    assert (Hx : fixd (wg_set_b s1.2 b)) by (apply fixd_set; auto). split; [done|].
    apply Hf. split; [apply wframe_refl|]. split; [done|]. split; [by left|].
    intros x. rewrite elem_of_cons. intros [->|?]; auto.
  Qed.
  Definition any {R} (_ : R) (_ : gstate) (_ : list gstate) : Prop := True.
  Lemma later_state s M s1 M1 : later s M s1 M1 -> s1 ∈ M1 /\ fixd s1.2 /\ (forall x, x ∈ M1 -> fixd x.2).
  Proof. intros (_&_&H1&H2). auto. Qed.
  Lemma link_runs u v opts s M : later s M s M -> runs any (link_prog u v opts) s M.
  Proof.
    intros Hl. unfold link_prog. cbn [SnapP2.runs]. destruct (later_state _ _ _ _ Hl) as (Hs&_&HM).
    apply runs_bind; [done..|]. unfold edge_prog, rlocked.
    change (RLock 1 (pbind (pbind gload (fun g => Ret (wg_edge g u v))) (fun a => RUnlock 1 (Ret a))))
      with (RLock 1 (pbind gload (fun g => RUnlock 1 (Ret (wg_edge g u v))))).
    cbn [SnapP2.runs]. apply runs_load. intros s1 M1 F1. cbn [SnapP2.runs].
    intros s2 M2 F2. destruct (wg_edge s1.2 u v) as [e|x|p]; [by cbn| |by cbn].
    case_bool_decide; [|by cbn]. apply runs_load. intros s3 M3 F3.
    destruct (later_state _ _ _ _ F3) as (Hs3&(_&_&Hg3)&_). rewrite Hg3.
    destruct (gn !! uid_string u) as [f|] eqn:Ef; [|by cbn]. apply runs_load. intros s4 M4 F4.
    destruct (later_state _ _ _ _ F4) as (Hs4&(_&_&Hg4)&HM4). rewrite Hg4.
    destruct (gn !! uid_string v) as [t|] eqn:Et; [|by cbn]. unfold locked. cbn [SnapP2.runs].
    apply runs_bind; [done..|]. apply runs_alloc; [|intros w; apply wframe_edge].
    intros s5 M5 s6 M6 F5 _ F6. apply runs_load. intros s7 M7 F7.
    destruct (later_state _ _ _ _ F7) as (Hs7&((Hd&Hb&_)&HN&_)&HM7).
    destruct (new_edge s5.1 f t opts) as [e w1] eqn:Ee. cbn [fst].
    destruct (new_edge_ends _ _ _ _ _ _ Ee) as [Hef Het].
    destruct (b_set_edge (g_b s7.2) e) as [b|x0|p] eqn:Eb; [|by cbn..].
    apply runs_set; [..|by intros; cbn; intros].
    - destruct (decide (n_id (ed_from e) = n_id (ed_to e))) as [Eq|Ne].
      { unfold b_set_edge in Eb. by rewrite bool_decide_true in Eb. }
      destruct (b_set_edge_ok (g_b s7.2) e Ne) as (b'&Eb'&H1&_). rewrite Eb in Eb'. injection Eb' as <-. congruence.
    - by eapply bwf_set_edge.
    - destruct (decide (n_id (ed_from e) = n_id (ed_to e))) as [Eq|Ne].
      { unfold b_set_edge in Eb. by rewrite bool_decide_true in Eb. }
      destruct (b_set_edge_ok (g_b s7.2) e Ne) as (b'&Eb'&_&H1&_). rewrite Eb in Eb'. injection Eb' as <-.
      rewrite H1, HN, Hef, Het, (insert_id N (n_id f) f) by (by eapply Hex1). apply insert_id. by eapply Hex1.
  Qed.
  Lemma unlink_runs u v s M : later s M s M -> runs any (unlink_prog u v) s M.
  Proof.
    intros Hl. unfold unlink_prog. cbn [SnapP2.runs]. apply runs_load. intros s1 M1 F1.
    destruct (later_state _ _ _ _ F1) as (Hs1&(_&_&Hg1)&_). rewrite Hg1.
    destruct (gn !! uid_string u) as [f|] eqn:Ef; [|by cbn]. apply runs_load. intros s2 M2 F2.
    destruct (later_state _ _ _ _ F2) as (Hs2&(_&_&Hg2)&HM2). rewrite Hg2.
    destruct (gn !! uid_string v) as [t|] eqn:Et; [|by cbn]. unfold locked. cbn [SnapP2.runs].
    apply runs_bind; [done..|]. apply runs_bind; [done..|]. unfold gset_b. apply runs_load. intros s3 M3 F3.
    destruct (later_state _ _ _ _ F3) as (Hs3&((Hd&Hb&_)&HN&_)&HM3).
    pose proof (b_remove_edge_ok (g_b s3.2) (n_id f) (n_id t) Hb) as (A1&A2&_).
    change (gsave (fun g' => wg_set_b g' (b_remove_edge (g_b s3.2) (n_id f) (n_id t))))
      with (pbind (gsave (fun g' => wg_set_b g' (b_remove_edge (g_b s3.2) (n_id f) (n_id t)))) Ret).
    apply runs_set; [congruence|by apply bwf_remove_edge|congruence|]. intros. cbn. intros. done.
  Qed.
  Lemma read_runs {A R} (f : wg -> A) (h : A -> R) s M :
    runs any (pmap h (rlocked 1 (pbind gload (fun g => Ret (f g))))) s M.
  Proof. cbn. intros s1 M1 F. split; [apply wframe_refl|]. split; [by destruct (later_state _ _ _ _ F) as (_&?&_)|]. done. Qed.
  Lemma runs_any {A R} (p : prog gstate A) (h : A -> R) s M : later s M s M -> runs any p s M -> runs any (pmap h p) s M.
  Proof.
    intros Hl Hp. destruct (later_state _ _ _ _ Hl) as (Hs&_&HM). unfold pmap. apply runs_bind; [done..|].
    eapply runs_mono; [|done|exact Hp]. intros. cbn. done.
  Qed.
  Lemma graph_runs o q s M :
    (forall n l, q.2 <> QAddNode n l) -> (forall e l, q.2 <> QCreate e l) -> (forall u, q.2 <> QRemoveNode u) ->
    s ∈ M -> (forall x, x ∈ M -> fixd x.2) -> runs (linkpost q) (graph_prog o q) s M.
  Proof.
    intros H2 H3 H4 Hs HM. assert (Hl : later s M s M) by (split; [apply wframe_refl|auto]).
    destruct q as [st q]; unfold linkpost; cbn [graph_prog fst snd] in *.
    destruct q; try solve [exfalso; first [by eapply H2|by eapply H3|by eapply H4]];
      try (by apply read_runs); try (by apply runs_any; [|first [apply link_runs|apply unlink_runs]]).
    - apply runs_any; [done|]. unfold new_node_prog. cbn [SnapP2.runs]. apply runs_load. intros s3 M3 F3. cbn [fst].
      destruct (newnode_id o st s3.2); [|by cbn..]. cbn [SnapP2.runs]. apply runs_alloc; [|intros; apply wframe_node].
      intros s4 M4 s5 M5 F4 _ F5. cbn [SnapP2.runs]. apply runs_load. by intros; cbn.
    - unfold pmap. apply runs_bind; [done..|]. eapply runs_mono; [|done|by apply subgraph_runs].
      cbn beta. intros x s1 M1 F1 Hx s2 M2 F2. destruct (gn !! uid_string u); [|by subst x].
      destruct Hx as (sg&->&H). exists sg. split; [done|]. by eapply linkres_later.
    - apply runs_any; [done|]. unfold dot_prog. cbn [SnapP2.runs]. apply runs_load. by intros; cbn.
  Qed.
End links.
