(** No call is stuck for ever; Unsubscribe calls one at a time do not panic. *)
From Verif.Proof Require Export BrokerP6.

Lemma crashed_iff cf : crashed cf = true <-> exists i c x, bc_ths cf !! i = Some (c, PPanicked x).
Proof.
  unfold crashed. rewrite existsb_exists. split.
  - intros ([c p] & Hin & Hp). apply elem_of_list_In, elem_of_list_lookup in Hin as (i & Hi).
    destruct p; try done. eauto.
  - intros (i & c & x & Hi). exists (c, PPanicked x). split; [|done].
    apply elem_of_list_In, elem_of_list_lookup. eauto.
Qed.
Lemma crashed_not cf : crashed cf = false -> forall i c x, bc_ths cf !! i = Some (c, PPanicked x) -> False.
Proof. intros H i c x Hi. assert (crashed cf = true) by (apply crashed_iff; eauto). congruence. Qed.

(** ** Subscribers named by calls exist *)
Definition sub_of (c : call) : option nat :=
  match c with CUnsub s | CRecv _ s _ | CDigest _ s | CAsync s => Some s | _ => None end.
Definition has_sub (cf : bconf) (_ : list event) : Prop :=
  forall i c p s, bc_ths cf !! i = Some (c, p) -> sub_of c = Some s -> is_Some (bs_heap (bc_st cf) !! s).
Lemma has_sub_mono cf l cf' es' s : step cf l cf' es' -> is_Some (bs_heap (bc_st cf) !! s) ->
  is_Some (bs_heap (bc_st cf') !! s).
Proof. intros H [sb Hs]. destruct (heap_mono_step _ _ _ _ _ _ H Hs) as (sb' & -> & _). eauto. Qed.
Lemma has_sub_step cf es l cf' es' : has_sub cf es -> step cf l cf' es' -> has_sub cf' (es ++ es').
Proof.
  intros U H i c p s Hi Hs. eapply has_sub_mono; [done|].
  destruct (step_before _ _ _ _ _ _ _ H Hi) as
    [Hj0| _ -> Hc|k ck pk ch b' p' acts _ -> Hk Ht _ _|p0 ch sp acts Hj0 Ht _|q e' d ctx t m o Hj0 ? _ _ _|m d x Hj0 -> _ _|m x Hj0 -> _ _];
    try (by eapply U).
  - destruct c; try done; simpl in *; simplify_eq; apply lookup_lt_is_Some; by apply Nat.ltb_lt.
  - destruct (tr_spawn_inv _ _ _ _ _ _ _ _ Ht) as [(ctx & -> & -> & _)|(s' & -> & -> & _)]; [done|].
    simpl in Hs. simplify_eq. by eapply U.
Qed.
Lemma has_sub_exec uuid opts ls cf es : bexec (broker_init uuid opts) ls = Some (cf, es) -> has_sub cf es.
Proof. apply bexec_ind; [by intros i c p s Hi|]. intros. by eapply has_sub_step. Qed.

(** ** Progress *)
Definition quiet_label (l : label) : Prop := match l with LStep _ _ | LTick _ => True | _ => False end.
Definition advances (cf : bconf) (i : nat) (c : call) (p : pc) : Prop :=
  exists ls cf' es' p', Forall quiet_label ls /\ bexec cf ls = Some (cf', es') /\
    bc_ths cf' !! i = Some (c, p') /\ left_to_do p' < left_to_do p /\
    (crashed cf' = false \/ exists x, p' = PPanicked x).
Lemma bstep_one cf i ch c p o : crashed cf = false -> bc_ths cf !! i = Some (c, p) ->
  tstep (bc_st cf) c p ch = Some o ->
  exists cf' es', bexec cf [LStep i ch] = Some (cf', es') /\ bc_ths cf' !! i = Some (c, o_pc o) /\
    bc_st cf' = o_st o /\ (crashed cf' = false \/ exists x, o_pc o = PPanicked x) /\
    (forall k, k <> i -> is_Some (bc_ths cf !! k) -> bc_ths cf' !! k = bc_ths cf !! k).
Proof.
  intros Hc Hi Ht. assert (Hlt : i < length (bc_ths cf)) by by eapply lookup_lt_Some.
  eexists _, _. split; [cbn [bexec]; unfold bstep; rewrite Hc, Hi, Ht; done|]. cbn [bc_ths bc_st].
  split_and!.
  - rewrite ths_step by done. by left.
  - done.
  - match goal with |- crashed ?x = _ \/ _ => destruct (crashed x) eqn:E end; [right|by left]. apply crashed_iff in E as (k & c' & x & Hk).
    cbn [bc_ths] in Hk. rewrite ths_step in Hk by done.
    destruct Hk as [[-> [= -> <-]]|[[_ Hk]|[_ (c0 & _ & [= -> Hk])]]].
    + eauto.
    + by eapply crashed_not in Hk.
    + by destruct c0.
  - intros k Hk [[ck pk] Hl]. rewrite Hl. rewrite ths_step by done. by right; left.
Qed.
Lemma advances_go cf i ch c p o : crashed cf = false -> bc_ths cf !! i = Some (c, p) ->
  tstep (bc_st cf) c p ch = Some o -> left_to_do (o_pc o) < left_to_do p -> advances cf i c p.
Proof.
  intros Hc Hi Ht Hl. destruct (bstep_one _ _ _ _ _ _ Hc Hi Ht) as (cf' & es' & He & Hi' & _ & Hcr & _).
  exists [LStep i ch], cf', es', (o_pc o). split; [by repeat constructor|]. done.
Qed.
Lemma advances_tick cf d i c p :
  crashed cf = false ->
  advances (BConf (set_now (bc_st cf) (bs_now (bc_st cf) + Z.of_N d)) (bc_ths cf)) i c p -> advances cf i c p.
Proof.
  intros Hc (ls & cf' & es' & p' & Hq & He & Hp' & Hl & Hcr).
  exists (LTick d :: ls), cf', (ETick d :: es'), p'. split; [by constructor|]. split; [|done].
  cbn [bexec]. unfold bstep. rewrite Hc. cbn [bc_ths bc_st]. by rewrite He.
Qed.
Lemma advances_free cf i c p : crashed cf = false -> bs_locked (bc_st cf) = false ->
  bc_ths cf !! i = Some (c, p) -> wf_pc c p -> is_client c = true ->
  (forall s, sub_of c = Some s -> is_Some (bs_heap (bc_st cf) !! s)) ->
  0 < left_to_do p -> advances cf i c p.
Proof.
  intros Hc Hl Hi Hw Hcl Hsub Hlt.
  assert (Hsb : forall ctx s o, recv_args c = Some (ctx, s, o) -> exists sb, bs_heap (bc_st cf) !! s = Some sb).
  { intros ctx s o Hr. apply Hsub. destruct c; simpl in *; simplify_eq; done. }
  destruct p; simpl in Hlt; try lia.
  - destruct (m_connected (bs_mem (bc_st cf))) eqn:E;
      (eapply (advances_go _ _ ChGo); [done|done|cbn; by rewrite Hl, E|simpl; lia]).
  - eapply (advances_go _ _ ChGo); [done|done|cbn; by rewrite Hl|simpl; lia].
  - destruct c; try done. eapply (advances_go _ _ ChGo); [done|done|cbn; done|simpl; lia].
  - eapply (advances_go _ _ ChGo); [done|done|cbn; by rewrite Hl|].
    unfold mem_close. repeat case_match; simpl; lia.
  - destruct (m_connected (bs_mem (bc_st cf))) eqn:E;
      (eapply (advances_go _ _ ChGo); [done|done|cbn; by rewrite Hl, E|simpl; lia]).
  - destruct c; try done. destruct (get_queue (bc_st cf) topic) as [q b'] eqn:E.
    eapply (advances_go _ _ ChGo); [done|done|cbn; by rewrite Hl, E|simpl; lia].
  - destruct c; try done. eapply (advances_go _ _ ChGo); [done|done|cbn; done|simpl; lia].
  - apply (advances_tick _ (Z.to_N (deadline - bs_now (bc_st cf)))); [done|].
    eapply (advances_go _ _ ChTimeout); [done|done| |]; cycle 1.
    + instantiate (1 := Out _ (PDone (Err BrokerErrTimeout)) None []). simpl. lia.
    + cbn [tstep]. cbn [bc_st set_now bs_now].
      match goal with |- context [(deadline <=? ?x)%Z] => assert ((deadline <=? x)%Z = true) as -> by (apply Z.leb_le; lia) end.
      done.
  - destruct (m_connected (bs_mem (bc_st cf))) eqn:E;
      (eapply (advances_go _ _ ChGo); [done|done|cbn; by rewrite Hl, E|simpl; lia]).
  - destruct c; try done.
    destruct (get_queue (set_cnt (bc_st cf) (S (bs_cnt (bc_st cf)))) topic) as [q b'] eqn:E.
    eapply (advances_go _ _ ChGo); [done|done|cbn [tstep]; rewrite Hl, E; cbn; done|simpl; lia].
  - destruct c; try done. destruct (Hsub _ eq_refl) as [sb Hs]. destruct (s_active sb) eqn:E;
      (eapply (advances_go _ _ ChGo); [done|done|cbn; by rewrite Hs, E|simpl; lia]).
  - destruct c; try done. destruct (Hsub _ eq_refl) as [sb Hs].
    destruct (chan_closed (bc_st cf) (Some (s_exit sb))) eqn:E;
      (eapply (advances_go _ _ ChGo); [done|done|cbn [tstep]; by rewrite Hs, E|simpl; lia]).
  - destruct c; try done. destruct (Hsub _ eq_refl) as [sb Hs].
    eapply (advances_go _ _ ChGo); [done|done|cbn; by rewrite Hs|simpl; lia].
  - destruct c; try done. eapply (advances_go _ _ ChGo); [done|done|cbn; done|simpl; lia].
  - by destruct c.
  - destruct (recv_args c) as [[[ctx s] o]|] eqn:Hr; [|by destruct c].
    destruct (Hsb _ _ _ eq_refl) as [sb Hs]. destruct (s_active sb) eqn:E.
    + eapply (advances_go _ _ ChGo); [done|done|cbn; by rewrite Hr, Hs, E|simpl; lia].
    + eapply (advances_go _ _ ChGo); [done|done|cbn; by rewrite Hr, Hs, E|]. cbn [o_pc]. rewrite recv_return_err. simpl. lia.
  - apply (advances_tick _ (Z.to_N (deadline - bs_now (bc_st cf)))); [done|].
    eapply (advances_go _ _ ChTimeout); [done|done| |]; cycle 1.
    + instantiate (1 := Out _ PRecvDrop None []). simpl. lia.
    + cbn [tstep]. cbn [bc_st set_now bs_now].
      match goal with |- context [(deadline <=? ?x)%Z] => assert ((deadline <=? x)%Z = true) as -> by (apply Z.leb_le; lia) end.
      done.
  - destruct (recv_args c) as [[[ctx s] o]|] eqn:Hr; [|by destruct c].
    destruct (Hsb _ _ _ eq_refl) as [sb Hs].
    destruct (bs_msgs (bc_st cf) !! q_msg (s_queue sb)) as [[|m buf]|] eqn:E.
    + eapply (advances_go _ _ ChDefault); [done|done|cbn; by rewrite Hr, Hs, E|]. cbn [o_pc]. rewrite recv_return_err. simpl. lia.
    + eapply (advances_go _ _ ChRecv); [done|done|cbn; by rewrite Hr, Hs, E|]. cbn [o_pc]. rewrite recv_return_err. simpl. lia.
    + eapply (advances_go _ _ ChDefault); [done|done|cbn; by rewrite Hr, Hs, E|]. cbn [o_pc]. rewrite recv_return_err. simpl. lia.
  - eapply (advances_go _ _ (ChHandler (Some 0%N))); [done|done|cbn; done|]. cbn [o_pc]. rewrite recv_return_err. simpl. lia.
Qed.
Lemma advances_any uuid opts ls cf es i c p : bexec (broker_init uuid opts) ls = Some (cf, es) ->
  crashed cf = false -> bc_ths cf !! i = Some (c, p) -> is_client c = true -> 0 < left_to_do p -> advances cf i c p.
Proof.
  intros H Hc Hi Hcl Hlt. destruct (sess_exec _ _ _ _ _ H) as [B S]. pose proof (has_sub_exec _ _ _ _ _ H) as Hsub.
  assert (Hw : wf_pc c p) by by eapply base_wf.
  destruct (bs_locked (bc_st cf)) eqn:Hl.
  - destruct (se_lock _ _ S Hl) as (j & ctx & Hj).
    assert (Ht : exists o, tstep (bc_st cf) (COpen ctx) POpenCtl ChGo = Some o /\ o_pc o = PDone (Ok None) /\
       bs_locked (o_st o) = false /\ bs_heap (o_st o) = bs_heap (bc_st cf)).
    { eexists. split; [cbn; done|done]. }
    destruct Ht as (o & Ht & Hp & Hlo & Hho).
    destruct (bstep_one _ _ _ _ _ _ Hc Hj Ht) as (cf' & es' & He & Hj' & Hst & Hcr & Hoth).
    assert (Hcr' : crashed cf' = false) by (destruct Hcr as [?|[x Hx]]; [done|by rewrite Hp in Hx]).
    destruct (decide (i = j)) as [->|Hne].
    + simplify_eq. eapply advances_go; [done|done|done|]. rewrite Hp. simpl. lia.
    + destruct (advances_free cf' i c p) as (ls' & cf2 & es2 & p' & Hq & He2 & Hr).
      * done.
      * by rewrite Hst.
      * rewrite Hoth; [done|done|]. by rewrite Hi.
      * done.
      * done.
      * rewrite Hst, Hho. intros s Hs. exact (Hsub _ _ _ _ Hi Hs).
      * done.
      * exists ([LStep j ChGo] ++ ls'), cf2, (es' ++ es2), p'. split; [by repeat constructor|].
        rewrite bexec_app, He, He2. done.
  - apply advances_free; try done. intros s Hs. by eapply Hsub.
Qed.
Lemma finishes uuid opts ls cf es i c p : bexec (broker_init uuid opts) ls = Some (cf, es) ->
  crashed cf = false -> bc_ths cf !! i = Some (c, p) -> is_client c = true ->
  exists ls' cf' es', Forall quiet_label ls' /\ bexec cf ls' = Some (cf', es') /\
    ((exists r, bc_ths cf' !! i = Some (c, PDone r)) \/ (exists x, bc_ths cf' !! i = Some (c, PPanicked x))).
Proof.
  remember (left_to_do p) as n eqn:En. revert ls cf es p En.
  induction (lt_wf n) as [n _ IH]. intros ls cf es p En H Hc Hi Hcl.
  destruct (decide (left_to_do p = 0)) as [H0|H0].
  - exists [], cf, []. split; [constructor|]. split; [done|].
    destruct (sess_exec _ _ _ _ _ H) as [B _]. apply (base_wf _ _ B) in Hi as Hw.
    destruct p; simpl in H0; try lia; eauto; by destruct c.
  - destruct (advances_any _ _ _ _ _ _ _ _ H Hc Hi Hcl) as (ls1 & cf1 & es1 & p1 & Hq & He & Hp1 & Hlt & Hcr); [lia|].
    destruct Hcr as [Hcr|[x ->]].
    + destruct (IH (left_to_do p1) ltac:(lia) (ls ++ ls1) cf1 (es ++ es1) p1 eq_refl) as (ls2 & cf2 & es2 & Hq2 & He2 & Hr);
        [by eapply exec_two|done|done|done|].
      exists (ls1 ++ ls2), cf2, (es1 ++ es2). split; [by apply Forall_app|]. split; [|done].
      by rewrite bexec_app, He, He2.
    + exists ls1, cf1, es1. eauto.
Qed.

(** ** Unsubscribe calls that do not overlap *)
Record calm (cf : bconf) : Prop := {
  ca_one : forall i j s p p', bc_ths cf !! i = Some (CUnsub s, p) -> bc_ths cf !! j = Some (CUnsub s, p') ->
    (forall r, p <> PDone r) -> (forall r, p' <> PDone r) -> i = j;
  ca_exit : forall s sb, bs_heap (bc_st cf) !! s = Some sb -> s_active sb = true ->
    s_exit sb ∉ bs_closed (bc_st cf) \/ exists i, bc_ths cf !! i = Some (CUnsub s, PUnsubSet);
  ca_act : forall i s p, bc_ths cf !! i = Some (CUnsub s, p) -> p = PUnsubClose \/ p = PUnsubSet ->
    exists sb, bs_heap (bc_st cf) !! s = Some sb /\ s_active sb = true;
  ca_panic : forall i c x, bc_ths cf !! i <> Some (c, PPanicked x);
}.
Lemma one_at_a_time_app es es' : one_at_a_time (es ++ es') -> one_at_a_time es.
Proof.
  intros H es1 i s es2 j -> Hj. eapply (H es1 i s (es2 ++ es') j); [|done]. by rewrite <- app_assoc.
Qed.
Lemma tr_unsub_only b c p ch b' p' sp acts s sb sb' : tr b c p ch b' p' sp acts ->
  bs_heap b !! s = Some sb -> bs_heap b' !! s = Some sb' -> s_active sb = true -> s_active sb' = false ->
  c = CUnsub s /\ p = PUnsubSet.
Proof.
  intros Ht Hs Hs' Ha Ha'. destruct Ht; simpl in *; simplify_eq; try congruence.
  - rewrite get_queue_2 in Hs'. unfold pub_make in Hs'. destruct (m_topics (bs_mem b) !! t); simpl in *; simplify_eq; congruence.
  - rewrite sub_make_eq in Hs'. simpl in Hs'. rewrite (lookup_app_l_Some _ _ _ _ Hs) in Hs'. simplify_eq. congruence.
  - rewrite list_lookup_insert_Some in Hs'. destruct Hs' as [(-> & _ & _)|[? ?]]; [done|]. simplify_eq. congruence.
Qed.
Lemma calm_step cf es l cf' es' : one_at_a_time (es ++ es') -> base cf es -> sess cf es -> calm cf ->
  step cf l cf' es' -> calm cf'.
Proof.
  intros HO B S C H.
  assert (Hret : forall i s p, bc_ths cf !! i = Some (CUnsub s, p) -> forall p', bc_ths cf' !! i = Some (CUnsub s, p') ->
     (forall r, p' <> PDone r) -> forall r, p <> PDone r).
  { intros i s p Hi p' Hi' Hnd r ->. apply (Hnd r).
    pose proof (ths_done_step _ _ _ _ _ _ _ H Hi). by simplify_eq. }
  split.
  - assert (Hx : forall i s p, bc_ths cf' !! i = Some (CUnsub s, p) -> (forall r, p <> PDone r) ->
      (exists p0, bc_ths cf !! i = Some (CUnsub s, p0) /\ forall r, p0 <> PDone r) \/
      (i = length (bc_ths cf) /\ forall j p0, bc_ths cf !! j = Some (CUnsub s, p0) -> exists r, p0 = PDone r)).
    { intros i s p Hi Hp. destruct (decide (i < length (bc_ths cf))) as [Hlt|Hge].
      - left. apply lookup_lt_is_Some in Hlt as [[c0 p0] Hi0].
        destruct (ths_mono_step _ _ _ _ _ _ _ H Hi0) as (p1 & Hp1). simplify_eq.
        exists p0. split; [done|]. by eapply Hret.
      - right. destruct (step_before _ _ _ _ _ _ _ H Hi); try (by apply lookup_lt_Some in H0; lia).
        + split; [done|]. intros j p0 Hj. subst i.
          destruct H as [c0 Hc|ctx|d|i0 ch c0 q0 b' q' sp acts Hi0 Ht|
            i0 j0 ctx t m0 o q e d cj ctxj s0 oj sb dj Hi0 Hj0 Har Hs Hcap Hq|
            i0 j0 ctx t m0 o q e d cj ctxj s0 oj sb Hi0 Hj0 Har Hs Hcap Hq]; simpl in *.
          * rewrite ths_call in Hi. destruct Hi as [Hi|[_ [= <- ->]]]; [apply lookup_lt_Some in Hi; lia|].
            destruct (HO es (length (bc_ths cf)) s [] j) as (r & Hr); [done| |].
            -- apply (base_call _ _ B). split; [done|]. eauto.
            -- apply (base_ret _ _ B) in Hr as (c' & Hr). simplify_eq. eauto.
          * apply lookup_lt_Some in Hi. lia.
          * apply lookup_lt_Some in Hi. lia.
          * rewrite ths_step in Hi by by eapply lookup_lt_Some.
            destruct Hi as [[<- _]|[[_ Hi]|[_ (c1 & -> & [= <- ->])]]].
            -- apply lookup_lt_Some in Hi0. lia.
            -- apply lookup_lt_Some in Hi. lia.
            -- destruct (tr_spawn_inv _ _ _ _ _ _ _ _ Ht) as [(? & _ & ? & _)|(? & _ & ? & _)]; done.
          * apply lookup_lt_Some in Hi. rewrite !insert_length in Hi. lia.
          * apply lookup_lt_Some in Hi. rewrite !insert_length in Hi. lia.
        + destruct (tr_spawn_inv _ _ _ _ _ _ _ _ H3) as [(? & _ & ? & _)|(? & _ & ? & _)]; done. }
    intros i j s p p' Hi Hj Hp Hp'.
    destruct (Hx _ _ _ Hi Hp) as [(p0 & Hi0 & Hp0)|[Ei Hi0]], (Hx _ _ _ Hj Hp') as [(p1 & Hj0 & Hp1)|[Ej Hj0]].
    + by eapply (ca_one _ C).
    + destruct (Hj0 _ _ Hi0) as [r ->]. by destruct (Hp0 r).
    + destruct (Hi0 _ _ Hj0) as [r ->]. by destruct (Hp1 r).
    + congruence.
  - intros s sb' Hs' Ha'.
    destruct (step_change _ _ _ _ H) as [i c p ch p' sp acts Hi Ht -> Hths|Hb _ _ _ _|ctx' -> ->|d -> ->]; simpl in *.
    + assert (Hlt : i < length (bc_ths cf)) by by eapply lookup_lt_Some.
      destruct (tr_heap_new _ _ _ _ _ _ _ _ _ _ Ht Hs') as [(sb & Hs & Hsame)|(-> & -> & t & -> & ->)].
      * destruct Hsame as (_ & _ & _ & _ & -> & Hact).
        assert (Ha : s_active sb = true) by (destruct (s_active sb) eqn:E; [done|]; rewrite Hact in Ha'; done).
        destruct (ca_exit _ C _ _ Hs Ha) as [Hn|(j & Hj)].
        -- destruct (decide (s_exit sb ∈ bs_closed (bc_st cf'))) as [Hin|]; [|by left].
           right. exists i. rewrite Hths, ths_step by done. left. split; [done|].
           destruct Ht; simpl in *; try done.
           ++ exfalso. rewrite elem_of_union, elem_of_singleton in Hin. destruct Hin as [E|?]; [|done].
              destruct (si_good _ (se_st _ _ S) e) as [_ G]; [by left|]. by eapply G.
           ++ rewrite get_queue_2 in Hin. unfold pub_make in Hin. by destruct (m_topics (bs_mem (bc_st cf)) !! t).
           ++ by rewrite sub_make_eq in Hin.
           ++ rewrite elem_of_union, elem_of_singleton in Hin. destruct Hin as [E|?]; [|done].
              f_equal. f_equal. symmetry. by eapply (si_inj _ (se_st _ _ S)).
        -- destruct (decide (j = i)) as [->|Hne].
           ++ exfalso. simplify_eq. inversion Ht; subst. 
              match goal with E : _ = bc_st cf' |- _ => rewrite <- E in Hs' end.
              simpl in Hs'. rewrite list_lookup_insert in Hs' by by eapply lookup_lt_Some. simplify_eq.
           ++ right. exists j. rewrite Hths, ths_step by done. right; left. done.
      * left. simpl. intros Hin.
        assert (Hin' : sub_exit (bc_st cf) t ∈ bs_closed (bc_st cf)).
        { destruct (tr_sub_done _ _ _ _ _ _ _ _ _ Ht eq_refl) as (t' & [= <-] & E & _). rewrite E, sub_make_eq in Hin. done. }
        apply (si_clt _ (se_st _ _ S)) in Hin'. pose proof (sub_exit_ge (bc_st cf) t). lia.
    + rewrite Hb in *. destruct (ca_exit _ C _ _ Hs' Ha') as [?|(i & Hi)]; [by left|]. right. exists i.
      destruct (ths_mono_step _ _ _ _ _ _ _ H Hi) as (p1 & Hp1).
      destruct (step_moves _ _ _ _ _ _ _ H Hi) as (p2 & Hp2 & Hm). simplify_eq.
      destruct Hm as [|p' ch sp acts Ht ->|q e d ctx' t' m' o' ? ? _ _|m' d x ? _ _|m' x ? _ _]; try done.
      exfalso. inversion Ht; subst. match goal with E : _ = bc_st cf' |- _ => rewrite Hb in E;
        apply (f_equal bs_heap) in E; simpl in E; rewrite <- E in Hs' end.
      rewrite list_lookup_insert in Hs' by by eapply lookup_lt_Some. simplify_eq.
    + by apply (ca_exit _ C).
    + by apply (ca_exit _ C).
  - intros i s p Hi Hp.
    assert (Hkeep : forall sb, bs_heap (bc_st cf) !! s = Some sb -> s_active sb = true ->
       (forall k p0, bc_ths cf !! k = Some (CUnsub s, p0) -> (forall r, p0 <> PDone r) -> k = i) ->
       bc_ths cf !! i <> Some (CUnsub s, PUnsubSet) \/ bc_ths cf' !! i = Some (CUnsub s, PUnsubSet) ->
       exists sb, bs_heap (bc_st cf') !! s = Some sb /\ s_active sb = true).
    { intros sb Hs Ha Hu Hn. destruct (heap_mono_step _ _ _ _ _ _ H Hs) as (sb' & Hs' & Hsame).
      exists sb'. split; [done|]. destruct (s_active sb') eqn:E; [done|]. exfalso.
      destruct (step_change _ _ _ _ H) as [k c q ch q' sp acts Hk Ht -> Hths|Hb _ _ _ _|ctx' -> ->|d -> ->]; simpl in *.
      - destruct (tr_unsub_only _ _ _ _ _ _ _ _ _ _ _ Ht Hs Hs' Ha E) as [-> ->].
        assert (k = i) as -> by (eapply Hu; [done|done]). destruct Hn as [?|Hn]; [done|].
        rewrite Hths in Hn. rewrite ths_step in Hn by by eapply lookup_lt_Some.
        destruct Hn as [[_ [= <-]]|[[? _]|[-> _]]].
        + inversion Ht.
        + done.
        + apply lookup_lt_Some in Hk. lia.
      - rewrite Hb in Hs'. simplify_eq. congruence.
      - simplify_eq. congruence.
      - simplify_eq. congruence. }
    assert (Hu : forall p0, bc_ths cf !! i = Some (CUnsub s, p0) -> (forall r, p0 <> PDone r) ->
       forall k p1, bc_ths cf !! k = Some (CUnsub s, p1) -> (forall r, p1 <> PDone r) -> k = i).
    { intros p0 Hp0 Hd k p1 Hk Hd'. by eapply (ca_one _ C). }
    destruct (step_before _ _ _ _ _ _ _ H Hi) as
      [Hj0| _ -> _|k ck pk ch b' p' acts _ -> _ _ _ _|p0 ch sp acts Hj0 Ht _|q e' d ctx t m o _ ? _ _ _|m d x Hj0 -> _ _|m x Hj0 -> _ _];
      try (by destruct Hp).
    + destruct (ca_act _ C _ _ _ Hj0 Hp) as (sb & Hs & Ha). eapply Hkeep; [done|done| |].
      * eapply Hu; [done|]. by destruct Hp as [-> | ->].
      * destruct Hp as [-> | ->]; [left|by right]. intros E. by simplify_eq.
    + destruct Hp as [-> | ->]; inversion Ht; subst; try (by apply (base_wf _ _ B) in Hj0).
      * by exists sb.
      * destruct (ca_act _ C _ _ _ Hj0 (or_introl eq_refl)) as (sb0 & Hs & Ha).
        by exists sb0.
  - intros i c x Hi. destruct (step_before _ _ _ _ _ _ _ H Hi) as
      [Hj0| _ E _|k ck pk ch b' p' acts _ E _ _ _ _|p0 ch sp acts Hj0 Ht _|q e' d ctx t m o _ ? ? _ _|m d x' Hj0 ? _ _|m x' Hj0 ? _ _];
      try done.
    + by eapply (ca_panic _ C).
    + by destruct c.
    + by destruct c.
    + destruct (tr_panic _ _ _ _ _ _ _ _ _ (se_st _ _ S) Ht eq_refl) as [s ->].
      pose proof (base_wf _ _ B _ _ _ Hj0) as Hw.
      inversion Ht; subst; simpl in *; try done.
      destruct (ca_act _ C _ _ _ Hj0 (or_introl eq_refl)) as (sb0 & Hs & Ha).
      destruct (ca_exit _ C _ _ Hs Ha) as [Hn|(j & Hj)]; [simplify_eq; done|].
      assert (i = j) as -> by by eapply (ca_one _ C). by simplify_eq.
Qed.
Lemma calm_exec uuid opts ls cf es : bexec (broker_init uuid opts) ls = Some (cf, es) -> one_at_a_time es -> calm cf.
Proof.
  intros H.
  apply (bexec_ind (fun cf es => base cf es /\ sess cf es /\ (one_at_a_time es -> calm cf))) in H.
  - by destruct H as (_ & _ & ?).
  - split; [apply base_init|]. split; [apply sess_init|]. intros _. split; simpl; done.
  - intros cf0 es0 l cf1 es1 (B & S & C) _ Hst. split; [by eapply base_step|]. split; [by eapply sess_step|].
    intros HO. eapply calm_step; eauto. apply C. by eapply one_at_a_time_app.
Qed.
