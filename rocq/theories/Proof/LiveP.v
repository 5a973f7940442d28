(** In fair executions calls return and goroutines end. *)
From Verif.Spec Require Export LiveSpec.
From Verif.Proof Require Export BrokerP11.

Lemma elapsed_nonneg es : (0 <= elapsed es)%Z.
Proof.
  induction es as [|e es IH]; [done|]. change (e :: es) with ([e] ++ es). rewrite elapsed_app.
  assert (0 <= elapsed [e])%Z by (unfold elapsed; destruct e; simpl; lia). lia.
Qed.

Lemma call_step cf l cf' es' i c : step cf l cf' es' -> ECall i c ∈ es' -> bc_ths cf' !! i = Some (c, pc_start c).
Proof.
  intros H Hi. destruct H as [c0 Hc|ctx|d|i0 ch c0 p0 b' p0' sp acts Hi0 Ht|
    i0 j ctx t m0 o q e d cj ctxj s oj sb dj Hi0 Hj Har Hs Hcap Hq|
    i0 j ctx t m0 o q e d cj ctxj s oj sb Hi0 Hj Har Hs Hcap Hq].
  - apply elem_of_list_singleton in Hi. simplify_eq. cbn [bc_ths]; rewrite ths_call. by right.
  - by apply elem_of_list_singleton in Hi.
  - by apply elem_of_list_singleton in Hi.
  - by apply elem_acts_call in Hi.
  - repeat (apply elem_of_cons in Hi as [Hi|Hi]; [done|]). by apply elem_of_nil in Hi.
  - repeat (apply elem_of_cons in Hi as [Hi|Hi]; [done|]). by apply elem_of_nil in Hi.
Qed.
(** an Open that found the broker closed is about to start its goroutine, or has done so *)
Definition started (N : nat) (cf : bconf) (ctx i : nat) : Prop :=
  N <= length (bc_ths cf) /\ (bc_ths cf !! i = Some (COpen ctx, POpenCtl) \/ exists k p, N <= k /\ bc_ths cf !! k = Some (CRun ctx, p)).
Lemma ths_grow cf l cf' es' : step cf l cf' es' -> length (bc_ths cf) <= length (bc_ths cf').
Proof. intros []; cbn [bc_ths]; rewrite ?app_length, ?insert_length; lia. Qed.
Lemma ret_step cf l cf' es' k r : step cf l cf' es' -> ERet k r ∈ es' -> exists c p, bc_ths cf !! k = Some (c, p).
Proof.
  intros H Hk. destruct H as [c0 Hc|ctx|d|i0 ch c0 p0 b' p0' sp acts Hi0 Ht|
    i0 j ctx t m0 o q e d cj ctxj s oj sb dj Hi0 Hj Har Hs Hcap Hq|
    i0 j ctx t m0 o q e d cj ctxj s oj sb Hi0 Hj Har Hs Hcap Hq].
  - by apply elem_of_list_singleton in Hk.
  - by apply elem_of_list_singleton in Hk.
  - by apply elem_of_list_singleton in Hk.
  - apply elem_acts_ret in Hk as [-> ->]. eauto.
  - repeat (apply elem_of_cons in Hk as [Hk|Hk]; [first [discriminate Hk|injection Hk as -> ->; eauto]|]). by apply elem_of_nil in Hk.
  - repeat (apply elem_of_cons in Hk as [Hk|Hk]; [first [discriminate Hk|injection Hk as -> ->; eauto]|]). by apply elem_of_nil in Hk.
Qed.
Lemma opened_starts cf es l cf' es' i ctx : base cf es -> step cf l cf' es' -> ECall i (COpen ctx) ∈ es -> EAct i AOpened ∈ es' -> started (length (bc_ths cf)) cf' ctx i.
Proof.
  intros B H (_ & p & Hp)%(base_call _ _ B) Ha. split; [by eapply ths_grow|]. destruct H as [c0 Hc|cx|d|i0 ch c0 p0 b' p0' sp acts Hi0 Ht|
    i0 j cx t m0 o q e d cj ctxj s oj sb dj Hi0 Hj Har Hs Hcap Hq|
    i0 j cx t m0 o q e d cj ctxj s oj sb Hi0 Hj Har Hs Hcap Hq].
  - by apply elem_of_list_singleton in Ha.
  - by apply elem_of_list_singleton in Ha.
  - by apply elem_of_list_singleton in Ha.
  - apply elem_acts_act in Ha as [-> Ha]. simplify_eq. left. cbn [bc_ths].
    rewrite ths_step by by eapply lookup_lt_Some. left. split; [done|].
    inversion Ht; subst; simpl in Ha; try (by apply elem_of_nil in Ha); repeat (apply elem_of_cons in Ha as [Ha|Ha]; [try done|]); try (by apply elem_of_nil in Ha).
  - repeat (apply elem_of_cons in Ha as [Ha|Ha]; [done|]). by apply elem_of_nil in Ha.
  - repeat (apply elem_of_cons in Ha as [Ha|Ha]; [done|]). by apply elem_of_nil in Ha.
Qed.
Lemma started_step N cf l cf' es' i ctx : step cf l cf' es' -> started N cf ctx i -> started N cf' ctx i.
Proof.
  intros H [HN Hs]. split; [etrans; [done|by eapply ths_grow]|].
  destruct Hs as [Hi|(k & p & Hle & Hk)]; [|right; destruct (ths_mono_step _ _ _ _ _ _ _ H Hk); eauto].
  destruct H as [c0 Hc|cx|d|i0 ch c0 p0 b' p0' sp acts Hi0 Ht|
    i0 j cx t m0 o q e d cj ctxj s oj sb dj Hi0 Hj Har Hs Hcap Hq|
    i0 j cx t m0 o q e d cj ctxj s oj sb Hi0 Hj Har Hs Hcap Hq].
  - left. cbn [bc_ths]. rewrite ths_call. by left.
  - by left.
  - by left.
  - assert (Hlt : i0 < length (bc_ths cf)) by by eapply lookup_lt_Some.
    destruct (decide (i = i0)) as [->|Hne].
    + right. simplify_eq. inversion Ht; subst. eexists (length (bc_ths cf)), _. split; [done|]. cbn [bc_ths]. rewrite ths_step by done.
      right; right. split; [done|]. by eexists.
    + left. cbn [bc_ths]. rewrite ths_step by done. by right; left.
  - left. cbn [bc_ths]. rewrite ths_meet; [|by eapply lookup_lt_Some|by eapply lookup_lt_Some|by eapply meet_ne].
    right; right. split; [by intros ->; simplify_eq|]. split; [|done]. by intros ->; simplify_eq.
  - left. cbn [bc_ths]. rewrite ths_meet; [|by eapply lookup_lt_Some|by eapply lookup_lt_Some|by eapply meet_ne].
    right; right. split; [by intros ->; simplify_eq|]. split; [|done]. by intros ->; simplify_eq.
Qed.

Section trace.
  Context (uuid : nat -> string) (opts : list broker_option) (T : trace) (V : valid uuid opts T).

  Definition labels (n : nat) : list label := label_at T <$> seq 0 n.
  Lemma exec_upto n : bexec (broker_init uuid opts) (labels n) = Some (conf_at T n, upto T n).
  Proof.
    destruct V as [V0 V1]. induction n as [|n IH]; [by rewrite V0|].
    unfold labels in *. rewrite seq_S, fmap_app, bexec_app, IH. cbn [fmap list_fmap bexec Nat.add].
    by rewrite V1, app_nil_r.
  Qed.
  Lemma step_at n : step (conf_at T n) (label_at T n) (conf_at T (S n)) (events_at T n).
  Proof. apply bstep_step, V. Qed.
  Lemma alive n : crashed (conf_at T n) = false.
  Proof. destruct V as [_ V1]. specialize (V1 n). unfold bstep in V1. by destruct (crashed (conf_at T n)). Qed.
  Lemma base_at n : base (conf_at T n) (upto T n).
  Proof. by destruct (sess_exec _ _ _ _ _ (exec_upto n)). Qed.
  Lemma sess_at n : sess (conf_at T n) (upto T n).
  Proof. by destruct (sess_exec _ _ _ _ _ (exec_upto n)). Qed.
  Lemma upto_mono n m e : n <= m -> e ∈ upto T n -> e ∈ upto T m.
  Proof. induction 1; [done|]. intros. simpl. apply elem_of_app. left. auto. Qed.
  Lemma upto_at n e : e ∈ upto T n -> exists m, m < n /\ e ∈ events_at T m.
  Proof.
    induction n as [|n IH]; simpl; [by intros ?%elem_of_nil|]. intros [H|H]%elem_of_app.
    - destruct (IH H) as (m & ? & ?). exists m. split; [lia|done].
    - exists n. split; [lia|done].
  Qed.
  Lemma at_upto n m e : n < m -> e ∈ events_at T n -> e ∈ upto T m.
  Proof. intros Hlt H. apply (upto_mono (S n)); [lia|]. simpl. apply elem_of_app. by right. Qed.

  Lemma ths_later n m k c p : n <= m -> bc_ths (conf_at T n) !! k = Some (c, p) -> exists p', bc_ths (conf_at T m) !! k = Some (c, p').
  Proof.
    intros Hle Hk. induction Hle as [|m Hle [p' IH]]; [eauto|].
    destruct (ths_mono_step _ _ _ _ _ _ _ (step_at m) IH) as (p'' & ?). eauto.
  Qed.
  Lemma started_later N n m i ctx : n <= m -> started N (conf_at T n) ctx i -> started N (conf_at T m) ctx i.
  Proof. intros Hle Hs. induction Hle as [|m Hle IH]; [done|]. eapply started_step; [apply step_at|done]. Qed.

  (** *** Staying in place *)
  Lemma not_own_stays cf l cf' es' k c p : step cf l cf' es' -> bc_ths cf !! k = Some (c, p) -> own k l = false ->
    bc_ths cf' !! k = Some (c, p).
  Proof.
    intros H Hk Ho. assert (Hlt : k < length (bc_ths cf)) by by eapply lookup_lt_Some.
    destruct H as [c0 Hc|ctx|d|i0 ch c0 p0 b' p0' sp acts Hi0 Ht|
      i0 j ctx t m0 o q e d cj ctxj s oj sb dj Hi0 Hj Har Hs Hcap Hq|
      i0 j ctx t m0 o q e d cj ctxj s oj sb Hi0 Hj Har Hs Hcap Hq]; simpl in *; try done.
    - rewrite ths_call. by left.
    - assert (i0 < length (bc_ths cf)) by by eapply lookup_lt_Some. apply Nat.eqb_neq in Ho.
      rewrite ths_step by done. right; left. done.
    - assert (i0 < length (bc_ths cf)) by by eapply lookup_lt_Some.
      assert (j < length (bc_ths cf)) by by eapply lookup_lt_Some.
      apply orb_false_iff in Ho as [H1%Nat.eqb_neq H2%Nat.eqb_neq].
      rewrite ths_meet; [|done|done|by eapply meet_ne]. right; right. done.
    - assert (i0 < length (bc_ths cf)) by by eapply lookup_lt_Some.
      assert (j < length (bc_ths cf)) by by eapply lookup_lt_Some.
      apply orb_false_iff in Ho as [H1%Nat.eqb_neq H2%Nat.eqb_neq].
      rewrite ths_meet; [|done|done|by eapply meet_ne]. right; right. done.
  Qed.
  (** until moment [N] the goroutine has moved for the first time or is where it was *)
  Lemma scan k c p n N : n <= N -> bc_ths (conf_at T n) !! k = Some (c, p) ->
    (exists m, n <= m < N /\ own k (label_at T m) = true /\ bc_ths (conf_at T m) !! k = Some (c, p)) \/
    bc_ths (conf_at T N) !! k = Some (c, p).
  Proof.
    induction 1 as [|N Hle IH]; intros Hk; [by right|].
    destruct (IH Hk) as [(m & ? & ? & ?)|HN]; [left; exists m; split; [lia|done]|].
    destruct (own k (label_at T N)) eqn:E; [left; exists N; split; [lia|done]|right].
    by eapply not_own_stays; [apply step_at| |].
  Qed.
  Lemma now_mono n m : n <= m -> (bs_now (bc_st (conf_at T n)) <= bs_now (bc_st (conf_at T m)))%Z.
  Proof.
    induction 1 as [|m Hle IH]; [lia|]. etrans; [done|]. rewrite (se_now _ _ (sess_at m)), (se_now _ _ (sess_at (S m))).
    simpl. rewrite elapsed_app. pose proof (elapsed_nonneg (events_at T m)). lia.
  Qed.

  Hypothesis F : fair T.
  Lemma unlock_soon n : exists m, n <= m /\ bs_locked (bc_st (conf_at T m)) = false.
  Proof.
    destruct (bs_locked (bc_st (conf_at T n))) eqn:Hl; [|by exists n].
    destruct (se_lock _ _ (sess_at n) Hl) as (i & ctx & Hi).
    assert (Hm : exists m, n <= m /\ own i (label_at T m) = true /\ bc_ths (conf_at T m) !! i = Some (COpen ctx, POpenCtl)).
    { destruct (F i n) as [(m & Hle & Ho)|(n' & Hn)].
      - destruct (scan i _ _ n m Hle Hi) as [(m' & ? & ? & ?)|Hm]; [exists m'; split; [lia|done]|by exists m].
      - destruct (scan i _ _ n (n `max` n') ltac:(lia) Hi) as [(m' & ? & ? & ?)|Hm]; [exists m'; split; [lia|done]|].
        destruct (Hn (n `max` n') ltac:(lia)). exists (LStep i ChGo). split; [simpl; by apply Nat.eqb_refl|].
        unfold bstep. rewrite alive, Hm. cbn. eauto. }
    destruct Hm as (m & Hle & Ho & Hm). exists (S m). split; [lia|].
    pose proof (step_at m) as Hst. revert Ho. destruct Hst as [c0 Hc|cx|d|i0 ch c0 p0 b' p0' sp acts Hi0 Ht|
      i0 j cx t m0 o q e d cj ctxj s oj sb dj Hi0 Hj Har Hs Hcap Hq|
      i0 j cx t m0 o q e d cj ctxj s oj sb Hi0 Hj Har Hs Hcap Hq]; simpl; try done.
    - intros ->%Nat.eqb_eq. simplify_eq. by inversion Ht.
    - intros [->%Nat.eqb_eq| ->%Nat.eqb_eq]%orb_true_iff; simplify_eq.
    - intros [->%Nat.eqb_eq| ->%Nat.eqb_eq]%orb_true_iff; simplify_eq.
  Qed.

  Hypothesis P : time_passes T.
  (** A goroutine that is ready whenever the lock is free and time [D] has come goes on. *)
  Lemma moves_soon k c p n D : bc_ths (conf_at T n) !! k = Some (c, p) ->
    (forall m, n <= m -> bc_ths (conf_at T m) !! k = Some (c, p) -> bs_locked (bc_st (conf_at T m)) = false ->
       (D <= bs_now (bc_st (conf_at T m)))%Z -> ready (conf_at T m) k) ->
    exists m, n <= m /\ own k (label_at T m) = true /\ bc_ths (conf_at T m) !! k = Some (c, p).
  Proof.
    intros Hk Hr. destruct (F k n) as [(m & Hle & Ho)|(n' & Hn)].
    - destruct (scan k _ _ n m Hle Hk) as [(m' & ? & ? & ?)|Hm]; [exists m'; split; [lia|done]|by exists m].
    - destruct (P D) as [N0 HD]. destruct (unlock_soon (n `max` n' `max` N0)) as (M & HM & Hl).
      destruct (scan k _ _ n M ltac:(lia) Hk) as [(m' & ? & ? & ?)|Hm]; [exists m'; split; [lia|done]|].
      destruct (Hn M ltac:(lia)). apply Hr; [lia|done|done|]. etrans; [exact HD|].
      rewrite <- (se_now _ _ (sess_at N0)). apply now_mono. lia.
  Qed.
  Lemma ready_go n k c p ch : bc_ths (conf_at T n) !! k = Some (c, p) -> is_Some (tstep (bc_st (conf_at T n)) c p ch) ->
    ready (conf_at T n) k.
  Proof.
    intros Hk [o Ho]. exists (LStep k ch). split; [simpl; apply Nat.eqb_refl|]. unfold bstep. rewrite alive, Hk, Ho. eauto.
  Qed.

  (** *** Calls *)
  Definition deadline_of (p : pc) : Z := match p with PPubWait _ _ d | PRecvWait d => d | _ => 0%Z end.
  Lemma client_ready n k c p : bc_ths (conf_at T n) !! k = Some (c, p) -> is_client c = true \/ (exists ctx, c = CRun ctx) ->
    0 < left_to_do p -> bs_locked (bc_st (conf_at T n)) = false -> (deadline_of p <= bs_now (bc_st (conf_at T n)))%Z ->
    ready (conf_at T n) k.
  Proof.
    intros Hk Hcl Hlt Hl HD. pose proof (base_wf _ _ (base_at n) _ _ _ Hk) as Hw.
    pose proof (has_sub_exec _ _ _ _ _ (exec_upto n)) as Hsub.
    assert (Hsb : forall s, sub_of c = Some s -> exists sb, bs_heap (bc_st (conf_at T n)) !! s = Some sb)
      by (intros s Hs; exact (Hsub _ _ _ _ Hk Hs)).
    assert (Hrc : forall ctx s o, recv_args c = Some (ctx, s, o) -> exists sb, bs_heap (bc_st (conf_at T n)) !! s = Some sb).
    { intros ctx s o Hr. apply Hsb. destruct c; simpl in *; simplify_eq; done. }
    destruct p; simpl in Hlt; try lia;
      try (eapply (ready_go _ _ _ _ ChGo); [done|]; cbn [tstep]; rewrite Hl; by repeat case_match).
    - destruct c; try done. by eapply (ready_go _ _ _ _ ChGo).
    - destruct c; try done. by eapply (ready_go _ _ _ _ ChGo).
    - eapply (ready_go _ _ _ _ ChTimeout); [done|]. cbn [tstep]. simpl in HD. by rewrite (proj2 (Z.leb_le _ _) HD).
    - destruct c; try done. destruct (Hsb _ eq_refl) as [sb Hs]. eapply (ready_go _ _ _ _ ChGo); [done|]. cbn [tstep]. rewrite Hs. by repeat case_match.
    - destruct c; try done. destruct (Hsb _ eq_refl) as [sb Hs]. eapply (ready_go _ _ _ _ ChGo); [done|]. cbn [tstep]. rewrite Hs. by repeat case_match.
    - destruct c; try done. destruct (Hsb _ eq_refl) as [sb Hs]. eapply (ready_go _ _ _ _ ChGo); [done|]. cbn [tstep]. by rewrite Hs.
    - destruct c; try done. by eapply (ready_go _ _ _ _ ChGo).
    - destruct c; try done. by destruct Hcl as [?|[ctx ?]].
    - destruct (recv_args c) as [[[ctx s] o]|] eqn:Hr; [|by destruct c]. destruct (Hrc _ _ _ eq_refl) as [sb Hs].
      eapply (ready_go _ _ _ _ ChGo); [done|]. cbn [tstep]. rewrite Hr, Hs. by repeat case_match.
    - eapply (ready_go _ _ _ _ ChTimeout); [done|]. cbn [tstep]. simpl in HD. by rewrite (proj2 (Z.leb_le _ _) HD).
    - destruct (recv_args c) as [[[ctx s] o]|] eqn:Hr; [|by destruct c]. destruct (Hrc _ _ _ eq_refl) as [sb Hs].
      destruct (bs_msgs (bc_st (conf_at T n)) !! q_msg (s_queue sb)) as [[|m buf]|] eqn:E.
      + eapply (ready_go _ _ _ _ ChDefault); [done|]. cbn [tstep]. by rewrite Hr, Hs, E.
      + eapply (ready_go _ _ _ _ ChRecv); [done|]. cbn [tstep]. by rewrite Hr, Hs, E.
      + eapply (ready_go _ _ _ _ ChDefault); [done|]. cbn [tstep]. by rewrite Hr, Hs, E.
    - by eapply (ready_go _ _ _ _ (ChHandler None)).
  Qed.
  Lemma own_left n k c p : bc_ths (conf_at T n) !! k = Some (c, p) -> looping c = false -> own k (label_at T n) = true ->
    exists p', bc_ths (conf_at T (S n)) !! k = Some (c, p') /\ left_to_do p' < left_to_do p.
  Proof.
    intros Hk Hl Ho. destruct (ths_mono_step _ _ _ _ _ _ _ (step_at n) Hk) as (p' & Hp'). exists p'. split; [done|].
    assert (left_to_do p' + when (own k (label_at T n)) 1 <= left_to_do p).
    { eapply own_step_gen; [..|exact Hk|apply step_at|done].
      - intros. eapply tr_left; [done|by eapply (base_wf _ _ (base_at n))|done].
      - intros q e d ->. simpl. lia.
      - intros d m ->. simpl. lia.
      - intros ->. simpl. lia. }
    rewrite Ho in *. simpl in *. lia.
  Qed.
  Lemma call_returns w : forall n k c p, left_to_do p = w -> bc_ths (conf_at T n) !! k = Some (c, p) -> is_client c = true -> looping c = false ->
    exists m r, n <= m /\ bc_ths (conf_at T m) !! k = Some (c, PDone r).
  Proof.
    induction (lt_wf w) as [w _ IH]. intros n k c p Hw Hk Hcl Hlo.
    destruct (decide (w = 0)) as [->|Hn].
    - pose proof (base_wf _ _ (base_at n) _ _ _ Hk) as Hwf. destruct p; try done; try (by destruct c).
      + by exists n, r.
      + exfalso. eapply crashed_not; [apply (alive n)|exact Hk].
    - destruct (moves_soon k c p n (deadline_of p) Hk) as (m & Hle & Ho & Hm).
      { intros m Hle Hm Hl HD. apply (client_ready m k c p); [done|by left|lia|done|done]. }
      destruct (own_left m k c p Hm Hlo Ho) as (p' & Hp' & Hlt).
      destruct (IH (left_to_do p') ltac:(lia) (S m) k c p' eq_refl Hp' Hcl Hlo) as (m' & r & ? & ?).
      exists m', r. split; [lia|done].
  Qed.
  (** *** Digest, once its subscriber is inactive *)
  Lemma inactive_mono n m s : n <= m -> inactive (conf_at T n) s -> inactive (conf_at T m) s.
  Proof. induction 1; [done|]. intros. eapply inactive_step; [apply step_at|]. auto. Qed.
  Lemma inactive_returns w : forall n k c p ctx s o, left_inactive p = w -> bc_ths (conf_at T n) !! k = Some (c, p) ->
    recv_args c = Some (ctx, s, o) -> inactive (conf_at T n) s ->
    exists m r, n <= m /\ bc_ths (conf_at T m) !! k = Some (c, PDone r).
  Proof.
    induction (lt_wf w) as [w _ IH]. intros n k c p ctx s o Hw Hk Hr Hin.
    pose proof (base_wf _ _ (base_at n) _ _ _ Hk) as Hwf. assert (Hcl : is_client c = true) by by destruct c.
    destruct (decide (w = 0)) as [->|Hn].
    - destruct p; try done; try (by destruct c). by exists n, r.
    - destruct (moves_soon k c p n (deadline_of p) Hk) as (m & Hle & Ho & Hm).
      { intros m Hle Hm Hl HD. apply (client_ready m k c p); [done|by left| |done|done].
        destruct p; simpl in *; try lia; by destruct c. }
      destruct (ths_mono_step _ _ _ _ _ _ _ (step_at m) Hm) as (p' & Hp').
      assert (Hlt : left_inactive p' + when (own k (label_at T m)) 1 <= left_inactive p).
      { destruct (inactive_mono _ _ _ Hle Hin) as (sb & Hsb & Ha). eapply own_step_gen; [..|exact Hm|apply step_at|done].
        - intros. eapply tr_left_inactive; [done|by eapply (base_wf _ _ (base_at m))|done..].
        - intros q e d ->. by destruct c.
        - intros d x ->. simpl. lia.
        - intros ->. simpl. lia. }
      rewrite Ho in Hlt. simpl in Hlt.
      destruct (IH (left_inactive p') ltac:(lia) (S m) k c p' ctx s o eq_refl Hp' Hr) as (m' & r & ? & ?).
      { eapply inactive_mono; [|done]. lia. }
      exists m', r. split; [lia|done].
  Qed.

  (** *** The goroutines the broker starts *)
  Lemma own_tr n k c p : bc_ths (conf_at T n) !! k = Some (c, p) -> own k (label_at T n) = true -> is_client c = false ->
    exists ch p' sp acts, label_at T n = LStep k ch /\ tr (bc_st (conf_at T n)) c p ch (bc_st (conf_at T (S n))) p' sp acts /\
      bc_ths (conf_at T (S n)) !! k = Some (c, p').
  Proof.
    intros Hk Ho Hcl. assert (Hlt : k < length (bc_ths (conf_at T n))) by by eapply lookup_lt_Some.
    pose proof (step_at n) as Hst. revert Ho. destruct Hst as [c0 Hc|cx|d|i0 ch c0 p0 b' p0' sp acts Hi0 Ht|
      i0 j cx t m0 o q e d cj ctxj s oj sb dj Hi0 Hj Har Hs Hcap Hq|
      i0 j cx t m0 o q e d cj ctxj s oj sb Hi0 Hj Har Hs Hcap Hq]; simpl; try done.
    - intros ->%Nat.eqb_eq. simplify_eq. exists ch, p0', sp, acts. split; [done|]. split; [done|].
      rewrite ths_step by done. by left.
    - intros [->%Nat.eqb_eq| ->%Nat.eqb_eq]%orb_true_iff; simplify_eq; by destruct c.
    - intros [->%Nat.eqb_eq| ->%Nat.eqb_eq]%orb_true_iff; simplify_eq; by destruct c.
  Qed.
  Lemma close_soon n k ctx : bc_ths (conf_at T n) !! k = Some (CRun ctx, PCloseGo) ->
    exists m, n <= m /\ bc_ths (conf_at T m) !! k = Some (CRun ctx, PDone (Ok None)).
  Proof.
    intros Hk. destruct (moves_soon k _ _ n 0%Z Hk) as (m & Hle & Ho & Hm).
    { intros m Hle Hm Hl HD. apply (client_ready m k (CRun ctx) PCloseGo); [done|right; eauto|simpl; lia|done|done]. }
    destruct (own_tr m k _ _ Hm Ho eq_refl) as (ch & p' & sp & acts & _ & Ht & Hm'). exists (S m). split; [lia|].
    inversion Ht; subst; try done. exfalso. eapply crashed_not; [apply (alive (S m))|done].
  Qed.
  Definition run_far (p : pc) : nat := match p with PRunDel _ _ => 3 | PRunExit => 2 | PRunCtl _ => 1 | _ => 0 end.
  Lemma run_cycle w : forall n k ctx p, run_far p = w -> bc_ths (conf_at T n) !! k = Some (CRun ctx, p) ->
    p = PDone (Ok None) \/ exists m, n <= m /\ (bc_ths (conf_at T m) !! k = Some (CRun ctx, PCloseGo) \/
      exists e ctl, bc_ths (conf_at T m) !! k = Some (CRun ctx, PRunWait e ctl)).
  Proof.
    induction (lt_wf w) as [w _ IH]. intros n k ctx p Hw Hk. pose proof (base_wf _ _ (base_at n) _ _ _ Hk) as Hwf.
    assert (Hgo : (forall m, bc_ths (conf_at T m) !! k = Some (CRun ctx, p) -> bs_locked (bc_st (conf_at T m)) = false ->
        is_Some (tstep (bc_st (conf_at T m)) (CRun ctx) p ChGo)) ->
      (forall b ch b' p' sp acts, tr b (CRun ctx) p ch b' p' sp acts -> run_far p' < w /\ p' <> PDone (Ok None)) ->
      exists m, n <= m /\ (bc_ths (conf_at T m) !! k = Some (CRun ctx, PCloseGo) \/
        exists e ctl, bc_ths (conf_at T m) !! k = Some (CRun ctx, PRunWait e ctl))).
    { intros Hr Hd. destruct (moves_soon k _ _ n 0%Z Hk) as (m & Hle & Ho & Hm).
      { intros m Hle Hm Hl HD. eapply (ready_go _ _ _ _ ChGo); [done|auto]. }
      destruct (own_tr m k _ _ Hm Ho eq_refl) as (ch & p' & sp & acts & _ & Ht & Hm'). destruct (Hd _ _ _ _ _ _ Ht) as [Hlt Hnd].
      destruct (IH (run_far p') Hlt (S m) k ctx p' eq_refl Hm') as [?|(m' & ? & ?)]; [done|]. exists m'. split; [lia|done]. }
    destruct p; try done; simpl in Hw; subst w; [right..|left|right].
    - exists n. split; [done|]. by left.
    - apply Hgo; [done|]. intros b ch b' p' sp acts Ht. inversion Ht; subst; simpl; split; [lia|done].
    - apply Hgo; [done|]. intros b ch b' p' sp acts Ht. inversion Ht; subst; simpl; split; [lia|done].
    - exists n. split; [done|]. right. eauto.
    - apply Hgo; [|intros b ch b' p' sp acts Ht; inversion Ht; subst; simpl; split; [lia|done|lia|done]].
      intros m Hm Hl. cbn [tstep]. rewrite Hl. by repeat case_match.
    - destruct r as [[?|]|?|]; done.
    - exfalso. eapply crashed_not; [apply (alive n)|exact Hk].
  Qed.
  (** If a case of its select that ends it is ready whenever it gets there, it ends. *)
  Lemma run_ends_soon n k ctx p ch : select_fair T -> ch = ChCtx \/ ch = ChExit ->
    bc_ths (conf_at T n) !! k = Some (CRun ctx, p) ->
    (forall m e ctl, n <= m -> bc_ths (conf_at T m) !! k = Some (CRun ctx, PRunWait e ctl) ->
       is_Some (tstep (bc_st (conf_at T m)) (CRun ctx) (PRunWait e ctl) ch)) ->
    exists m, n <= m /\ bc_ths (conf_at T m) !! k = Some (CRun ctx, PDone (Ok None)).
  Proof.
    intros Sf Hch Hk Hr. destruct (Sf k ch n Hch) as [(m & Hle & Hlab)|(n' & Hn)].
    - destruct (ths_later _ _ _ _ _ Hle Hk) as [pm Hm]. assert (Ho : own k (label_at T m) = true) by (rewrite Hlab; simpl; apply Nat.eqb_refl).
      destruct (own_tr m k _ _ Hm Ho eq_refl) as (ch' & p' & sp & acts & Hl' & Ht & Hm'). rewrite Hlab in Hl'. injection Hl' as <-.
      assert (p' = PCloseGo) as -> by (pose proof (base_wf _ _ (base_at m) _ _ _ Hm); destruct Hch as [-> | ->]; inversion Ht; subst; done).
      destruct (close_soon _ _ _ Hm') as (m' & ? & ?). exists m'. split; [lia|done].
    - destruct (ths_later _ (n `max` n') _ _ _ (Nat.le_max_l n n') Hk) as [pN HN]. destruct (run_cycle _ _ _ _ _ eq_refl HN) as [->|(m & Hle & [Hm|(e & ctl & Hm)])].
      + exists (n `max` n'). split; [lia|done].
      + destruct (close_soon _ _ _ Hm) as (m' & ? & ?). exists m'. split; [lia|done].
      + exfalso. specialize (Hn m ltac:(lia)). destruct (Hr m e ctl ltac:(lia) Hm) as [o Ho].
        unfold bstep in Hn. by rewrite alive, Hm, Ho in Hn.
  Qed.
  Lemma returned n k c r : bc_ths (conf_at T n) !! k = Some (c, PDone r) -> exists m, m < n /\ ERet k r ∈ events_at T m.
  Proof. intros Hk. apply upto_at. apply (base_ret _ _ (base_at n)). eauto. Qed.
End trace.
