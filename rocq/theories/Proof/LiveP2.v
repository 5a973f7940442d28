(** In fair executions unsubscribed subscribers leave the table of subscribers. *)
From Verif.Proof Require Export LiveP.

(** ** Buffers of removal orders *)
Definition ctl_short (b : bstate) : Prop := forall x buf, bs_ctls b !! x = Some buf -> length buf <= 100.
Lemma tr_ctl_len b c p ch b' p' sp acts : tr b c p ch b' p' sp acts ->
  ctl_short b -> ctl_short b'.
Proof.
  intros H I x buf Hb. destruct H; try (by eapply I); simpl in Hb.
  - destruct (decide (x = bs_next b)) as [->|Hn]; [rewrite lookup_insert in Hb; simplify_eq; simpl; lia|].
    rewrite lookup_insert_ne in Hb by done. by eapply I.
  - rewrite get_queue_2 in Hb. unfold pub_make in Hb. destruct (m_topics (bs_mem b) !! t); by eapply I.
  - rewrite sub_make_eq in Hb. simpl in Hb. by eapply I.
  - destruct (decide (x = ctl)) as [->|Hn]; [|rewrite lookup_insert_ne in Hb by done; by eapply I].
    rewrite lookup_insert in Hb. injection Hb as <-. rewrite app_length. simpl. unfold default_size in *. lia.
  - destruct (decide (x = ctl)) as [->|Hn]; [|rewrite lookup_insert_ne in Hb by done; by eapply I].
    rewrite lookup_insert in Hb. injection Hb as <-. specialize (I _ _ H). simpl in I. lia.
Qed.
Lemma ctl_len_exec uuid opts ls cf es : bexec (broker_init uuid opts) ls = Some (cf, es) ->
  ctl_short (bc_st cf).
Proof.
  intros H. apply (bexec_ind (fun cf _ => ctl_short (bc_st cf))) in H; [done| |].
  - intros x buf Hx. simpl in Hx. by rewrite lookup_empty in Hx.
  - clear. intros cf es l cf' es' I _ H. destruct H; try done. by eapply tr_ctl_len.
Qed.
(** the first order is taken from channel [x] by goroutine [k] *)
Definition takes (cf cf' : bconf) (x : nat) (buf : list (string * string)) : Prop :=
  exists k c id t rest, buf = (id, t) :: rest /\ bs_ctls (bc_st cf') !! x = Some rest /\ bc_ths cf' !! k = Some (c, PRunDel id t).
Lemma step_ctl cf l cf' es' x buf : ctl_wf (bc_st cf) -> step cf l cf' es' -> bs_ctls (bc_st cf) !! x = Some buf ->
  (exists extra, bs_ctls (bc_st cf') !! x = Some (buf ++ extra)) \/ takes cf cf' x buf.
Proof.
  intros W H Hb. assert (Hsame : bs_ctls (bc_st cf') !! x = Some buf -> exists extra, bs_ctls (bc_st cf') !! x = Some (buf ++ extra)).
  { intros E. exists []. by rewrite app_nil_r. }
  destruct (step_change _ _ _ _ H) as [i c p ch p' sp acts Hi Ht _ Hth|E _ _ _ _|ctx -> _|d -> _]; [|left; apply Hsame; by rewrite ?E..].
  assert (Hth' : bc_ths cf' !! i = Some (c, p')) by (rewrite Hth, ths_step by (by eapply lookup_lt_Some); by left).
  clear Hth. revert Ht Hsame Hth'. destruct cf' as [b' ths']. cbn [bc_st bc_ths]. unfold takes. cbn [bc_st bc_ths].
  intros Ht Hsame Hth'. destruct Ht; try (left; by apply Hsame).
  - left. apply Hsame. simpl. rewrite lookup_insert_ne; [done|]. assert (x < bs_next (bc_st cf)) by (apply (cw_lt _ W); eauto). lia.
  - left. apply Hsame. rewrite get_queue_2. unfold pub_make. by destruct (m_topics (bs_mem (bc_st cf)) !! t).
  - left. apply Hsame. by rewrite sub_make_eq.
  - left. simpl. destruct (decide (ctl = x)) as [->|Hn]; [|rewrite lookup_insert_ne by done; exists []; by rewrite app_nil_r].
    rewrite lookup_insert, Hb. simpl. eauto.
  - simpl. destruct (decide (ctl = x)) as [->|Hn]; [|left; rewrite lookup_insert_ne by done; exists []; by rewrite app_nil_r].
    right. simplify_eq. exists i, c, id, t, buf0. rewrite lookup_insert. done.
Qed.
Lemma step_conn cf l cf' es' : step cf l cf' es' -> m_connected (bs_mem (bc_st cf)) = true ->
  m_connected (bs_mem (bc_st cf')) = true \/ m_subs (bs_mem (bc_st cf')) = ∅.
Proof.
  intros H Hc. destruct (step_change _ _ _ _ H) as [i c p ch p' sp acts Hi Ht _ _|E _ _ _ _|ctx -> _|d -> _]; [|left; by rewrite ?E..].
  revert Ht. generalize (bc_st cf'). intros b' Ht. destruct Ht; try (by left); try (by right).
  - left. rewrite get_queue_2. unfold pub_make. by destruct (m_topics (bs_mem (bc_st cf)) !! t).
  - left. by rewrite sub_make_eq.
Qed.

Section forget.
  Context (uuid : nat -> string) (opts : list broker_option) (T : trace) (V : valid uuid opts T) (F : fair T) (P : time_passes T).
  Context (L : forall m, lone_open (upto T m)).
  Context (n0 s : nat) (Hin : in_session (upto T n0)) (Hina : inactive (conf_at T n0) s).
  Notation st m := (bc_st (conf_at T m)).
  Notation K m := (kept (conf_at T m) s).
  Definition gone : Prop := exists m, n0 <= m /\ ~ K m.

  Lemma lone_at m : lone2 (conf_at T m) (upto T m).
  Proof. eapply lone2_exec; [by apply (exec_upto uuid opts T V)|apply L]. Qed.
  Lemma sub_at m : n0 <= m -> exists sb, bs_heap (st m) !! s = Some sb /\ s_active sb = false.
  Proof. intros Hle. exact (inactive_mono uuid opts T V _ _ _ Hle Hina). Qed.
  Lemma conn_at m : n0 <= m -> m_connected (bs_mem (st m)) = true \/ gone.
  Proof.
    induction 1 as [|m Hle IH]; [left; by apply (se_conn _ _ (sess_at uuid opts T V n0))|].
    destruct IH as [Hc|]; [|by right]. destruct (step_conn _ _ _ _ (step_at uuid opts T V m) Hc) as [?|E]; [by left|].
    right. exists (S m). split; [lia|]. intros (sb & inner & _ & Hi & _). by rewrite E, lookup_empty in Hi.
  Qed.
  (** what is known of every moment at which the session lasts *)
  Record now_at (m ctl : nat) (sb : subscriber) : Prop := {
    na_heap : bs_heap (st m) !! s = Some sb;
    na_off : s_active sb = false;
    na_conn : m_connected (bs_mem (st m)) = true;
    na_lock : bs_locked (st m) = false;
    na_ctl : m_ctl (bs_mem (st m)) = Some ctl;
    na_sub : s_ctl sb = Some ctl;
    na_buf : exists buf, bs_ctls (st m) !! ctl = Some buf /\ length buf <= 100;
    na_exit : forall e, m_exit (bs_mem (st m)) = Some e -> e ∉ bs_closed (st m);
    na_open : ~ closed_in (upto T m);
    na_opened : opened (conf_at T m);
  }.
  Lemma now_or m : n0 <= m -> (exists ctl sb, now_at m ctl sb) \/ gone.
  Proof.
    intros Hle. destruct (conn_at m Hle) as [Hc|]; [|by right]. left.
    destruct (sub_at m Hle) as (sb & Hs & Ha). pose proof (lone_at m) as I.
    destruct (l2_heap _ _ I _ _ Hs) as (Ho & Hsc & _). destruct (l2_open _ _ I Ho) as ([ctl Hctl] & _ & Hl).
    pose proof (exec_upto uuid opts T V m) as R. destruct (cw_mem _ (ctl_wf_exec _ _ _ _ _ R) _ Hctl) as [buf Hbuf].
    assert (Hex : forall e, m_exit (bs_mem (st m)) = Some e -> e ∉ bs_closed (st m)).
    { intros e He. destruct (si_conn _ (se_st _ _ (sess_at uuid opts T V m)) Hc) as (e' & ? & ?). by simplify_eq. }
    exists ctl, sb. split; try done.
    - by rewrite Hsc.
    - exists buf. split; [done|]. by eapply ctl_len_exec.
    - intros Hcl. destruct (l2_closed _ _ I Hcl) as (_ & e & He & Hec). by apply (Hex e).
  Qed.
  (** the channel of orders and the names of the subscriber do not change *)
  Lemma sub_same m m' sb sb' : m <= m' -> bs_heap (st m) !! s = Some sb -> bs_heap (st m') !! s = Some sb' -> same_sub sb sb'.
  Proof.
    intros Hle Hs. revert sb'. induction Hle as [|m' Hle IH]; intros sb' Hs'; [simplify_eq; apply same_sub_refl|].
    destruct (lookup_lt_is_Some_2 (bs_heap (st m')) s) as [sb1 Hs1].
    { clear IH Hs'. induction Hle as [|m' Hle IH]; [by eapply lookup_lt_Some|]. apply lookup_lt_is_Some in IH as [x Hx].
      destruct (heap_mono_step _ _ _ _ _ _ (step_at uuid opts T V m') Hx) as (y & Hy & _). by eapply lookup_lt_Some. }
    destruct (heap_mono_step _ _ _ _ _ _ (step_at uuid opts T V m') Hs1) as (y & Hy & Hsame). simplify_eq.
    specialize (IH _ Hs1). unfold same_sub in *. destruct_and!. split_and!; try congruence. tauto.
  Qed.

  Lemma moves_or k c p n (G : Prop) : bc_ths (conf_at T n) !! k = Some (c, p) ->
    (forall m, n <= m -> bc_ths (conf_at T m) !! k = Some (c, p) -> ready (conf_at T m) k \/ G) ->
    (exists m, n <= m /\ own k (label_at T m) = true /\ bc_ths (conf_at T m) !! k = Some (c, p)) \/ G.
  Proof.
    intros Hk Hr. destruct (F k n) as [(m & Hle & Ho)|(n' & Hn)].
    - left. destruct (scan uuid opts T V k _ _ n m Hle Hk) as [(m' & ? & ? & ?)|Hm]; [exists m'; split; [lia|done]|by exists m].
    - destruct (scan uuid opts T V k _ _ n (n `max` n') ltac:(lia) Hk) as [(m' & ? & ? & ?)|Hm]; [left; exists m'; split; [lia|done]|].
      destruct (Hr (n `max` n') ltac:(lia) Hm) as [Hx|]; [|by right]. by destruct (Hn (n `max` n') ltac:(lia)).
  Qed.

  (** *** the order has been taken *)
  Lemma del_gone m k c id t sb : n0 <= m -> bs_heap (st m) !! s = Some sb -> id = s_id sb -> t = s_topic sb ->
    bc_ths (conf_at T m) !! k = Some (c, PRunDel id t) -> gone.
  Proof.
    intros Hle Hs -> -> Hk. assert (Hc : exists ctx, c = CRun ctx).
    { pose proof (base_wf _ _ (base_at uuid opts T V m) _ _ _ Hk). destruct c; try done. eauto. }
    destruct Hc as [ctx ->].
    destruct (moves_or k _ _ m gone Hk) as [(m' & Hle' & Ho & Hm)|]; [|clear Hk|done].
    { intros m' Hle' Hm. destruct (now_or m' ltac:(lia)) as [(ctl & sb' & N)|]; [|by right]. left.
      eapply (ready_go uuid opts T V _ _ _ _ ChGo); [done|]. cbn [tstep]. rewrite (na_lock _ _ _ N). by repeat case_match. }
    destruct (own_tr uuid opts T V m' k _ _ Hm Ho eq_refl) as (ch & p' & sp & acts & _ & Ht & Hm').
    exists (S m'). split; [lia|]. intros (sb' & inner & Hs' & Hi & Hx).
    destruct (sub_same m (S m') sb sb' ltac:(lia) Hs Hs') as (E1 & E2 & _). rewrite E1 in Hx. rewrite E2 in Hi.
    revert Hi. inversion Ht; subst; cbn [set_mem bs_mem mem_subs m_subs]; [|congruence].
    rewrite lookup_insert. intros [= <-]. by rewrite lookup_delete in Hx.
  Qed.

  (** *** orders are taken *)
  Definition first_take (m ctl : nat) (buf : list (string * string)) : Prop :=
    exists m' extra, m <= m' /\ bs_ctls (st m') !! ctl = Some (buf ++ extra) /\ takes (conf_at T m') (conf_at T (S m')) ctl (buf ++ extra).
  Lemma track m ctl buf M : m <= M -> bs_ctls (st m) !! ctl = Some buf ->
    (exists extra, bs_ctls (st M) !! ctl = Some (buf ++ extra)) \/ first_take m ctl buf.
  Proof.
    intros Hle Hb. induction Hle as [|M Hle IH]; [left; exists []; by rewrite app_nil_r|].
    destruct IH as [[extra He]|]; [|by right].
    destruct (step_ctl _ _ _ _ _ _ (ctl_wf_exec _ _ _ _ _ (exec_upto uuid opts T V M)) (step_at uuid opts T V M) He) as [[e2 He2]|Ht].
    - left. exists (extra ++ e2). by rewrite app_assoc.
    - right. exists M, extra. done.
  Qed.
  Lemma run_gone m k ctx : n0 <= m -> bc_ths (conf_at T m) !! k = Some (CRun ctx, PCloseGo) -> gone.
  Proof.
    intros Hle Hk. destruct (close_soon uuid opts T V F P m k ctx Hk) as (m' & Hle' & Hm).
    destruct (returned uuid opts T V _ _ _ _ Hm) as (m2 & Hlt & Hr).
    assert (Hge : m <= m2).
    { destruct (decide (m <= m2)) as [?|Hge]; [done|exfalso].
      assert (Hr1 : ERet k (Ok None) ∈ upto T m) by (apply (at_upto T m2); [lia|done]).
      apply (base_ret _ _ (base_at uuid opts T V m)) in Hr1 as (c' & Hr1). simplify_eq. }
    destruct (ths_later uuid opts T V _ _ _ _ _ Hge Hk) as [p2 Hp2].
    destruct (conn_at (S m2) ltac:(lia)) as [Hc|]; [exfalso|done].
    pose proof (step_at uuid opts T V m2) as Hst. revert Hr Hc. destruct (conf_at T (S m2)) as [b' th'].
    pose proof (base_wf _ _ (base_at uuid opts T V m2) _ _ _ Hp2) as Hw.
    inversion Hst; subst; intros Hr Hc; try set_solver.
    - apply elem_acts_ret in Hr as [-> ->]. simplify_eq. simpl in Hc.
      match goal with Ht : tr _ _ _ _ _ _ _ _ |- _ => inversion Ht; subst end; try done. congruence.
  Qed.
  Lemma take_soon m ctl sb buf : n0 <= m -> now_at m ctl sb -> bs_ctls (st m) !! ctl = Some buf -> buf <> [] ->
    gone \/ first_take m ctl buf.
  Proof.
    intros Hle N Hb Hne. destruct (l2_run _ _ (lone_at m) (na_opened _ _ _ N)) as (k & ctx & p & Hk & Hnd).
    specialize (Hnd (na_conn _ _ _ N)).
    destruct (run_cycle uuid opts T V F P _ m k ctx p eq_refl Hk) as [->|(m1 & Hle1 & [Hm1|(e & ctl' & Hm1)])]; [by destruct (Hnd (Ok None))| |].
    { left. by eapply (run_gone m1); [lia|]. }
    destruct (moves_or k _ _ m1 (gone \/ first_take m ctl buf) Hm1) as [(m2 & Hle2 & Ho & Hm2)|]; [| |done].
    - intros m2 Hle2 Hm2. destruct (now_or m2 ltac:(lia)) as [(ctl2 & sb2 & N2)|]; [|by right; left].
      destruct (track m ctl buf m2 ltac:(lia) Hb) as [[extra He]|]; [|by right; right]. left.
      destruct (sub_same m m2 sb sb2 ltac:(lia) (na_heap _ _ _ N) (na_heap _ _ _ N2)) as (_ & _ & _ & E & _).
      assert (ctl2 = ctl) as -> by (pose proof (na_sub _ _ _ N); pose proof (na_sub _ _ _ N2); congruence).
      destruct (l2_wait _ _ (lone_at m2) _ _ _ _ Hm2) as [_ Hc]. rewrite (na_ctl _ _ _ N2) in Hc. subst ctl'.
      eapply (ready_go uuid opts T V _ _ _ _ ChRecv); [done|]. cbn [tstep]. rewrite He. destruct buf as [|[id t] buf]; [done|]. by eexists.
    - destruct (own_tr uuid opts T V m2 k _ _ Hm2 Ho eq_refl) as (ch & p' & sp & acts & _ & Ht & Hm').
      destruct (now_or m2 ltac:(lia)) as [(ctl2 & sb2 & N2)|]; [|by left].
      destruct (track m ctl buf (S m2) ltac:(lia) Hb) as [[extra He]|]; [|by right].
      destruct (track m ctl buf m2 ltac:(lia) Hb) as [[extra' He']|]; [|by right].
      destruct (sub_same m m2 sb sb2 ltac:(lia) (na_heap _ _ _ N) (na_heap _ _ _ N2)) as (_ & _ & _ & E & _).
      assert (ctl2 = ctl) as -> by (pose proof (na_sub _ _ _ N); pose proof (na_sub _ _ _ N2); congruence).
      destruct (l2_wait _ _ (lone_at m2) _ _ _ _ Hm2) as [Hex Hc]. rewrite (na_ctl _ _ _ N2) in Hc. subst ctl'.
      assert (HD : p' = PCloseGo \/ exists id t, p' = PRunDel id t /\ exists rest, bs_ctls (st m2) !! ctl = Some ((id, t) :: rest) /\
         bs_ctls (st (S m2)) !! ctl = Some rest).
      { revert Ht. generalize (st (S m2)). intros b' Ht. inversion Ht; subst; [by left|by left|right]. do 2 eexists. split; [done|].
        exists buf0. split; [done|]. simpl. by rewrite lookup_insert. }
      destruct HD as [->|(id & t & -> & rest & Hr1 & Hr2)]; [left; by eapply (run_gone (S m2)); [lia|]|].
      right. exists m2, extra'. split; [lia|]. split; [done|]. rewrite He' in Hr1. injection Hr1 as Hr1.
      exists k, (CRun ctx), id, t, rest. done.
  Qed.
  (** *** the order waits in the channel *)
  Lemma queued_gone i : forall m ctl sb buf, n0 <= m -> now_at m ctl sb -> bs_ctls (st m) !! ctl = Some buf ->
    buf !! i = Some (s_id sb, s_topic sb) -> gone.
  Proof.
    induction i as [|i IH]; intros m ctl sb buf Hle N Hb Hi;
      (destruct (take_soon m ctl sb buf Hle N Hb) as [?|(m' & extra & Hle' & Hb' & k & c & id & t & rest & E & Hr & Hk)];
        [by intros ->|done|]);
      (destruct (now_or (S m') ltac:(lia)) as [(ctl' & sb' & N')|]; [|done]);
      pose proof (sub_same m (S m') sb sb' ltac:(lia) (na_heap _ _ _ N) (na_heap _ _ _ N')) as (E1 & E2 & _ & E4 & _);
      assert (ctl' = ctl) as -> by (pose proof (na_sub _ _ _ N); pose proof (na_sub _ _ _ N'); congruence).
    - destruct buf as [|x buf]; [done|]. simpl in *. simplify_eq. by eapply (del_gone (S m')); [lia|by apply (na_heap _ _ _ N')| | |].
    - destruct buf as [|x buf]; [done|]. simpl in *. simplify_eq. eapply (IH (S m') ctl sb'); [lia|done|done|].
      rewrite E1, E2. by apply lookup_app_l_Some.
  Qed.
  (** *** the goroutine of Unsubscribe waits for room *)
  Lemma async_gone m k : n0 <= m -> bc_ths (conf_at T m) !! k = Some (CAsync s, PAsync) -> gone.
  Proof.
    intros Hle Hk.
    assert (Hready : forall m' ctl sb buf, m <= m' -> bc_ths (conf_at T m') !! k = Some (CAsync s, PAsync) ->
      now_at m' ctl sb -> bs_ctls (st m') !! ctl = Some buf -> length buf < 100 -> ready (conf_at T m') k).
    { intros m' ctl sb buf Hle' Hm N Hb Hlt. eapply (ready_go uuid opts T V _ _ _ _ ChSend); [done|]. cbn [tstep].
      rewrite (na_heap _ _ _ N), (na_sub _ _ _ N), Hb. cbn [default]. unfold id. change (Z.to_nat default_size) with 100.
      rewrite (proj2 (Nat.ltb_lt _ _) Hlt). by eexists. }
    assert (HM : (exists m', m <= m' /\ own k (label_at T m') = true /\ bc_ths (conf_at T m') !! k = Some (CAsync s, PAsync)) \/ gone).
    { destruct (F k m) as [(m' & Hle' & Ho)|(n' & Hn)].
      - left. destruct (scan uuid opts T V k _ _ m m' Hle' Hk) as [(m2 & ? & ? & ?)|Hm]; [exists m2; split; [lia|done]|by exists m'].
      - set (N := m `max` n'). destruct (scan uuid opts T V k _ _ m N ltac:(lia) Hk) as [(m2 & ? & ? & ?)|HN]; [left; exists m2; split; [lia|done]|].
        destruct (now_or N ltac:(lia)) as [(ctl & sb & NA)|]; [|by right]. destruct (na_buf _ _ _ NA) as (buf & Hb & Hlen).
        destruct (decide (length buf < 100)) as [Hlt|Hge].
        { exfalso. eapply (Hn N); [lia|]. by eapply Hready; [lia| | | |]. }
        destruct (take_soon N ctl sb buf ltac:(lia) NA Hb) as [?|(m' & extra & Hle' & Hb' & k' & c & id & t & rest & E & Hr & Hk')];
          [intros E; rewrite E in Hge; apply Hge; simpl; lia|by right|].
        destruct (now_or (S m') ltac:(lia)) as [(ctl' & sb' & N')|]; [|by right].
        pose proof (sub_same N (S m') sb sb' ltac:(lia) (na_heap _ _ _ NA) (na_heap _ _ _ N')) as (_ & _ & _ & E4 & _).
        assert (ctl' = ctl) as -> by (pose proof (na_sub _ _ _ NA); pose proof (na_sub _ _ _ N'); congruence).
        pose proof (ctl_len_exec _ _ _ _ _ (exec_upto uuid opts T V m') _ _ Hb') as Hl'. rewrite E in Hl'. simpl in Hl'.
        destruct (scan uuid opts T V k _ _ m (S m') ltac:(lia) Hk) as [(m2 & ? & ? & ?)|HS]; [left; exists m2; split; [lia|done]|].
        exfalso. eapply (Hn (S m')); [lia|]. apply (Hready (S m') ctl sb' rest); [lia|done|done|done|lia]. }
    destruct HM as [(m' & Hle' & Ho & Hm)|]; [|done].
    destruct (own_tr uuid opts T V m' k _ _ Hm Ho eq_refl) as (ch & p' & sp & acts & _ & Ht & Hm').
    destruct (now_or m' ltac:(lia)) as [(ctl & sb & N)|]; [|done].
    destruct (now_or (S m') ltac:(lia)) as [(ctl' & sb' & N')|]; [|done].
    pose proof (sub_same m' (S m') sb sb' ltac:(lia) (na_heap _ _ _ N) (na_heap _ _ _ N')) as (E1 & E2 & _ & E4 & _).
    assert (ctl' = ctl) as -> by (pose proof (na_sub _ _ _ N); pose proof (na_sub _ _ _ N'); congruence).
    assert (HD : (exists buf, bs_ctls (st (S m')) !! ctl = Some (buf ++ [(s_id sb, s_topic sb)])) \/
      exists e, q_exit (s_queue sb) = Some e /\ e ∈ bs_closed (st m')).
    { pose proof (na_heap _ _ _ N) as Hh. pose proof (na_sub _ _ _ N) as Hsub. revert Ht. generalize (st (S m')). intros b' Ht.
      inversion Ht; subst; simplify_eq; [left|right]; [|eauto]. eexists. simpl. by rewrite lookup_insert. }
    destruct HD as [[buf Hb]|(e & He & Hcl)].
    - eapply (queued_gone (length buf) (S m') ctl sb'); [lia|done|exact Hb|]. rewrite lookup_app_r by lia. rewrite Nat.sub_diag. by rewrite E1, E2.
    - exfalso. apply (na_open _ _ _ N). eapply closed_why_queue; [apply (sess_at uuid opts T V m')|by apply (na_heap _ _ _ N)|done|done].
  Qed.
  Lemma spawn_gone m k : n0 <= m -> bc_ths (conf_at T m) !! k = Some (CUnsub s, PUnsubSpawn) -> gone.
  Proof.
    intros Hle Hk. destruct (moves_or k _ _ m gone Hk) as [(m' & Hle' & Ho & Hm)|]; [| |done].
    { intros m' _ Hm. left. by eapply (ready_go uuid opts T V _ _ _ _ ChGo). }
    destruct (own_left uuid opts T V m' k _ _ Hm eq_refl Ho) as (p' & Hp' & Hlt).
    destruct (step_spawns _ _ _ _ _ _ (step_at uuid opts T V m') Hm) as [Hx|(k' & Hk')].
    - simplify_eq. lia.
    - by eapply (async_gone (S m')); [lia|].
  Qed.
  Lemma all_gone : gone.
  Proof.
    destruct (now_or n0 ltac:(lia)) as [(ctl & sb & N)|]; [|done]. destruct (kept_dec (conf_at T n0) s) as [Hk|Hk]; [|by exists n0].
    apply kept_eq in Hk as (sb' & Hs' & Hr). rewrite (na_heap _ _ _ N) in Hs'. injection Hs' as <-.
    destruct (pends_exec _ _ _ _ _ (exec_upto uuid opts T V n0) _ _ (na_heap _ _ _ N) (na_off _ _ _ N) Hr)
      as [Hcl|[(k & Hk)|[(k & Hk)|[(c & buf & Hc & Hb & Hi)|(k & c & Hk)]]]].
    - by destruct (na_open _ _ _ N).
    - by eapply spawn_gone.
    - by eapply async_gone.
    - rewrite (na_sub _ _ _ N) in Hc. injection Hc as <-. apply elem_of_list_lookup in Hi as [i Hi]. by eapply queued_gone.
    - by eapply (del_gone n0); [done|by apply (na_heap _ _ _ N)| | |].
  Qed.
  Lemma gone_for_good : exists m, n0 <= m /\ forall m', m <= m' -> ~ K m'.
  Proof.
    destruct all_gone as (m & Hle & Hn). exists m. split; [done|]. intros m' Hle'. induction Hle' as [|m' Hle' IH]; [done|].
    intros Hk. apply IH. destruct (sub_at m' ltac:(lia)) as (sb & Hs & _).
    eapply kept_step; [apply (step_at uuid opts T V)|by eapply lookup_lt_Some|done].
  Qed.
End forget.
