(** The in-memory broker, continued: C52 to C60. *)
From Verif.Model Require Import Broker.
From Verif.Spec Require Import OptionsSpec BrokerSpec.
From Verif.Proof Require Import OptionsP BrokerP BrokerP2 BrokerP3 BrokerP4 BrokerP5 BrokerP6 BrokerP7 BrokerP8.
From Verif.Props Require Import PBroker.

(** ** C52 *)
(** Everything the property allows to end the session opened by call [j]. *)
Definition kept_open (ctx : nat) (es2 es : list event) : Prop :=
  closed_in es2 -> (exists k, ECall k CClose ∈ es2) \/ ECancel ctx ∈ es.
(** Open, Close, Open again: the goroutine of the first Open, woken by the first
    Close, closes the second session; nothing was cancelled. *)
Definition stale_ls : list label :=
  open_steps 0 1 ++ [LStep 1 ChGo; LStep 1 ChGo] ++ [LCall CClose; LStep 2 ChGo] ++ open_steps 3 2 ++
  [LStep 1 ChExit; LStep 1 ChGo].
Theorem c52_session_refuted : exists l ls cf es es1 es2,
  run_of l ls = Some (cf, es) /\ es = es1 ++ ERet 3 (Ok None) :: es2 /\ ECall 3 (COpen 2) ∈ es1 /\
  ERet 2 (Ok None) ∈ es1 /\ (forall ctx, ECancel ctx ∉ es) /\ ~ kept_open 2 es2 es.
Proof.
  exists demo_opts, stale_ls. do 2 eexists.
  exists [ECall 0 (COpen 1); EAct 0 AOpened; ERet 0 (Ok None); ECall 2 CClose; EAct 2 AClosed;
          ERet 2 (Ok None); ECall 3 (COpen 2); EAct 3 AOpened], [EAct 1 AClosed; ERet 1 (Ok None)].
  split; [vm_compute; reflexivity|]. split; [reflexivity|]. split_and!; try listed.
  - intros ctx H. set_solver.
  - intros H. destruct H as [(k & H)|H]; [exists 1; listed|set_solver|set_solver].
Qed.
Print Assumptions c52_session_refuted.
(** A cancelled Pub closes the broker too. *)
Theorem c52_session_pub_refuted : exists l ls cf es es1 es2,
  run_of l ls = Some (cf, es) /\ es = es1 ++ ERet 0 (Ok None) :: es2 /\ ECall 0 (COpen 1) ∈ es1 /\
  ~ closed_in es1 /\ ~ kept_open 1 es2 es.
Proof.
  exists demo_opts, (open_steps 0 1 ++ [LCancel 2] ++ pub_steps 2 2 "t" (msg 1) ChCtx ++ [LStep 2 ChGo]).
  do 2 eexists. exists [ECall 0 (COpen 1); EAct 0 AOpened]. eexists.
  split; [vm_compute; reflexivity|]. split; [reflexivity|]. split_and!; [listed| |].
  - intros (k & H). set_solver.
  - intros H. destruct H as [(k & H)|H]; [exists 2; listed|set_solver|set_solver].
Qed.
Print Assumptions c52_session_pub_refuted.
(** A session ends by Close, by a Pub with a cancelled context, or by the goroutine
    of an Open that has returned, if its context is cancelled or a session was
    closed before. *)
Theorem c52_session_partial : forall uuid opts ls cf1 es1 l cf2 es2 k,
  bexec (broker_init uuid opts) ls = Some (cf1, es1) -> bstep cf1 l = Some (cf2, es2) ->
  EAct k AClosed ∈ es2 ->
  in_session es1 /\
  (ECall k CClose ∈ es1 \/
   (exists ctx t m o, ECall k (CPub ctx t m o) ∈ es1 /\ ECancel ctx ∈ es1) \/
   (exists j ctx, ECall j (COpen ctx) ∈ es1 /\ ERet j (Ok None) ∈ es1 /\ (ECancel ctx ∈ es1 \/ closed_in es1))).
Proof.
  intros uuid opts ls cf1 es1 l cf2 es2 k H Hst Hk. destruct (sess_exec _ _ _ _ _ H) as [B S].
  apply bstep_step in Hst.
  destruct Hst as [c0 Hc|ctx|d|i0 ch c0 p b' p' sp acts Hi Ht|
    i0 j ctx t m0 o q e d cj ctxj s oj sb dj Hi Hj Ha Hs Hcap Hq|
    i0 j ctx t m0 o q e d cj ctxj s oj sb Hi Hj Ha Hs Hcap Hq]; try set_solver.
  apply elem_acts_act in Hk as [-> Hin].
    assert (Hp : p = PCloseGo /\ m_connected (bs_mem (bc_st cf1)) = true /\ closes c0).
    { pose proof (base_wf _ _ B _ _ _ Hi) as Hw. inversion Ht; subst; try done;
        try (repeat (apply elem_of_cons in Hin as [?|Hin]; [done|]); by apply elem_of_nil in Hin).
      split; [done|]. split; [done|]. by destruct c0. }
    destruct Hp as (-> & Hcon & Hcl). split; [by apply (se_conn _ _ S)|].
    destruct c0; try done.
  + left. apply (base_call _ _ B). eauto.
  + right; left. exists ctx, topic, m, opts0. split; [apply (base_call _ _ B); eauto|]. by eapply (se_cpub _ _ S).
  + right; right. destruct (se_run _ _ S _ _ _ Hi) as [j Hj]. exists j, ctx.
      split_and!; [apply (base_call _ _ B); eauto|apply (base_ret _ _ B); eauto|].
      by eapply (se_crun _ _ S).
Qed.
Print Assumptions c52_session_partial.
(** So in a broker that has been opened and on which no Close was called and no
    context cancelled, the session is open. *)
Lemma session_last es : opened_in es -> ~ closed_in es -> in_session es.
Proof.
  intros Ho Hc. unfold in_session.
  assert (Hall : forall x, x ∈ omap session_event es -> x = true).
  { intros x. rewrite elem_of_list_omap. intros ([| | | |i []] & Hin & E); simplify_eq/=; [done|].
    destruct Hc. by exists i. }
  destruct (last (omap session_event es)) as [x|] eqn:E.
  - f_equal. apply Hall. by apply last_Some_elem_of.
  - apply last_None in E. destruct Ho as [k Ho].
    assert (Ht : true ∈ omap session_event es) by (apply elem_of_list_omap; by exists (EAct k AOpened)).
    rewrite E in Ht. by apply elem_of_nil in Ht.
Qed.
Theorem c52_first_session_partial : forall uuid opts ls cf es,
  bexec (broker_init uuid opts) ls = Some (cf, es) ->
  (forall k, ECall k CClose ∉ es) -> (forall ctx, ECancel ctx ∉ es) -> opened_in es -> in_session es.
Proof.
  intros uuid opts ls cf es H Hc Hx Ho. apply session_last; [done|]. clear Ho.
  revert cf es H Hc Hx. induction ls as [|l ls IH] using rev_ind; intros cf es H Hc Hx [k Hk].
  - simpl in H. simplify_eq. set_solver.
  - destruct (bexec_snoc _ _ _ _ _ H) as (cf1 & es1 & es2 & H1 & H2 & ->).
    assert (Hn : ~ closed_in es1) by (eapply IH; set_solver).
    apply elem_of_app in Hk as [Hk|Hk]; [apply Hn; by exists k|].
    destruct (c52_session_partial _ _ _ _ _ _ _ _ _ H1 H2 Hk) as (_ & [?|[(?&?&?&?&_&?)|(?&?&_&_&[?|?])]]); set_solver.
Qed.
Print Assumptions c52_first_session_partial.
Example c52_case : exists cf es, run_of demo_opts demo_ls = Some (cf, es) /\ opened_in es /\
  (forall k, ECall k CClose ∉ es) /\ (forall ctx, ECancel ctx ∉ es).
Proof.
  destruct (events_of_some _ _ _ demo) as [cf Hcf]. exists cf, demo_es. split; [exact Hcf|].
  split; [exists 0; listed|]. split; intros k; unfold demo_es; rewrite !elem_of_cons, elem_of_nil; intuition discriminate.
Qed.

(** ** C53 *)
Theorem c53_no_crash : forall uuid opts ls cf es,
  bexec (broker_init uuid opts) ls = Some (cf, es) ->
  (forall i s, ECall i (CUnsub s) ∉ es) -> crashed cf = false.
Proof.
  intros uuid opts ls cf es H Hn. destruct (sess_exec _ _ _ _ _ H) as [B S].
  destruct (crashed cf) eqn:E; [|done]. apply crashed_iff in E as (i & c & x & Hi).
  destruct (se_panic _ _ S _ _ _ Hi) as [s ->]. destruct (Hn i s). apply (base_call _ _ B). eauto.
Qed.
Print Assumptions c53_no_crash.
(** Even then only Unsubscribe calls panic. *)
Theorem c53_only_unsubscribe_panics : forall uuid opts ls cf es i c x,
  bexec (broker_init uuid opts) ls = Some (cf, es) ->
  bc_ths cf !! i = Some (c, PPanicked x) -> exists s, c = CUnsub s /\ ECall i c ∈ es.
Proof.
  intros uuid opts ls cf es i c x H Hi. destruct (sess_exec _ _ _ _ _ H) as [B S].
  destruct (se_panic _ _ S _ _ _ Hi) as [s ->]. exists s. split; [done|]. apply (base_call _ _ B). eauto.
Qed.
Print Assumptions c53_only_unsubscribe_panics.
(** two Opens, two Closes and a Pub at the same time *)
Example c53_case : exists cf es, run_of [] (
    [LCall (COpen 1); LCall (COpen 2); LStep 0 ChGo; LStep 1 ChGo; LStep 0 ChGo; LStep 0 ChGo; LStep 1 ChGo; LStep 1 ChGo] ++
    [LCall CClose; LCall CClose; LStep 4 ChGo; LStep 5 ChGo; LStep 2 ChGo; LStep 2 ChGo; LStep 2 ChExit; LStep 2 ChGo])
    = Some (cf, es) /\ crashed cf = false /\ (forall i s, ECall i (CUnsub s) ∉ es).
Proof. do 2 eexists. split; [vm_compute; reflexivity|]. split; [reflexivity|]. set_solver. Qed.

(** ** C54 *)
(** Two Unsubscribe calls that both see the subscriber active: the second close of
    its channel panics. *)
Definition unsub_ls : list label :=
  open_steps 0 1 ++ sub_steps 2 "t" ++
  [LCall (CUnsub 0); LCall (CUnsub 0); LStep 3 ChGo; LStep 4 ChGo; LStep 3 ChGo; LStep 4 ChGo].
Theorem c54_unsubscribe_refuted : exists l ls cf es,
  run_of l ls = Some (cf, es) /\ crashed cf = true /\
  bc_ths cf !! 4 = Some (CUnsub 0, PPanicked PCloseClosed).
Proof. exists [], unsub_ls. do 2 eexists. split; [vm_compute; reflexivity|]. split; reflexivity. Qed.
Print Assumptions c54_unsubscribe_refuted.
(** Unsubscribe returns nothing but nil, and if calls on one subscriber do not
    overlap there is no panic, whatever else goes on. *)
Theorem c54_unsubscribe_partial : forall uuid opts ls cf es,
  bexec (broker_init uuid opts) ls = Some (cf, es) ->
  (forall i s r, ECall i (CUnsub s) ∈ es -> ERet i r ∈ es -> r = Ok None) /\
  (one_at_a_time es -> crashed cf = false).
Proof.
  intros uuid opts ls cf es H. destruct (sess_exec _ _ _ _ _ H) as [B S]. split.
  - intros i s r Hc Hr. apply (base_call _ _ B) in Hc as (_ & p & Hp). apply (base_ret _ _ B) in Hr as (c & Hr).
    assert (c = CUnsub s) as -> by congruence. pose proof (base_wf _ _ B _ _ _ Hr) as Hw. simpl in Hw. by destruct r as [[]| |].
  - intros Ho. destruct (crashed cf) eqn:E; [|done]. apply crashed_iff in E as (i & c & x & Hi).
    by apply (ca_panic _ (calm_exec _ _ _ _ _ H Ho)) in Hi.
Qed.
Print Assumptions c54_unsubscribe_partial.
Definition unsub2_ls : list label :=
  open_steps 0 1 ++ sub_steps 2 "t" ++
  [LCall (CUnsub 0); LStep 3 ChGo; LStep 3 ChGo; LStep 3 ChGo; LStep 3 ChGo; LCall (CUnsub 0); LStep 5 ChGo].
Example c54_case : exists cf es, run_of [] unsub2_ls = Some (cf, es) /\ one_at_a_time es /\
  ECall 5 (CUnsub 0) ∈ es /\ ERet 5 (Ok None) ∈ es.
Proof.
  do 2 eexists. split; [vm_compute; reflexivity|]. split; [|split; listed].
  intros es1 i s es2 j E Hj. exists (Ok None).
  do 9 (destruct es1 as [|? es1]; [simplify_eq/=; set_solver|]; simplify_eq/=).
  destruct es1; simplify_eq/=.
Qed.
