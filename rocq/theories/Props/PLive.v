(** The broker in executions that go on for ever and in which every goroutine gets its
    turn: C97, C98, and more on C59, C72 and C95. *)
From Verif.Model Require Import Broker.
From Verif.Spec Require Import OptionsSpec BrokerSpec LiveSpec.
From Verif.Proof Require Import OptionsP BrokerP BrokerP2 BrokerP3 BrokerP4 BrokerP5 BrokerP6 BrokerP7 BrokerP8 BrokerP9 BrokerP10 BrokerP11 LiveP LiveP2 LiveRun.
From Verif.Props Require Import PBroker PBroker3 PBroker4 PBroker5.

(** an example run, after which nothing happens but time passing *)
Definition rest_of (ls : list label) : trace := rest ids [] ls.
Lemma ran_rest ls es : option_map snd (bexec (broker_init ids []) ls) = Some es ->
  match bexec (broker_init ids []) ls with Some (cf, _) => settled cf | None => false end = true ->
  valid ids [] (rest_of ls) /\ fair (rest_of ls) /\ select_fair (rest_of ls) /\ time_passes (rest_of ls) /\
  (forall e, e ∈ es -> e ∈ upto (rest_of ls) (length ls)) /\ (lone_open es -> forall n, lone_open (upto (rest_of ls) n)).
Proof.
  intros H1 H2. destruct (ran _ settled es H1 H2) as (cf & R & S). split; [by eapply rest_valid|]. split; [by eapply rest_fair|].
  split; [by eapply rest_select|]. split; [by eapply rest_time|]. split; [by eapply rest_has|]. by eapply rest_lone.
Qed.

(** ** C97 *)
(** In an execution in which every goroutine gets its turn and time passes, every
    call of a method other than Digest returns. *)
Theorem c97_calls_return : forall uuid opts T n i c,
  valid uuid opts T -> fair T -> time_passes T ->
  ECall i c ∈ events_at T n -> (forall ctx s, c <> CDigest ctx s) ->
  exists r m, n < m /\ ERet i r ∈ events_at T m.
Proof.
  intros uuid opts T n i c V F P Hc Hd.
  pose proof (call_step _ _ _ _ _ _ (step_at uuid opts T V n) Hc) as Hp.
  assert (Hcl : is_client c = true).
  { assert (Hc' : ECall i c ∈ upto T (S n)) by (apply (at_upto T n); [lia|done]).
    apply (base_call _ _ (base_at uuid opts T V (S n))) in Hc' as [Hcl _]. by apply Is_true_true in Hcl. }
  destruct (call_returns uuid opts T V F P _ (S n) i c _ eq_refl Hp Hcl) as (m & r & Hle & Hm).
  { destruct c; try done. by destruct (Hd ctx s). }
  apply (returned uuid opts T V) in Hm as (m' & Hlt & Hr). exists r, m'. split; [|done].
  destruct (decide (n < m')) as [?|Hge]; [done|exfalso].
  assert (Hr1 : ERet i r ∈ upto T (S n)) by (apply (at_upto T m'); [lia|done]).
  apply (base_ret _ _ (base_at uuid opts T V (S n))) in Hr1 as (c' & Hr1). rewrite Hp in Hr1. by destruct c.
Qed.
Print Assumptions c97_calls_return.
(** a Pub for which nobody waits, on a channel without buffer: it times out *)
Definition alone_ls : list label :=
  open_steps 0 1 ++ [LStep 1 ChGo; LStep 1 ChGo; LCall (CPub 2 "t" (msg 1) []); LStep 2 ChGo; LStep 2 ChGo; LStep 2 ChGo; LTick 5000000000; LStep 2 ChTimeout].
Example c97_case : valid ids [] (rest_of alone_ls) /\ fair (rest_of alone_ls) /\ time_passes (rest_of alone_ls) /\
  ECall 2 (CPub 2 "t" (msg 1) []) ∈ upto (rest_of alone_ls) (length alone_ls) /\
  ERet 2 (Err BrokerErrTimeout) ∈ upto (rest_of alone_ls) (length alone_ls).
Proof.
  destruct (ran_rest alone_ls (default (broker_init ids [], []) (bexec (broker_init ids []) alone_ls)).2) as (V & F & _ & P & H & _);
    [vm_compute; reflexivity|vm_compute; reflexivity|].
  split; [done|]. split; [done|]. split; [done|]. split; apply H; listed.
Qed.

(** ** C98 *)
Lemma run_over uuid opts T n k ctx p n' : valid uuid opts T -> fair T -> select_fair T -> time_passes T ->
  bc_ths (conf_at T n) !! k = Some (CRun ctx, p) -> ECancel ctx ∈ events_at T n' ->
  exists m, ERet k (Ok None) ∈ events_at T m /\ ~ in_session (upto T (S m)) /\ k < length (bc_ths (conf_at T m)).
Proof.
  intros V F Sf P Hk Hx. pose proof (ths_later uuid opts T V) as HL.
  destruct (HL _ (n `max` S n') _ _ _ (Nat.le_max_l n (S n')) Hk) as [pN HN].
  destruct (run_ends_soon uuid opts T V F P _ k ctx pN ChCtx Sf (or_introl eq_refl) HN) as (m & Hle & Hm).
  { intros m e ctl Hle Hm. cbn [tstep]. unfold ctx_done. rewrite bool_decide_eq_true_2; [done|].
    apply (se_canc _ _ (sess_at uuid opts T V m)). apply (at_upto T n'); [lia|done]. }
  destruct (returned uuid opts T V _ _ _ _ Hm) as (m' & Hlt & Hr). exists m'. split; [done|].
  destruct (ret_step _ _ _ _ _ _ (step_at uuid opts T V m') Hr) as (c' & pm & Hm').
  destruct (HL m' m _ _ _ ltac:(lia) Hm') as [p'' Hp'']. assert (c' = CRun ctx) as -> by congruence.
  split; [|by eapply lookup_lt_Some]. pose proof (exec_upto uuid opts T V m') as He. destruct V as [_ V1].
  by apply (c94_run_closes uuid opts _ _ _ _ _ _ k ctx pm _ He (V1 m') Hm' Hr).
Qed.
(** When the context given to an Open is cancelled, the goroutine it started returns,
    and the session is over at that moment. *)
Theorem c98_goroutine_ends : forall uuid opts T n k ctx p n',
  valid uuid opts T -> fair T -> select_fair T -> time_passes T ->
  bc_ths (conf_at T n) !! k = Some (CRun ctx, p) -> ECancel ctx ∈ events_at T n' ->
  exists m, ERet k (Ok None) ∈ events_at T m /\ ~ in_session (upto T (S m)).
Proof.
  intros uuid opts T n k ctx p n' V F Sf P Hk Hx.
  destruct (run_over uuid opts T n k ctx p n' V F Sf P Hk Hx) as (m & ? & ? & _). eauto.
Qed.
Print Assumptions c98_goroutine_ends.
(** A session whose Open was given a context that is cancelled at some time ends, if
    every goroutine gets its turn and the select statement does not pass over the
    case of the context for ever. *)
Theorem c98_session_ends : forall uuid opts T n i ctx n',
  valid uuid opts T -> fair T -> select_fair T -> time_passes T ->
  ECall i (COpen ctx) ∈ upto T n -> EAct i AOpened ∈ events_at T n -> ECancel ctx ∈ events_at T n' ->
  exists m, n < m /\ ~ in_session (upto T m).
Proof.
  intros uuid opts T n i ctx n' V F Sf P Hc Ho Hx.
  pose proof (opened_starts _ _ _ _ _ _ _ (base_at uuid opts T V n) (step_at uuid opts T V n) Hc Ho) as Hs.
  assert (Hc1 : ECall i (COpen ctx) ∈ upto T (S n)) by (apply (upto_mono T n); [lia|done]).
  apply (base_call _ _ (base_at uuid opts T V (S n))) in Hc1 as (_ & p & Hp).
  destruct (call_returns uuid opts T V F P _ (S n) i _ _ eq_refl Hp eq_refl eq_refl) as (m & r & Hle & Hm).
  destruct (started_later uuid opts T V _ _ m _ _ Hle Hs) as [_ [?|(k & q & HN & Hk)]]; [congruence|].
  destruct (run_over uuid opts T m k ctx q n' V F Sf P Hk Hx) as (m' & Hr & Hns & Hlt).
  exists (S m'). split; [|done]. destruct (decide (n < S m')) as [?|Hge]; [done|exfalso].
  assert (length (bc_ths (conf_at T m')) <= length (bc_ths (conf_at T n))); [|lia].
  assert (Hmn : m' <= n) by lia. clear -V Hmn. induction Hmn as [|n Hle IH]; [done|].
  etrans; [exact IH|]. eapply ths_grow. apply (step_at uuid opts T V).
Qed.
Print Assumptions c98_session_ends.
(** an order in the queue, then the context is cancelled and the order is read first *)
Definition over_ls : list label := open_steps 0 1 ++ [LStep 1 ChGo; LStep 1 ChGo] ++ sub_steps 2 "t" ++
  [LCall (CUnsub 0); LStep 3 ChGo; LStep 3 ChGo; LStep 3 ChGo; LStep 3 ChGo; LStep 4 ChSend; LCancel 1;
   LStep 1 ChRecv; LStep 1 ChGo; LStep 1 ChGo; LStep 1 ChGo; LStep 1 ChCtx; LStep 1 ChGo].
Example c98_case : valid ids [] (rest_of over_ls) /\ fair (rest_of over_ls) /\ select_fair (rest_of over_ls) /\
  time_passes (rest_of over_ls) /\
  ECall 0 (COpen 1) ∈ upto (rest_of over_ls) 2 /\ EAct 0 AOpened ∈ events_at (rest_of over_ls) 2 /\
  (exists p, bc_ths (conf_at (rest_of over_ls) 17) !! 1 = Some (CRun 1, p) /\ forall r, p <> PDone r) /\
  ECancel 1 ∈ events_at (rest_of over_ls) 15 /\ in_session (upto (rest_of over_ls) 16).
Proof.
  destruct (ran_rest over_ls (default (broker_init ids [], []) (bexec (broker_init ids []) over_ls)).2) as (V & F & Sf & P & _ & _);
    [vm_compute; reflexivity|vm_compute; reflexivity|].
  split; [done|]. split; [done|]. split; [done|]. split; [done|]. split; [listed|]. split; [listed|].
  split; [eexists; split; [vm_compute; reflexivity|done]|]. split; [listed|]. by vm_compute.
Qed.

(** ** C59, continued *)
(** Once an Unsubscribe on its subscriber has returned, a Receive or Digest that is
    under way returns. *)
Theorem c59_digest_ends_partial : forall uuid opts T n j s r i c,
  valid uuid opts T -> fair T -> time_passes T ->
  ECall j (CUnsub s) ∈ upto T n -> ERet j r ∈ upto T n ->
  (exists ctx o, c = CRecv ctx s o) \/ (exists ctx, c = CDigest ctx s) -> ECall i c ∈ upto T n ->
  exists m r', ERet i r' ∈ events_at T m.
Proof.
  intros uuid opts T n j s r i c V F P Hj Hr Hc Hi.
  apply (base_call _ _ (base_at uuid opts T V n)) in Hi as (_ & p & Hp).
  assert (Ha : exists ctx o, recv_args c = Some (ctx, s, o)).
  { destruct Hc as [(ctx & o & ->)|(ctx & ->)]; simpl; eauto. }
  destruct Ha as (ctx & o & Ha).
  pose proof (unsub_returned _ _ _ _ _ _ _ _ (exec_upto uuid opts T V n) Hj Hr) as Hin.
  destruct (inactive_returns uuid opts T V F P _ n i c p ctx s o eq_refl Hp Ha Hin) as (m & r' & _ & Hm).
  destruct (returned uuid opts T V _ _ _ _ Hm) as (m' & _ & Hr'). eauto.
Qed.
Print Assumptions c59_digest_ends_partial.
Definition stop_ls : list label := open_steps 0 1 ++ [LStep 1 ChGo; LStep 1 ChGo] ++ sub_steps 2 "t" ++
  [LCall (CDigest 2 0); LStep 3 ChGo; LCall (CUnsub 0); LStep 4 ChGo; LStep 4 ChGo; LStep 4 ChGo; LStep 4 ChGo;
   LStep 5 ChSend; LStep 1 ChRecv; LStep 1 ChGo; LStep 1 ChGo; LStep 1 ChGo; LStep 3 ChSubExit; LStep 3 ChGo].
Example c59_case3 : valid ids [] (rest_of stop_ls) /\ fair (rest_of stop_ls) /\ time_passes (rest_of stop_ls) /\
  ECall 4 (CUnsub 0) ∈ upto (rest_of stop_ls) 16 /\ ERet 4 (Ok None) ∈ upto (rest_of stop_ls) 16 /\
  ECall 3 (CDigest 2 0) ∈ upto (rest_of stop_ls) 16 /\ forall r, ERet 3 r ∉ upto (rest_of stop_ls) 16.
Proof.
  destruct (ran_rest stop_ls (default (broker_init ids [], []) (bexec (broker_init ids []) stop_ls)).2) as (V & F & Sf & P & _ & _);
    [vm_compute; reflexivity|vm_compute; reflexivity|].
  split; [done|]. split; [done|]. split; [done|]. split; [listed|]. split; [listed|]. split; [listed|].
  intros r. by apply (none_of (fun e => match e with ERet 3 _ => false | _ => true end)); [vm_compute|].
Qed.

(** ** C72, continued *)
(** With a single Open every goroutine of the broker ends once it was closed. *)
Theorem c72_goroutines_end_fair_partial : forall uuid opts T n k c p,
  valid uuid opts T -> fair T -> select_fair T -> time_passes T -> (forall m, lone_open (upto T m)) ->
  closed_in (upto T n) ->
  bc_ths (conf_at T n) !! k = Some (c, p) -> (exists ctx, c = CRun ctx) \/ (exists s, c = CAsync s) ->
  exists m, ERet k (Ok None) ∈ events_at T m.
Proof.
  intros uuid opts T n k c p V F Sf P Hone Hcl Hk Hg.
  assert (HI : forall m, n <= m -> lone2 (conf_at T m) (upto T m) /\
    exists e, m_exit (bs_mem (bc_st (conf_at T m))) = Some e /\ e ∈ bs_closed (bc_st (conf_at T m))).
  { intros m Hle. pose proof (lone2_exec _ _ _ _ _ (exec_upto uuid opts T V m) (Hone m)) as I. split; [done|].
    apply (l2_closed _ _ I). destruct Hcl as [k' Hk']. exists k'. by eapply upto_mono. }
  assert (Hm : exists m, n <= m /\ bc_ths (conf_at T m) !! k = Some (c, PDone (Ok None))).
  { destruct Hg as [[ctx ->]|[s ->]].
    - apply (run_ends_soon uuid opts T V F P n k ctx p ChExit Sf (or_intror eq_refl) Hk).
      intros m e ctl Hle Hm. destruct (HI m Hle) as (I & e' & He & Hc). destruct (l2_wait _ _ I _ _ _ _ Hm) as [-> _].
      cbn [tstep]. rewrite He. unfold chan_closed. by rewrite bool_decide_eq_true_2.
    - pose proof (base_wf _ _ (base_at uuid opts T V n) _ _ _ Hk) as Hw. destruct p; try done.
      2:{ exists n. split; [done|]. destruct r as [[?|]|?|]; done. }
      destruct (moves_soon uuid opts T V F P k _ _ n 0%Z Hk) as (m & Hle & Ho & Hm).
      { intros m Hle Hm _ _. destruct (HI m Hle) as (I & e & He & Hc).
        destruct (has_sub_exec _ _ _ _ _ (exec_upto uuid opts T V m) _ _ _ _ Hm eq_refl) as [sb Hs].
        destruct (l2_heap _ _ I _ _ Hs) as (_ & _ & Hq).
        eapply (ready_go uuid opts T V m k _ _ ChExit); [done|]. cbn [tstep]. rewrite Hs, Hq, He. unfold chan_closed. by rewrite bool_decide_eq_true_2. }
      destruct (own_tr uuid opts T V m k _ _ Hm Ho eq_refl) as (ch & p' & sp & acts & _ & Ht & Hm'). exists (S m). split; [lia|].
      inversion Ht; subst; done. }
  destruct Hm as (m & _ & Hm). destruct (returned uuid opts T V _ _ _ _ Hm) as (m' & _ & ?). eauto.
Qed.
Print Assumptions c72_goroutines_end_fair_partial.
Definition shut_ls : list label := close_ls ++ [LStep 4 ChExit; LStep 1 ChGo; LStep 1 ChGo; LStep 1 ChExit; LStep 1 ChGo].
Example c72_case_fair : valid ids [] (rest_of shut_ls) /\ fair (rest_of shut_ls) /\ select_fair (rest_of shut_ls) /\
  time_passes (rest_of shut_ls) /\ (forall m, lone_open (upto (rest_of shut_ls) m)) /\ closed_in (upto (rest_of shut_ls) 14) /\
  bc_ths (conf_at (rest_of shut_ls) 14) !! 1 = Some (CRun 1, PRunExit) /\ bc_ths (conf_at (rest_of shut_ls) 14) !! 4 = Some (CAsync 0, PAsync).
Proof.
  destruct (ran_rest shut_ls (default (broker_init ids [], []) (bexec (broker_init ids []) shut_ls)).2) as (V & F & Sf & P & _ & L);
    [vm_compute; reflexivity|vm_compute; reflexivity|].
  split; [done|]. split; [done|]. split; [done|]. split; [done|]. split; [apply L; apply (lone_by 0); by vm_compute|].
  split; [exists 5; listed|]. split; by vm_compute.
Qed.

(** ** C95, continued *)
(** With a single Open, a subscriber whose Unsubscribe has returned during the session
    leaves the table of subscribers for good. *)
Theorem c95_forgotten_fair_partial : forall uuid opts T n j s r,
  valid uuid opts T -> fair T -> time_passes T -> (forall m, lone_open (upto T m)) -> in_session (upto T n) ->
  ECall j (CUnsub s) ∈ upto T n -> ERet j r ∈ upto T n ->
  exists m, n <= m /\ forall m', m <= m' -> ~ kept (conf_at T m') s.
Proof.
  intros uuid opts T n j s r V F P L Hin Hj Hr.
  apply (gone_for_good uuid opts T V F P L n s Hin). by eapply unsub_returned; [apply (exec_upto uuid opts T V n)| |].
Qed.
Print Assumptions c95_forgotten_fair_partial.
Example c95_case_fair : valid ids [] (rest_of stop_ls) /\ fair (rest_of stop_ls) /\ time_passes (rest_of stop_ls) /\
  (forall m, lone_open (upto (rest_of stop_ls) m)) /\ in_session (upto (rest_of stop_ls) 16) /\
  ECall 4 (CUnsub 0) ∈ upto (rest_of stop_ls) 16 /\ ERet 4 (Ok None) ∈ upto (rest_of stop_ls) 16 /\ kept (conf_at (rest_of stop_ls) 16) 0.
Proof.
  destruct (ran_rest stop_ls (default (broker_init ids [], []) (bexec (broker_init ids []) stop_ls)).2) as (V & F & Sf & P & _ & L);
    [vm_compute; reflexivity|vm_compute; reflexivity|].
  split; [done|]. split; [done|]. split; [done|]. split; [apply L; apply (lone_by 0); by vm_compute|].
  split; [by vm_compute|]. split; [listed|]. split; [listed|]. apply keptb_spec. by vm_compute.
Qed.
