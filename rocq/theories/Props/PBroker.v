(** The in-memory broker: C46 to C60 and C67 onwards.  Every theorem is about all
    executions of the machine of Model/Broker.v from a new broker: any number of
    calls by any number of goroutines, every interleaving, every choice of a ready
    select case, every cancellation, passage of time and handler result. *)
From Verif.Model Require Import Broker.
From Verif.Spec Require Import OptionsSpec BrokerSpec.
From Verif.Proof Require Import OptionsP BrokerP BrokerP2 BrokerP3 BrokerP4 BrokerP5 BrokerP6 BrokerP7 BrokerP8.

Lemma broker_opts_last (l : list broker_syn) :
  apply_opts broker_opts_zero (broker_den <$> l) =
  BrokerOpts (default 0%Z (last_set broker_cap_of l))
    (default 0%Z (last_set (fun s => match s with BSink x => Some x | _ => None end) l))
    (default 0%Z (last_set broker_pub_of l)) (default 0%Z (last_set broker_recv_of l)).
Proof. revert l. opts_tac. Qed.
Lemma new_capacity l : Z.to_nat (m_size (memory_new (broker_den <$> l))) = capacity_of l.
Proof.
  unfold memory_new, capacity_of. rewrite broker_opts_last. simpl.
  destruct (last_set broker_cap_of l) as [c|]; [|done]. simpl. by destruct (c <? 0)%Z.
Qed.
Lemma nonzero_or_eq dflt x :
  (if (default 0%Z x =? 0)%Z then dflt else default 0%Z x) = nonzero_or dflt x.
Proof. by destruct x. Qed.
Lemma recv_wait_eq l : recv_timeout (broker_den <$> l) = recv_wait l.
Proof. unfold recv_timeout. rewrite broker_opts_last. cbn [bo_recv]. apply nonzero_or_eq. Qed.
Lemma pub_wait_eq l l' : pub_timeout (memory_new (broker_den <$> l)) (broker_den <$> l') = pub_wait l l'.
Proof.
  unfold pub_timeout. rewrite broker_opts_last. cbn [bo_pub]. rewrite nonzero_or_eq. unfold pub_wait. f_equal.
  unfold memory_new. rewrite broker_opts_last. cbn [bo_pub bo_cap m_timeout]. apply nonzero_or_eq.
Qed.
Lemma capacity_exec uuid l ls cf es : bexec (broker_init uuid (broker_den <$> l)) ls = Some (cf, es) ->
  cap (bc_st cf) = capacity_of l.
Proof.
  intros H. apply config_exec in H as [E _]. unfold cap. rewrite <- new_capacity. by f_equal.
Qed.

(** *** A run used as an example: a broker with room for two messages, one
    subscriber, two messages published, both received by Digest, whose handler
    fails on the second. *)
Definition ids (n : nat) : string := String (Ascii.ascii_of_nat (65 + n)) EmptyString.
Definition msg (n : nat) : message := Message (ids n) 0 "data" ∅.
(** all steps of a call that goes straight through *)
Definition open_steps (i ctx : nat) : list label := [LCall (COpen ctx); LStep i ChGo; LStep i ChGo; LStep i ChGo].
Definition sub_steps (i : nat) (t : string) : list label := [LCall (CSub t); LStep i ChGo; LStep i ChGo].
Definition pub_steps (i ctx : nat) (t : string) (m : message) (ch : choice) : list label :=
  [LCall (CPub ctx t m []); LStep i ChGo; LStep i ChGo; LStep i ChGo; LStep i ch].
Definition demo_ls : list label :=
  open_steps 0 1 ++ sub_steps 2 "t" ++ pub_steps 3 2 "t" (msg 1) ChSend ++ pub_steps 4 2 "t" (msg 2) ChSend ++
  [LCall (CDigest 3 0); LStep 5 ChGo; LStep 5 ChRecv; LStep 5 (ChHandler None);
   LStep 5 ChGo; LStep 5 ChRecv; LStep 5 (ChHandler (Some 7%N))].
Definition demo_opts : list broker_syn := [BCap 2].
Definition run_of (l : list broker_syn) (ls : list label) : option (bconf * list event) :=
  bexec (broker_init ids (broker_den <$> l)) ls.
Definition events_of (l : list broker_syn) (ls : list label) : option (list event) := snd <$> run_of l ls.
Lemma events_of_some l ls es : events_of l ls = Some es -> exists cf, run_of l ls = Some (cf, es).
Proof. unfold events_of. destruct (run_of l ls) as [[cf es']|]; [|done]. intros [= ->]. eauto. Qed.
Ltac listed := apply elem_of_list_In; vm_compute; tauto.
Definition demo_es : list event :=
  [ECall 0 (COpen 1); EAct 0 AOpened; ERet 0 (Ok None); ECall 2 (CSub "t"); ERet 2 (Ok (Some 0));
   ECall 3 (CPub 2 "t" (msg 1) []); EAct 3 (ASend 2 (msg 1)); ERet 3 (Ok None);
   ECall 4 (CPub 2 "t" (msg 2) []); EAct 4 (ASend 2 (msg 2)); ERet 4 (Ok None);
   ECall 5 (CDigest 3 0);
   EAct 5 (ATake 2 (msg 1)); EAct 5 (AHandle (msg 1)); EAct 5 (AHandled None);
   EAct 5 (ATake 2 (msg 2)); EAct 5 (AHandle (msg 2)); EAct 5 (AHandled (Some 7%N));
   ERet 5 (Err (EForeign 7))].
Example demo : events_of demo_opts demo_ls = Some demo_es.
Proof. vm_compute. reflexivity. Qed.

(** ** C46 *)
(** in every channel messages are taken in the order they were put in, none twice *)
Theorem c46_fifo : forall uuid opts ls cf es,
  bexec (broker_init uuid opts) ls = Some (cf, es) -> forall c, taken c es `prefix_of` sent c es.
Proof.
  intros uuid opts ls cf es H c. destruct (exec_all _ _ _ _ _ H) as (_ & _ & T & HT).
  exists (buffer (bc_st cf) c). apply (ch_acct _ _ _ HT).
Qed.
Print Assumptions c46_fifo.
(** every channel belongs to one topic: only Pub calls on it put their message in,
    only receivers subscribed to it take out *)
Theorem c46_topics : forall uuid opts ls cf es,
  bexec (broker_init uuid opts) ls = Some (cf, es) ->
  exists T : nat -> option string,
    (forall i c m, EAct i (ASend c m) ∈ es -> exists ctx t o, ECall i (CPub ctx t m o) ∈ es /\ T c = Some t) /\
    (forall i c m, EAct i (ATake c m) ∈ es -> exists s ctx t, receives es i s ctx /\ subscribed es s t /\ T c = Some t).
Proof.
  intros uuid opts ls cf es H. destruct (exec_all _ _ _ _ _ H) as (B & _ & T & HT).
  exists (fun c => T !! c). split.
  - intros i c m Hm. destruct (ch_send _ _ _ HT _ _ _ Hm) as (ctx & t & o & Hi & Hc). exists ctx, t, o.
    split; [|done]. apply (base_call _ _ B). eauto.
  - intros i c m Hm. destruct (ch_take _ _ _ HT _ _ _ Hm) as (cl & p & ctx & s & o & sb & Hi & Ha & Hs & <-).
    exists s, ctx, (s_topic sb). split_and!.
    + destruct cl; simplify_eq/=; [left; exists o|right]; apply (base_call _ _ B); eauto.
    + destruct (ch_sub2 _ _ _ HT _ _ Hs) as (k & Hk). exists k. split.
      * apply (base_call _ _ B). eauto.
      * apply (base_ret _ _ B). eauto.
    + destruct (ch_ty _ _ _ HT) as [Hty _]. by eapply sty_heap.
Qed.
Print Assumptions c46_topics.
(** every handled message comes from a Pub of its own: no message is handled twice *)
Theorem c46_once : forall uuid opts ls cf es,
  bexec (broker_init uuid opts) ls = Some (cf, es) ->
  NoDup (senders es) /\ exists J, NoDup J /\ Forall2 (from_pub es) (handlings es) J.
Proof.
  intros uuid opts ls cf es H. destruct (exec_all _ _ _ _ _ H) as (B & _ & T & HT).
  split; [apply (ch_once _ _ _ HT)|]. destruct (attributed_exec _ _ _ _ _ H) as (J & H1 & H2 & _). eauto.
Qed.
Print Assumptions c46_once.
(** one receiver handles messages of its channel in the order they were sent *)
Lemma taken_by_sublist i c es : (forall c' m, EAct i (ATake c' m) ∈ es -> c' = c) ->
  taken_by i es `sublist_of` taken c es.
Proof.
  induction es as [|e es IH]; intros H; [constructor|].
  assert (IH' := IH (fun c' m Hm => H c' m (elem_of_list_further _ _ _ Hm))). clear IH.
  unfold taken_by, taken in *. destruct e as [| | | |k [|c' m| | | |]]; simpl; try done.
  destruct (Nat.eqb_spec k i) as [->|].
  - rewrite (H c' m) by left. rewrite Nat.eqb_refl. by constructor.
  - destruct (c' =? c); [by constructor|done].
Qed.
Lemma sublist_prefix {A} (l k : list A) : l `prefix_of` k -> l `sublist_of` k.
Proof. intros [x ->]. by apply sublist_inserts_r. Qed.
Lemma handled_taken cf es i c p : bc_ths cf !! i = Some (c, p) -> rlog c p (acts_by i es) ->
  handled_by i es `prefix_of` taken_by i es.
Proof.
  intros Hi H. rewrite handled_by_acts, taken_by_acts. unfold rlog in H.
  destruct (recv_args c) as [[[? ?] ?]|].
  - destruct p; unfold quiet in H; try (destruct H as (-> & _ & _); done).
    + destruct H as (hd & -> & -> & _). done.
    + destruct H as [(hd & m & a & -> & -> & _)|[(_ & _ & _ & H)|(_ & -> & _)]]; [done| |done].
      destruct H as [->|[m ->]]; [done|by exists [m]].
  - destruct H as (-> & -> & _). done.
Qed.
Theorem c46_receiver_order : forall uuid opts ls cf es,
  bexec (broker_init uuid opts) ls = Some (cf, es) ->
  forall i s ctx, receives es i s ctx -> exists c, handled_by i es `sublist_of` sent c es.
Proof.
  intros uuid opts ls cf es H i s ctx Hr. destruct (exec_all _ _ _ _ _ H) as (B & _ & T & HT).
  assert (Hi : exists cl p, bc_ths cf !! i = Some (cl, p) /\ exists o, recv_args cl = Some (ctx, s, o)).
  { destruct Hr as [[o Hr]|Hr]; apply (base_call _ _ B) in Hr as (_ & p & Hp); eauto. }
  destruct Hi as (cl & p & Hi & o & Ha).
  assert (Hs : is_Some (bs_heap (bc_st cf) !! s)).
  { eapply has_sub_exec; [done..|]. by destruct cl; simplify_eq/=. }
  destruct Hs as [sb Hs]. exists (q_msg (s_queue sb)).
  transitivity (taken_by i es); [|transitivity (taken (q_msg (s_queue sb)) es)].
  - apply sublist_prefix. eapply handled_taken; [done|]. by eapply rlog_exec.
  - apply taken_by_sublist. intros c' m Hm.
    destruct (ch_take _ _ _ HT _ _ _ Hm) as (? & ? & ? & ? & ? & ? & ? & ? & ? & <-). by simplify_eq.
  - apply sublist_prefix. by eapply c46_fifo.
Qed.
Print Assumptions c46_receiver_order.
(** two senders, both messages handled in order *)
Example c46_case : exists cf, run_of demo_opts demo_ls = Some (cf, demo_es) /\
  sent 2 demo_es = [msg 1; msg 2] /\ taken 2 demo_es = [msg 1; msg 2] /\
  handlings demo_es = [(5, msg 1); (5, msg 2)] /\ receives demo_es 5 0 3 /\ subscribed demo_es 0 "t".
Proof.
  destruct (events_of_some _ _ _ demo) as [cf Hcf]. exists cf. split; [exact Hcf|]. split_and!.
  1-3: vm_compute; reflexivity.
  - right. listed.
  - exists 2. split; listed.
Qed.

(** ** C47 *)
Theorem c47_capacity : forall uuid l ls cf es,
  bexec (broker_init uuid (broker_den <$> l)) ls = Some (cf, es) ->
  forall c, (length (sent c es) <= length (taken c es) + capacity_of l)%nat.
Proof.
  intros uuid l ls cf es H c. destruct (exec_all _ _ _ _ _ H) as (_ & _ & T & HT).
  rewrite (ch_acct _ _ _ HT c), app_length. apply Nat.add_le_mono_l. unfold buffer.
  destruct (bs_msgs (bc_st cf) !! c) as [buf|] eqn:E; simpl; [|lia].
  rewrite <- (capacity_exec _ _ _ _ _ H). by eapply (ch_cap _ _ _ HT).
Qed.
Print Assumptions c47_capacity.
(** A waiting Pub can put its message into the channel exactly if there is room. *)
Theorem c47_full_waits : forall uuid l ls cf es,
  bexec (broker_init uuid (broker_den <$> l)) ls = Some (cf, es) -> crashed cf = false ->
  forall i ctx t m o q e d, bc_ths cf !! i = Some (CPub ctx t m o, PPubWait q e d) ->
  (length (sent (q_msg q) es) < length (taken (q_msg q) es) + capacity_of l)%nat <->
  exists cf', bstep cf (LStep i ChSend) = Some (cf', [EAct i (ASend (q_msg q) m); ERet i (Ok None)]).
Proof.
  intros uuid l ls cf es H Hc i ctx t m o q e d Hi. destruct (exec_all _ _ _ _ _ H) as (_ & _ & T & HT).
  rewrite (ch_acct _ _ _ HT (q_msg q)), app_length, <- (capacity_exec _ _ _ _ _ H).
  destruct (ch_ty _ _ _ HT) as [Hty Hpc].
  assert (E : is_Some (bs_msgs (bc_st cf) !! q_msg q)).
  { apply (sty_dom _ _ Hty). specialize (Hpc _ _ _ Hi). simpl in Hpc. by eexists. }
  destruct E as [buf E]. unfold buffer. rewrite E. cbn [default].
  unfold bstep. rewrite Hc, Hi. cbn [tstep]. rewrite E.
  destruct (Nat.ltb_spec (length buf) (cap (bc_st cf))) as [Hl|Hl].
  - split; intros _; [by eexists|]. cbn [default from_option id]. lia.
  - split; [cbn [default from_option id]; lia|]. intros [cf' ?]. done.
Qed.
Print Assumptions c47_full_waits.
(** two messages fill the channel, the third Pub cannot send *)
Definition full_ls : list label :=
  open_steps 0 1 ++ pub_steps 2 2 "t" (msg 1) ChSend ++ pub_steps 3 2 "t" (msg 2) ChSend ++
  [LCall (CPub 2 "t" (msg 3) []); LStep 4 ChGo; LStep 4 ChGo; LStep 4 ChGo].
Example c47_case : exists cf es d, run_of demo_opts full_ls = Some (cf, es) /\ crashed cf = false /\
  bc_ths cf !! 4 = Some (CPub 2 "t" (msg 3) [], PPubWait (Queue 2 (Some 0)) (Some 0) d) /\
  sent 2 es = [msg 1; msg 2] /\ taken 2 es = [] /\ capacity_of demo_opts = 2 /\
  bstep cf (LStep 4 ChSend) = None.
Proof. do 3 eexists. split; [vm_compute; reflexivity|]. split_and!; vm_compute; reflexivity. Qed.

(** ** C48 *)
Theorem c48_failed_pub : forall uuid opts ls cf es,
  bexec (broker_init uuid opts) ls = Some (cf, es) ->
  forall i ctx t m o e, ECall i (CPub ctx t m o) ∈ es -> ERet i (Err e) ∈ es ->
  (forall c m', EAct i (ASend c m') ∉ es) /\
  forall J, Forall2 (from_pub es) (handlings es) J -> i ∉ J.
Proof.
  intros uuid opts ls cf es H i ctx t m o e Hc Hr. destruct (exec_all _ _ _ _ _ H) as (B & _ & T & HT).
  assert (Hn : forall c m', EAct i (ASend c m') ∉ es).
  { intros c m' Hs. destruct (ch_send _ _ _ HT _ _ _ Hs) as (? & ? & ? & Hi & _).
    apply (base_ret _ _ B) in Hr as (? & Hr). by simplify_eq. }
  split; [done|]. intros J HJ Hin. apply elem_of_list_lookup in Hin as [k Hk].
  destruct (Forall2_lookup_r _ _ _ _ _ HJ Hk) as (h & _ & c & Hs & _). by eapply Hn.
Qed.
Print Assumptions c48_failed_pub.
(** the third Pub of [full_ls] times out after five seconds *)
Example c48_case : exists cf es, run_of demo_opts (full_ls ++ [LTick 5000000000; LStep 4 ChTimeout]) = Some (cf, es) /\
  ECall 4 (CPub 2 "t" (msg 3) []) ∈ es /\ ERet 4 (Err BrokerErrTimeout) ∈ es.
Proof. do 2 eexists. split; [vm_compute; reflexivity|]. split; listed. Qed.

(** ** C49 *)
(** Pub returns nil for a cancelled context and for a closed broker. *)
Definition accepted (es : list event) (i : nat) : Prop := exists c m, EAct i (ASend c m) ∈ es.
Theorem c49_successful_pub_refuted : exists l ls1 ls2 cf1 es1 cf2 es2,
  run_of l ls1 = Some (cf1, es1) /\ run_of l ls2 = Some (cf2, es2) /\
  ECall 2 (CPub 2 "t" (msg 1) []) ∈ es1 /\ ERet 2 (Ok None) ∈ es1 /\ ~ accepted es1 2 /\ ECancel 2 ∈ es1 /\
  ECall 2 (CPub 2 "t" (msg 1) []) ∈ es2 /\ ERet 2 (Ok None) ∈ es2 /\ ~ accepted es2 2 /\ closed_in es2.
Proof.
  exists demo_opts, (open_steps 0 1 ++ [LCancel 2] ++ pub_steps 2 2 "t" (msg 1) ChCtx ++ [LStep 2 ChGo]).
  exists (open_steps 0 1 ++ [LCall (CPub 2 "t" (msg 1) []); LStep 2 ChGo; LStep 2 ChGo; LStep 2 ChGo;
          LCall CClose; LStep 3 ChGo; LStep 2 ChExit]).
  do 4 eexists. split; [vm_compute; reflexivity|]. split; [vm_compute; reflexivity|].
  split_and!; try listed.
  - intros (c & m & H). set_solver.
  - intros (c & m & H). set_solver.
  - exists 3. listed.
Qed.
Print Assumptions c49_successful_pub_refuted.
(** These are the only ways: [es2] is what happens from the call on. *)
Theorem c49_successful_pub_partial : forall uuid opts ls1 cf1 es1 ls2 cf2 es2 ctx t m o r,
  bexec (broker_init uuid opts) ls1 = Some (cf1, es1) ->
  bexec cf1 (LCall (CPub ctx t m o) :: ls2) = Some (cf2, es2) ->
  ERet (length (bc_ths cf1)) (Ok r) ∈ es1 ++ es2 ->
  (exists c, EAct (length (bc_ths cf1)) (ASend c m) ∈ es2) \/ ECancel ctx ∈ es1 ++ es2 \/ closed_in es2.
Proof.
  intros uuid opts ls1 cf1 es1 ls2 cf2 es2 ctx t m o r H1 H2 Hr.
  destruct (call_from (length (bc_ths cf1)) (CPub ctx t m o) (pub_path ctx m (length (bc_ths cf1)) es1)
    _ _ _ _ _ _ _ _ H1 H2 eq_refl) as (B & _ & p & Hp & HP).
  - done.
  - intros. by eapply pub_path_step.
  - apply (base_ret _ _ B) in Hr as (c & Hr). by simplify_eq.
Qed.
Print Assumptions c49_successful_pub_partial.
Example c49_case : exists cf1 es1 cf2 es2,
  run_of demo_opts (open_steps 0 1) = Some (cf1, es1) /\
  bexec cf1 (pub_steps 2 2 "t" (msg 1) ChSend) = Some (cf2, es2) /\
  length (bc_ths cf1) = 2 /\ ERet 2 (Ok None) ∈ es1 ++ es2 /\ EAct 2 (ASend 2 (msg 1)) ∈ es2.
Proof.
  do 4 eexists. split; [vm_compute; reflexivity|]. split; [vm_compute; reflexivity|].
  split; [reflexivity|]. split; listed.
Qed.

(** ** C50 *)
(** A timed out Receive drops a message; the broker is open all the time. *)
Definition drop_ls : list label :=
  open_steps 0 1 ++ sub_steps 2 "t" ++
  [LCall (CRecv 2 0 [broker_with_sub_timeout 1]); LStep 3 ChGo; LTick 1] ++
  pub_steps 4 3 "t" (msg 1) ChSend ++ [LStep 3 ChTimeout; LStep 3 ChRecv].
Theorem c50_no_loss_refuted : exists l ls cf es,
  run_of l ls = Some (cf, es) /\ ~ closed_in es /\ sent 2 es = [msg 1] /\ taken 2 es = [msg 1] /\
  handlings es = [] /\ ERet 4 (Ok None) ∈ es /\ ERet 3 (Err BrokerErrTimeout) ∈ es.
Proof.
  exists demo_opts, drop_ls. do 2 eexists. split; [vm_compute; reflexivity|].
  split; [|split_and!; try (vm_compute; reflexivity); listed]. intros (k & H). set_solver.
Qed.
Print Assumptions c50_no_loss_refuted.
(** What a receiving call takes it hands to its handler, except for one more
    message if it returns ErrTimeout. *)
Theorem c50_no_loss_partial : forall uuid opts ls cf es,
  bexec (broker_init uuid opts) ls = Some (cf, es) ->
  forall i, taken_by i es = handled_by i es \/
    (ERet i (Err BrokerErrTimeout) ∈ es /\ exists m, taken_by i es = handled_by i es ++ [m]).
Proof.
  intros uuid opts ls cf es H i. destruct (exec_all _ _ _ _ _ H) as (B & _ & T & HT).
  rewrite taken_by_acts, handled_by_acts.
  destruct (bc_ths cf !! i) as [[c p]|] eqn:Hi.
  - pose proof (rlog_exec _ _ _ _ _ H _ _ _ Hi) as Hl. unfold rlog in Hl.
    destruct (recv_args c) as [[[? ?] ?]|]; [|left; by destruct Hl as (-> & -> & _)].
    destruct p; unfold quiet in Hl; try (left; by destruct Hl as (-> & _)).
    + left. by destruct Hl as (hd & -> & -> & _).
    + destruct Hl as [(hd & m & a & -> & -> & _)|[(-> & _ & _ & Hl)|(_ & -> & _)]]; [by left| |by left].
      destruct Hl as [->|[m ->]]; [by left|]. right. split; [|by exists m]. apply (base_ret _ _ B). eauto.
  - left. rewrite (acts_by_new _ _ _ B); [done|]. by apply lookup_ge_None.
Qed.
Print Assumptions c50_no_loss_partial.
(** Until then it stays in its channel: what is not taken is what can be received
    next, in order. *)
Theorem c50_available_partial : forall uuid opts ls cf es,
  bexec (broker_init uuid opts) ls = Some (cf, es) -> crashed cf = false ->
  forall i c d ctx s o sb m rest, bc_ths cf !! i = Some (c, PRecvWait d) -> recv_args c = Some (ctx, s, o) ->
  bs_heap (bc_st cf) !! s = Some sb ->
  sent (q_msg (s_queue sb)) es = taken (q_msg (s_queue sb)) es ++ m :: rest ->
  exists cf', bstep cf (LStep i ChRecv) =
    Some (cf', [EAct i (ATake (q_msg (s_queue sb)) m); EAct i (AHandle m)]).
Proof.
  intros uuid opts ls cf es H Hc i c d ctx s o sb m rest Hi Ha Hs E.
  destruct (exec_all _ _ _ _ _ H) as (_ & _ & T & HT). rewrite (ch_acct _ _ _ HT) in E.
  apply app_inv_head in E. unfold buffer in E.
  destruct (bs_msgs (bc_st cf) !! q_msg (s_queue sb)) as [buf|] eqn:Eb; simpl in E; [|done].
  unfold bstep. rewrite Hc, Hi. cbn [tstep]. rewrite Ha, Hs, Eb, E. by eexists.
Qed.
Print Assumptions c50_available_partial.

(** ** C51 *)
Theorem c51_refused : forall uuid opts ls1 cf1 es1 c ls2 cf2 es2 i,
  bexec (broker_init uuid opts) ls1 = Some (cf1, es1) -> ~ in_session es1 ->
  (exists ctx t m o, c = CPub ctx t m o) \/ (exists t, c = CSub t) ->
  i = length (bc_ths cf1) ->
  bexec cf1 (LCall c :: ls2) = Some (cf2, es2) -> ~ opened_in es2 ->
  (forall r, ERet i r ∈ es1 ++ es2 -> r = Err BrokerErrNotConnected) /\
  (forall a, EAct i a ∉ es2) /\
  (forall ch cf3 es3, bstep cf2 (LStep i ch) = Some (cf3, es3) ->
     bc_st cf3 = bc_st cf2 /\ es3 = [ERet i (Err BrokerErrNotConnected)]).
Proof.
  intros uuid opts ls1 cf1 es1 c ls2 cf2 es2 i H1 Hn Hc Hi H2 Ho.
  assert (Hns : needs_session c = true) by (by destruct Hc as [(?&?&?&?&->)|(?&->)]).
  destruct (sess_exec _ _ _ _ _ H1) as [_ S1].
  assert (Hd : m_connected (bs_mem (bc_st cf1)) = false).
  { destruct (m_connected (bs_mem (bc_st cf1))) eqn:E; [|done]. by apply (se_conn _ _ S1) in E. }
  destruct (call_from i c (refused c i) _ _ _ _ _ _ _ _ H1 H2 Hi) as (B & _ & p & Hp & HP).
  - right. split; [done|]. split; [by left|]. set_solver.
  - intros. by eapply refused_step.
  - destruct HP as [?|(Hd2 & Hpp & Ha)]; [done|]. split_and!.
    + intros r Hr. apply (base_ret _ _ B) in Hr as (c' & Hr). destruct Hpp as [->| ->]; simplify_eq; [|done].
      by destruct Hc as [(?&?&?&?&->)|(?&->)].
    + done.
    + intros ch cf3 es3. unfold bstep. destruct (crashed cf2); [done|]. rewrite Hp.
      destruct Hpp as [->| ->]; [|by destruct ch].
      destruct Hc as [(?&?&?&?&->)|(?&->)]; cbn [pc_start tstep]; destruct ch; try done;
        (destruct (bs_locked (bc_st cf2)); [done|]); rewrite Hd2; intros [= <- <-]; done.
Qed.
Print Assumptions c51_refused.
Example c51_case : exists cf1 es1 cf2 es2,
  run_of demo_opts (open_steps 0 1 ++ [LCall CClose; LStep 2 ChGo]) = Some (cf1, es1) /\ ~ in_session es1 /\
  bexec cf1 [LCall (CSub "t"); LStep 3 ChGo] = Some (cf2, es2) /\ length (bc_ths cf1) = 3 /\
  ~ opened_in es2 /\ ERet 3 (Err BrokerErrNotConnected) ∈ es2.
Proof.
  do 4 eexists. split; [vm_compute; reflexivity|]. split; [by vm_compute|].
  split; [vm_compute; reflexivity|]. split; [reflexivity|]. split; [|listed].
  intros (k & H). set_solver.
Qed.
