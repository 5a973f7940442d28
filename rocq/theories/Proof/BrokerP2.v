(** Channels of the broker: accounting, capacity, topics, who sent and took what. *)
From Verif.Proof Require Export BrokerP.

(** What get_queue and Sub's section do to each part of the state. *)
Definition new_queue (b : bstate) : queue := Queue (bs_next b) (m_exit (bs_mem b)).
Definition sub_inner (b : bstate) (t : string) : gmap string nat :=
  let old := default ∅ (m_subs (bs_mem b) !! t) in
  match old !! bs_uuid b (bs_cnt b) with None => ∅ | Some _ => old end.
Definition sub_queue (b : bstate) (t : string) : queue :=
  match m_topics (bs_mem b) !! t with Some q => q | None => new_queue b end.
(** channel number of the exit channel of the subscriber *)
Definition sub_exit (b : bstate) (t : string) : nat :=
  match m_topics (bs_mem b) !! t with Some q => bs_next b | None => S (bs_next b) end.
Definition sub_new (b : bstate) (t : string) : subscriber :=
  Subscriber (bs_uuid b (bs_cnt b)) t true (sub_queue b t) (m_ctl (bs_mem b)) (sub_exit b t).
Definition sub_topics (b : bstate) (t : string) : gmap string queue :=
  match m_topics (bs_mem b) !! t with Some q => m_topics (bs_mem b) | None => <[t := new_queue b]> (m_topics (bs_mem b)) end.
Definition sub_msgs (b : bstate) (t : string) : gmap nat (list message) :=
  match m_topics (bs_mem b) !! t with Some q => bs_msgs b | None => <[bs_next b := []]> (bs_msgs b) end.
Lemma sub_make_eq b t :
  (sub_make b t).1 =
    BState (Memory (m_connected (bs_mem b)) (m_size (bs_mem b)) (m_timeout (bs_mem b))
              (<[t := <[bs_uuid b (bs_cnt b) := length (bs_heap b)]> (sub_inner b t)]> (m_subs (bs_mem b)))
              (sub_topics b t) (m_exit (bs_mem b)) (m_ctl (bs_mem b)))
      (bs_locked b) (S (sub_exit b t)) (bs_closed b) (sub_msgs b t) (bs_ctls b)
      (bs_heap b ++ [sub_new b t])
      (bs_cancelled b) (bs_now b) (bs_uuid b) (S (bs_cnt b)).
Proof.
  unfold sub_make, get_queue, sub_topics, sub_msgs, sub_new, sub_exit, sub_queue. simpl.
  destruct (m_topics (bs_mem b) !! t) eqn:E; simpl; done.
Qed.
Definition pub_make (b : bstate) (t : string) : bstate :=
  match m_topics (bs_mem b) !! t with
  | Some q => b
  | None =>
     BState (mem_topics (bs_mem b) (<[t := new_queue b]> (m_topics (bs_mem b))))
       (bs_locked b) (S (bs_next b)) (bs_closed b) (<[bs_next b := []]> (bs_msgs b)) (bs_ctls b) (bs_heap b)
       (bs_cancelled b) (bs_now b) (bs_uuid b) (bs_cnt b)
  end.
Lemma get_queue_1 b t : (get_queue b t).1 = sub_queue b t.
Proof. unfold get_queue, sub_queue. by destruct (m_topics (bs_mem b) !! t). Qed.
Lemma get_queue_2 b t : (get_queue b t).2 = pub_make b t.
Proof. unfold get_queue, pub_make. by destruct (m_topics (bs_mem b) !! t). Qed.
Global Opaque get_queue sub_make.

(** Close deletes the topics that have an entry in subs. *)
Lemma close_topics_lookup m t :
  close_topics m !! t = match m_subs m !! t with Some _ => None | None => m_topics m !! t end.
Proof.
  unfold close_topics.
  assert (G : forall ks ts, fold_left (fun (ts : gmap string queue) t => delete t ts) ks ts !! t =
    if bool_decide (t ∈ ks) then None else ts !! t).
  { induction ks as [|k ks IH]; intros ts; simpl; [done|]. rewrite IH.
    destruct (decide (t ∈ ks)).
    - rewrite !bool_decide_eq_true_2 by set_solver. done.
    - rewrite (bool_decide_eq_false_2 (t ∈ ks)) by done. destruct (decide (t = k)) as [->|].
      + rewrite bool_decide_eq_true_2 by set_solver. by rewrite lookup_delete.
      + rewrite bool_decide_eq_false_2 by set_solver. by rewrite lookup_delete_ne. }
  rewrite G. destruct (m_subs m !! t) as [x|] eqn:E.
  - rewrite bool_decide_eq_true_2; [done|]. apply elem_of_list_fmap. exists (t, x). split; [done|].
    by apply elem_of_map_to_list.
  - rewrite bool_decide_eq_false_2; [done|]. rewrite elem_of_list_fmap. intros ([t' x] & -> & H).
    apply elem_of_map_to_list in H. simpl in E. congruence.
Qed.
Global Opaque close_topics.

(** Size and timeout never change. *)
Definition config (m : memory) (cf : bconf) (_ : list event) : Prop :=
  m_size (bs_mem (bc_st cf)) = m_size m /\ m_timeout (bs_mem (bc_st cf)) = m_timeout m.
Lemma tr_config b c p ch b' p' sp acts : tr b c p ch b' p' sp acts ->
  m_size (bs_mem b') = m_size (bs_mem b) /\ m_timeout (bs_mem b') = m_timeout (bs_mem b).
Proof.
  destruct 1; try done.
  - rewrite get_queue_2. unfold pub_make. by destruct (m_topics (bs_mem b) !! t).
  - by rewrite sub_make_eq.
Qed.
Lemma config_step m cf es l cf' es' : config m cf es -> step cf l cf' es' -> config m cf' (es ++ es').
Proof.
  unfold config. destruct 2; simpl in *; try done.
  match goal with H : tr _ _ _ _ _ _ _ _ |- _ => apply tr_config in H as [-> ->] end. done.
Qed.
Lemma config_exec uuid opts ls cf es : bexec (broker_init uuid opts) ls = Some (cf, es) ->
  config (memory_new opts) cf es.
Proof. apply bexec_ind; [done|]. intros; by eapply config_step. Qed.

(** Topics of message channels. *)
Record styped (T : gmap nat string) (b : bstate) : Prop := {
  sty_dom : forall c, is_Some (T !! c) <-> is_Some (bs_msgs b !! c);
  sty_lt : forall c, is_Some (bs_msgs b !! c) -> c < bs_next b;
  sty_topics : forall t q, m_topics (bs_mem b) !! t = Some q -> T !! q_msg q = Some t;
  sty_heap : forall s sb, bs_heap b !! s = Some sb -> T !! q_msg (s_queue sb) = Some (s_topic sb);
}.
Definition pctyped (T : gmap nat string) (c : call) (p : pc) : Prop :=
  match c, p with
  | CPub _ t _ _, PPubSel q | CPub _ t _ _, PPubWait q _ _ => T !! q_msg q = Some t
  | _, _ => True
  end.
Definition addT (T : gmap nat string) (b : bstate) (t : string) : gmap nat string :=
  match m_topics (bs_mem b) !! t with Some _ => T | None => <[bs_next b := t]> T end.
Lemma addT_sub T b t : styped T b -> T ⊆ addT T b t.
Proof.
  intros S. unfold addT. destruct (m_topics (bs_mem b) !! t); [done|].
  apply insert_subseteq. destruct (T !! bs_next b) eqn:E; [|done].
  assert (H : is_Some (bs_msgs b !! bs_next b)) by (apply (sty_dom _ _ S); eauto).
  apply (sty_lt _ _ S) in H. lia.
Qed.
Lemma addT_queue T b t : styped T b -> addT T b t !! q_msg (sub_queue b t) = Some t.
Proof.
  intros S. unfold addT, sub_queue. destruct (m_topics (bs_mem b) !! t) eqn:E.
  - by apply (sty_topics _ _ S).
  - simpl. by rewrite lookup_insert.
Qed.
Lemma styped_pub T b t : styped T b -> styped (addT T b t) (pub_make b t).
Proof.
  intros S. pose proof (addT_sub T b t S) as Hsub. unfold addT, pub_make in *.
  destruct (m_topics (bs_mem b) !! t) eqn:E; [done|]. split; simpl.
  - intros c. destruct (decide (c = bs_next b)) as [->|].
    + rewrite !lookup_insert. split; eauto.
    + rewrite !lookup_insert_ne by done. apply (sty_dom _ _ S).
  - intros c. destruct (decide (c = bs_next b)) as [->|].
    + lia.
    + rewrite lookup_insert_ne by done. intros H. apply (sty_lt _ _ S) in H. lia.
  - intros t' q. destruct (decide (t' = t)) as [->|].
    + rewrite lookup_insert. intros [= <-]. simpl. by rewrite lookup_insert.
    + rewrite lookup_insert_ne by done. intros H. apply (sty_topics _ _ S) in H.
      by eapply lookup_weaken.
  - intros s sb H. apply (sty_heap _ _ S) in H. by eapply lookup_weaken.
Qed.
Lemma styped_sub T b t : styped T b -> styped (addT T b t) (sub_make b t).1.
Proof.
  intros S. pose proof (styped_pub T b t S) as S'. pose proof (addT_queue T b t S) as Hq.
  rewrite sub_make_eq. revert S' Hq. unfold addT, pub_make, sub_queue, sub_topics, sub_msgs, sub_exit, sub_new, sub_queue.
  destruct (m_topics (bs_mem b) !! t) eqn:E; intros S' Hq; split; simpl.
  - apply (sty_dom _ _ S').
  - intros c H. apply (sty_lt _ _ S') in H. lia.
  - apply (sty_topics _ _ S').
  - intros s sb. rewrite lookup_app_Some, list_lookup_singleton_Some.
    intros [H|(? & ? & <-)]; [by apply (sty_heap _ _ S') in H|done].
  - apply (sty_dom _ _ S').
  - intros c H. apply (sty_lt _ _ S') in H. simpl in H. lia.
  - apply (sty_topics _ _ S').
  - intros s sb. rewrite lookup_app_Some, list_lookup_singleton_Some.
    intros [H|(? & ? & <-)]; [by apply (sty_heap _ _ S') in H|done].
Qed.
Lemma styped_tr T b c p ch b' p' sp acts :
  styped T b -> pctyped T c p -> tr b c p ch b' p' sp acts ->
  exists T', T ⊆ T' /\ styped T' b' /\ pctyped T' c p'.
Proof.
  intros S P H.
  assert (G : forall c buf l, bs_msgs b !! c = Some l -> styped T (set_msgs b (<[c := buf]> (bs_msgs b)))).
  { intros c0 buf l Hc. destruct S as [S1 S2 S3 S4]. split; simpl; try done.
    - intros c'. rewrite S1. destruct (decide (c' = c0)) as [->|]; [|by rewrite lookup_insert_ne].
      rewrite lookup_insert. split; eauto.
    - intros c'. destruct (decide (c' = c0)) as [->|]; [|rewrite lookup_insert_ne by done; apply S2].
      intros _. apply S2. eauto. }
  destruct H; try (exists T; split; [done|]; split; [by destruct S; split|first [done|by destruct c]]).
  - (* open set *) exists T. split; [done|]. split; [|by destruct c].
    destruct S; split; simpl; auto. intros c' H'. unfold lt in *. specialize (sty_lt0 _ H'). lia.
  - exists T. split; [done|]. split; [|done].
    destruct S; split; simpl; auto. intros c' H'. specialize (sty_lt0 _ H'). lia.
  - (* close *) exists T. split; [done|]. split; [|by destruct c].
    destruct S as [S1 S2 S3 S4]; split; simpl; auto. intros t q. rewrite close_topics_lookup.
    destruct (m_subs (bs_mem b) !! t); [done|]. apply S3.
  - rewrite get_queue_1, get_queue_2. exists (addT T b t).
    split; [by apply addT_sub|]. split; [by apply styped_pub|]. simpl. by apply addT_queue.
  - exists T. split; [done|]. split; [by eapply G|done].
  - exists (addT T b t). split; [by apply addT_sub|]. split; [by apply styped_sub|done].
  - exists T. split; [done|]. split; [|done].
    destruct S as [S1 S2 S3 S4]; split; simpl; auto. intros s' sb'.
    rewrite list_lookup_insert_Some. intros [(-> & <- & _)|[_ H']]; simpl; by eapply S4.
  - exists T. split; [done|]. split; [by eapply G|by destruct c].
  - exists T. split; [done|]. split; [by eapply G|by destruct c].
Qed.
Definition ctyped (T : gmap nat string) (cf : bconf) : Prop :=
  styped T (bc_st cf) /\ forall i c p, bc_ths cf !! i = Some (c, p) -> pctyped T c p.
Lemma pctyped_mono T T' c p : T ⊆ T' -> pctyped T c p -> pctyped T' c p.
Proof. intros Hs. destruct c; try done. destruct p; try done; simpl; intros; by eapply lookup_weaken. Qed.
Lemma pctyped_start T c : pctyped T c (pc_start c).
Proof. by destruct c. Qed.
Lemma ctyped_step T cf l cf' es' : ctyped T cf -> step cf l cf' es' ->
  exists T', T ⊆ T' /\ ctyped T' cf'.
Proof.
  intros [S P] H. destruct H as [c Hc|ctx|d|i ch c p b' p' sp acts Hi Ht|
    i j ctx t m o q e d cj ctxj s oj sb dj Hi Hj Ha Hs Hcap Hq|
    i j ctx t m o q e d cj ctxj s oj sb Hi Hj Ha Hs Hcap Hq].
  - exists T. split; [done|]. split; [done|]. simpl. intros i c' p. rewrite ths_call.
    intros [H|[-> [= -> ->]]]; [by eapply P|apply pctyped_start].
  - exists T. split; [done|]. split; [by destruct S; split|done].
  - exists T. split; [done|]. split; [by destruct S; split|done].
  - destruct (styped_tr T _ _ _ _ _ _ _ _ S (P _ _ _ Hi) Ht) as (T' & Hsub & S' & P').
    exists T'. split; [done|]. split; [done|]. simpl. intros k c' p0.
    rewrite ths_step by by eapply lookup_lt_Some.
    intros [[-> [= -> ->]]|[[? ?]|[-> (c0 & -> & [= -> ->])]]]; [done| |apply pctyped_start].
    eapply pctyped_mono; eauto.
  - exists T. split; [done|]. split; [done|]. simpl. intros k c' p0.
    rewrite ths_meet by (by eapply lookup_lt_Some || by eapply meet_ne).
    intros [[-> [= -> ->]]|[[-> [= -> ->]]|(? & ? & ?)]]; [by destruct cj|done|by eapply P].
  - exists T. split; [done|]. split; [done|]. simpl. intros k c' p0.
    rewrite ths_meet by (by eapply lookup_lt_Some || by eapply meet_ne).
    intros [[-> [= -> ->]]|[[-> [= -> ->]]|(? & ? & ?)]]; [by destruct cj|done|by eapply P].
Qed.

(** Accounting of messages. *)
Lemma sent_app c es es' : sent c (es ++ es') = sent c es ++ sent c es'.
Proof. apply omap_app. Qed.
Lemma taken_app c es es' : taken c (es ++ es') = taken c es ++ taken c es'.
Proof. apply omap_app. Qed.
Lemma senders_app es es' : senders (es ++ es') = senders es ++ senders es'.
Proof. apply omap_app. Qed.
Definition buffer (b : bstate) (c : nat) : list message := default [] (bs_msgs b !! c).
Lemma sent_ret c i p : sent c (ret_event i p) = [].
Proof. by destruct p. Qed.
Lemma taken_ret c i p : taken c (ret_event i p) = [].
Proof. by destruct p. Qed.
Lemma styped_fresh T b c : styped T b -> bs_next b <= c -> bs_msgs b !! c = None.
Proof.
  intros S Hc. destruct (bs_msgs b !! c) eqn:E; [|done].
  assert (H : c < bs_next b) by (apply (sty_lt _ _ S); eauto). lia.
Qed.

Lemma tr_acct T b c p ch b' p' sp acts i c0 : styped T b -> tr b c p ch b' p' sp acts ->
  buffer b c0 ++ sent c0 ((EAct i <$> acts) ++ ret_event i p') =
  taken c0 ((EAct i <$> acts) ++ ret_event i p') ++ buffer b' c0.
Proof.
  intros S H. rewrite sent_app, taken_app, sent_ret, taken_ret, !app_nil_r. unfold buffer.
  destruct H; simpl; rewrite ?app_nil_r; try done.
  - rewrite get_queue_2. unfold pub_make. destruct (m_topics (bs_mem b) !! t); simpl; [done|].
    destruct (decide (c0 = bs_next b)) as [->|]; [|by rewrite lookup_insert_ne].
    rewrite lookup_insert. by rewrite (styped_fresh T b _ S).
  - unfold sent, taken. simpl. destruct (Nat.eqb_spec (q_msg q) c0) as [<-|]; simpl.
    + rewrite lookup_insert. match goal with H : bs_msgs b !! _ = _ |- _ => by rewrite H end.
    + rewrite lookup_insert_ne by done. by rewrite app_nil_r.
  - rewrite sub_make_eq. simpl. unfold sub_msgs. destruct (m_topics (bs_mem b) !! t); simpl; [done|].
    destruct (decide (c0 = bs_next b)) as [->|]; [|by rewrite lookup_insert_ne].
    rewrite lookup_insert. by rewrite (styped_fresh T b _ S).
  - unfold sent, taken. simpl. rewrite ?app_nil_r. destruct (Nat.eqb_spec (q_msg (s_queue sb)) c0) as [<-|]; simpl.
    + rewrite lookup_insert. match goal with H : bs_msgs b !! _ = _ |- _ => by rewrite H end.
    + by rewrite lookup_insert_ne.
  - unfold sent, taken. simpl. rewrite ?app_nil_r. destruct (Nat.eqb_spec (q_msg (s_queue sb)) c0) as [<-|]; simpl.
    + rewrite lookup_insert. match goal with H : bs_msgs b !! _ = _ |- _ => by rewrite H end.
    + by rewrite lookup_insert_ne.
Qed.

(** Capacity. *)
Definition capped (b : bstate) : Prop := forall c buf, bs_msgs b !! c = Some buf -> length buf <= cap b.
Lemma tr_capped b c p ch b' p' sp acts : capped b -> tr b c p ch b' p' sp acts -> capped b'.
Proof.
  intros S H. assert (Hcap : cap b' = cap b) by (apply tr_config in H as [E _]; unfold cap; by rewrite E).
  intros c0 buf. rewrite Hcap. clear Hcap.
  destruct H; simpl; try apply S.
  - rewrite get_queue_2. unfold pub_make. destruct (m_topics (bs_mem b) !! t); simpl; [apply S|].
    rewrite lookup_insert_Some. intros [[_ <-]|[_ H']]; [simpl; lia|by eapply S].
  - rewrite lookup_insert_Some. intros [[_ <-]|[_ H']]; [|by eapply S]. rewrite app_length. simpl. lia.
  - rewrite sub_make_eq. simpl. unfold sub_msgs. destruct (m_topics (bs_mem b) !! t); simpl; [apply S|].
    rewrite lookup_insert_Some. intros [[_ <-]|[_ H']]; [simpl; lia|by eapply S].
  - rewrite lookup_insert_Some. intros [[_ <-]|[_ H']]; [|by eapply S].
    match goal with H : bs_msgs b !! _ = _ |- _ => apply S in H; simpl in H; lia end.
  - rewrite lookup_insert_Some. intros [[_ <-]|[_ H']]; [|by eapply S].
    match goal with H : bs_msgs b !! _ = _ |- _ => apply S in H; simpl in H; lia end.
Qed.

(** Who can send, take and handle. *)
Lemma tr_send b c p ch b' p' sp acts x m : tr b c p ch b' p' sp acts -> ASend x m ∈ acts ->
  acts = [ASend x m] /\ p' = PDone (Ok None) /\
  exists ctx t o q e d, c = CPub ctx t m o /\ p = PPubWait q e d /\ x = q_msg q.
Proof. destruct 1; intros H'; set_solver. Qed.
Lemma tr_take b c p ch b' p' sp acts x m : tr b c p ch b' p' sp acts -> ATake x m ∈ acts ->
  exists ctx s o sb, recv_args c = Some (ctx, s, o) /\ bs_heap b !! s = Some sb /\ x = q_msg (s_queue sb) /\
  ((exists d, p = PRecvWait d) /\ p' = PRecvHandle m /\ acts = [ATake x m; AHandle m] \/
   p = PRecvDrop /\ p' = PDone (Err BrokerErrTimeout) /\ acts = [ATake x m]).
Proof.
  destruct 1; intros H'; try set_solver.
  assert (x = q_msg (s_queue sb) /\ m0 = m) as [-> ->] by set_solver. rewrite recv_return_err.
  exists ctx, s, o, sb. split_and!; [done..|]. by right.
Qed.
Lemma tr_handled b c p ch b' p' sp acts m : tr b c p ch b' p' sp acts -> AHandle m ∈ acts ->
  exists x, acts = [ATake x m; AHandle m].
Proof. destruct 1; intros H'; set_solver. Qed.

(** Subscribers only change by becoming inactive; new ones come from Sub. *)
Definition same_sub (sb sb' : subscriber) : Prop :=
  s_id sb' = s_id sb /\ s_topic sb' = s_topic sb /\ s_queue sb' = s_queue sb /\ s_ctl sb' = s_ctl sb /\
  s_exit sb' = s_exit sb /\ (s_active sb = false -> s_active sb' = false).
Lemma same_sub_refl sb : same_sub sb sb.
Proof. by split_and!. Qed.
Lemma tr_heap b c p ch b' p' sp acts s sb : tr b c p ch b' p' sp acts -> bs_heap b !! s = Some sb ->
  exists sb', bs_heap b' !! s = Some sb' /\ same_sub sb sb'.
Proof.
  intros H Hs. destruct H; simpl; try (by exists sb; split; [done|apply same_sub_refl]).
  - rewrite get_queue_2. unfold pub_make.
    destruct (m_topics (bs_mem b) !! t); simpl; exists sb; (split; [done|apply same_sub_refl]).
  - rewrite sub_make_eq. simpl. exists sb. split; [by apply lookup_app_l_Some|apply same_sub_refl].
  - destruct (decide (s = s0)) as [->|].
    + simplify_eq. rewrite list_lookup_insert by by eapply lookup_lt_Some. eexists. split; [done|]. by split_and!.
    + rewrite list_lookup_insert_ne by done. exists sb. split; [done|apply same_sub_refl].
Qed.
Lemma tr_heap_new b c p ch b' p' sp acts s sb' : tr b c p ch b' p' sp acts -> bs_heap b' !! s = Some sb' ->
  (exists sb, bs_heap b !! s = Some sb /\ same_sub sb sb') \/
  (s = length (bs_heap b) /\ p' = PDone (Ok (Some s)) /\ exists t, c = CSub t /\ sb' = sub_new b t).
Proof.
  intros H Hs. destruct H; simpl in *; try (by left; exists sb'; split; [done|apply same_sub_refl]).
  - rewrite get_queue_2 in Hs. unfold pub_make in Hs.
    destruct (m_topics (bs_mem b) !! t); simpl in *; left; exists sb'; (split; [done|apply same_sub_refl]).
  - rewrite sub_make_eq in Hs. simpl in Hs. rewrite lookup_app_Some, list_lookup_singleton_Some in Hs.
    destruct Hs as [?|(? & ? & <-)]; [left; exists sb'; split; [done|apply same_sub_refl]|].
    assert (s = length (bs_heap b)) as -> by lia. right. naive_solver.
  - rewrite list_lookup_insert_Some in Hs. destruct Hs as [(-> & <- & _)|[? ?]].
    + left. exists sb. split; [done|]. by split_and!.
    + left. exists sb'. split; [done|apply same_sub_refl].
Qed.
Lemma tr_sub_done b c p ch b' p' sp acts s : tr b c p ch b' p' sp acts -> p' = PDone (Ok (Some s)) ->
  exists t, c = CSub t /\ b' = (sub_make b t).1 /\ s = length (bs_heap b).
Proof.
  destruct 1; try done; try (intros; simplify_eq; eauto; done); destruct c; try done; destruct e; done.
Qed.

Record chans (T : gmap nat string) (cf : bconf) (es : list event) : Prop := {
  ch_ty : ctyped T cf;
  ch_acct : forall c, sent c es = taken c es ++ buffer (bc_st cf) c;
  ch_cap : capped (bc_st cf);
  ch_send : forall i c m, EAct i (ASend c m) ∈ es ->
    exists ctx t o, bc_ths cf !! i = Some (CPub ctx t m o, PDone (Ok None)) /\ T !! c = Some t;
  ch_once : NoDup (senders es);
  ch_take : forall i c m, EAct i (ATake c m) ∈ es ->
    exists cl p ctx s o sb, bc_ths cf !! i = Some (cl, p) /\ recv_args cl = Some (ctx, s, o) /\
      bs_heap (bc_st cf) !! s = Some sb /\ q_msg (s_queue sb) = c;
  ch_handle : forall i m, EAct i (AHandle m) ∈ es -> exists c, EAct i (ATake c m) ∈ es;
  ch_sub1 : forall k t s, bc_ths cf !! k = Some (CSub t, PDone (Ok (Some s))) ->
    exists sb, bs_heap (bc_st cf) !! s = Some sb /\ s_topic sb = t;
  ch_sub2 : forall s sb, bs_heap (bc_st cf) !! s = Some sb ->
    exists k, bc_ths cf !! k = Some (CSub (s_topic sb), PDone (Ok (Some s)));
}.
Lemma chans_init uuid opts : chans ∅ (broker_init uuid opts) [].
Proof.
  split; simpl; intros; try done; try set_solver.
  - split; [|done]. split; simpl; try done.
    + intros c. split; intros [x Hx]; by rewrite lookup_empty in Hx.
    + intros c [x Hx]. by rewrite lookup_empty in Hx.
  - constructor.
Qed.
Lemma elem_senders i es : i ∈ senders es <-> exists c m, EAct i (ASend c m) ∈ es.
Proof.
  unfold senders. rewrite elem_of_list_omap. split.
  - intros ([| | | |k [| | | | |]] & ? & ?); try done. simplify_eq. eauto.
  - intros (c & m & ?). eexists. by split.
Qed.
Lemma ths_done_step cf l cf' es' i c r : step cf l cf' es' ->
  bc_ths cf !! i = Some (c, PDone r) -> bc_ths cf' !! i = Some (c, PDone r).
Proof.
  intros H Hd. destruct H as [c0 Hc|ctx|d|i0 ch c0 p b' p' sp acts Hi Ht|
    i0 j ctx t m o q e d cj ctxj s oj sb dj Hi Hj Ha Hs Hcap Hq|
    i0 j ctx t m o q e d cj ctxj s oj sb Hi Hj Ha Hs Hcap Hq]; simpl.
  - rewrite ths_call. by left.
  - done.
  - done.
  - rewrite ths_step by by eapply lookup_lt_Some. right; left. split; [|done].
    intros ->. simplify_eq. by eapply tr_not_done.
  - rewrite ths_meet by (by eapply lookup_lt_Some || by eapply meet_ne). right; right.
    split_and!; [| |done]; intros ->; by simplify_eq.
  - rewrite ths_meet by (by eapply lookup_lt_Some || by eapply meet_ne). right; right.
    split_and!; [| |done]; intros ->; by simplify_eq.
Qed.
Lemma ths_mono_step cf l cf' es' i c p : step cf l cf' es' ->
  bc_ths cf !! i = Some (c, p) -> exists p', bc_ths cf' !! i = Some (c, p').
Proof.
  intros H Hd. destruct H as [c0 Hc|ctx|d|i0 ch c0 p0 b' p' sp acts Hi Ht|
    i0 j ctx t m o q e d cj ctxj s oj sb dj Hi Hj Ha Hs Hcap Hq|
    i0 j ctx t m o q e d cj ctxj s oj sb Hi Hj Ha Hs Hcap Hq]; simpl.
  - exists p. rewrite ths_call. by left.
  - eauto.
  - eauto.
  - destruct (decide (i = i0)) as [->|].
    + exists p'. rewrite ths_step by by eapply lookup_lt_Some. left. by simplify_eq.
    + exists p. rewrite ths_step by by eapply lookup_lt_Some. by right; left.
  - destruct (decide (i = j)) as [->|]; [|destruct (decide (i = i0)) as [->|]]; simplify_eq;
      eexists; rewrite ths_meet by (by eapply lookup_lt_Some || by eapply meet_ne); eauto.
  - destruct (decide (i = j)) as [->|]; [|destruct (decide (i = i0)) as [->|]]; simplify_eq;
      eexists; rewrite ths_meet by (by eapply lookup_lt_Some || by eapply meet_ne); eauto.
Qed.
Lemma heap_mono_step cf l cf' es' s sb : step cf l cf' es' -> bs_heap (bc_st cf) !! s = Some sb ->
  exists sb', bs_heap (bc_st cf') !! s = Some sb' /\ same_sub sb sb'.
Proof.
  intros H Hs. destruct H; simpl; try (by exists sb; split; [done|apply same_sub_refl]).
  by eapply tr_heap.
Qed.
(** What a step adds to the record. *)
Lemma step_send cf l cf' es' i c m : step cf l cf' es' -> EAct i (ASend c m) ∈ es' ->
  senders es' = [i] /\ exists ctx t o q e d, bc_ths cf !! i = Some (CPub ctx t m o, PPubWait q e d) /\
    bc_ths cf' !! i = Some (CPub ctx t m o, PDone (Ok None)) /\ c = q_msg q.
Proof.
  intros H Hin. destruct H as [c0 Hc|ctx|d|i0 ch c0 p b' p' sp acts Hi Ht|
    i0 j ctx t m0 o q e d cj ctxj s oj sb dj Hi Hj Ha Hs Hcap Hq|
    i0 j ctx t m0 o q e d cj ctxj s oj sb Hi Hj Ha Hs Hcap Hq]; simpl; try set_solver.
  - apply elem_acts_act in Hin as [-> Hin].
    destruct (tr_send _ _ _ _ _ _ _ _ _ _ Ht Hin) as (-> & -> & ctx & t & o & q & e & d & -> & -> & ->).
    split; [done|]. do 6 eexists. split; [done|]. split; [|done].
    rewrite ths_step by by eapply lookup_lt_Some. by left.
  - assert (i = i0 /\ c = q_msg q /\ m0 = m) as (-> & -> & ->) by set_solver. split; [done|].
    do 6 eexists. split; [done|]. split; [|done].
    rewrite ths_meet by (by eapply lookup_lt_Some || by eapply meet_ne). naive_solver.
  - assert (i = i0 /\ c = q_msg q /\ m0 = m) as (-> & -> & ->) by set_solver. split; [done|].
    do 6 eexists. split; [done|]. split; [|done].
    rewrite ths_meet by (by eapply lookup_lt_Some || by eapply meet_ne). naive_solver.
Qed.
Lemma step_take cf l cf' es' i c m : step cf l cf' es' -> EAct i (ATake c m) ∈ es' ->
  exists cl p ctx s o sb, bc_ths cf !! i = Some (cl, p) /\ recv_args cl = Some (ctx, s, o) /\
      bs_heap (bc_st cf) !! s = Some sb /\ q_msg (s_queue sb) = c.
Proof.
  intros H Hin. destruct H as [c0 Hc|ctx|d|i0 ch c0 p b' p' sp acts Hi Ht|
    i0 j ctx t m0 o q e d cj ctxj s oj sb dj Hi Hj Ha Hs Hcap Hq|
    i0 j ctx t m0 o q e d cj ctxj s oj sb Hi Hj Ha Hs Hcap Hq]; simpl; try set_solver.
  apply elem_acts_act in Hin as [-> Hin].
    destruct (tr_take _ _ _ _ _ _ _ _ _ _ Ht Hin) as (ctx & s & o & sb & ? & ? & -> & _). by exists c0, p, ctx, s, o, sb.
Qed.
Lemma step_handle cf l cf' es' i m : step cf l cf' es' -> EAct i (AHandle m) ∈ es' ->
  exists c, EAct i (ATake c m) ∈ es'.
Proof.
  intros H Hin. destruct H as [c0 Hc|ctx|d|i0 ch c0 p b' p' sp acts Hi Ht|
    i0 j ctx t m0 o q e d cj ctxj s oj sb dj Hi Hj Ha Hs Hcap Hq|
    i0 j ctx t m0 o q e d cj ctxj s oj sb Hi Hj Ha Hs Hcap Hq]; simpl; try set_solver.
  apply elem_acts_act in Hin as [-> Hin]. destruct (tr_handled _ _ _ _ _ _ _ _ _ Ht Hin) as [x ->].
  exists x. apply elem_acts_act. set_solver.
Qed.
Lemma step_acct T cf l cf' es' c : ctyped T cf -> capped (bc_st cf) -> step cf l cf' es' ->
  buffer (bc_st cf) c ++ sent c es' = taken c es' ++ buffer (bc_st cf') c.
Proof.
  intros [S _] Hcp H. destruct H as [c0 Hc|ctx|d|i0 ch c0 p b' p' sp acts Hi Ht|
    i0 j ctx t m0 o q e d cj ctxj s oj sb dj Hi Hj Ha Hs Hcap Hq|
    i0 j ctx t m0 o q e d cj ctxj s oj sb Hi Hj Ha Hs Hcap Hq]; simpl; rewrite ?app_nil_r; try done.
  - by eapply tr_acct.
  - assert (buffer (bc_st cf) c = []) as ->; [|by unfold sent, taken; simpl; destruct (q_msg q =? c)].
    unfold buffer. destruct (bs_msgs (bc_st cf) !! c) eqn:E; [|done].
    apply Hcp in E. rewrite Hcap in E. by destruct l; simpl in *; [|lia].
  - assert (buffer (bc_st cf) c = []) as ->; [|by unfold sent, taken; simpl; destruct (q_msg q =? c)].
    unfold buffer. destruct (bs_msgs (bc_st cf) !! c) eqn:E; [|done].
    apply Hcp in E. rewrite Hcap in E. by destruct l; simpl in *; [|lia].
Qed.
Lemma step_capped cf l cf' es' : capped (bc_st cf) -> step cf l cf' es' -> capped (bc_st cf').
Proof. intros Hcp H. destruct H; try done. by eapply tr_capped. Qed.
Lemma step_sub_new cf l cf' es' s sb' : step cf l cf' es' -> bs_heap (bc_st cf') !! s = Some sb' ->
  (exists sb, bs_heap (bc_st cf) !! s = Some sb /\ same_sub sb sb') \/
  (exists k, bc_ths cf' !! k = Some (CSub (s_topic sb'), PDone (Ok (Some s)))).
Proof.
  intros H Hs. destruct H as [c0 Hc|ctx|d|i0 ch c0 p b' p' sp acts Hi Ht|
    i0 j ctx t m0 o q e d cj ctxj s0 oj sb dj Hi Hj Ha Hs0 Hcap Hq|
    i0 j ctx t m0 o q e d cj ctxj s0 oj sb Hi Hj Ha Hs0 Hcap Hq]; simpl in *;
    try (by left; exists sb'; split; [done|apply same_sub_refl]).
  destruct (tr_heap_new _ _ _ _ _ _ _ _ _ _ Ht Hs) as [?|(-> & -> & t & -> & ->)]; [by left|].
  right. exists i0. rewrite ths_step by by eapply lookup_lt_Some. by left.
Qed.
Lemma step_sub_done cf l cf' es' k t s : step cf l cf' es' ->
  bc_ths cf' !! k = Some (CSub t, PDone (Ok (Some s))) ->
  bc_ths cf !! k = Some (CSub t, PDone (Ok (Some s))) \/
  (exists sb, bs_heap (bc_st cf') !! s = Some sb /\ s_topic sb = t).
Proof.
  intros H Hs. destruct H as [c0 Hc|ctx|d|i0 ch c0 p b' p' sp acts Hi Ht|
    i0 j ctx t0 m0 o q e d cj ctxj s0 oj sb dj Hi Hj Ha Hs0 Hcap Hq|
    i0 j ctx t0 m0 o q e d cj ctxj s0 oj sb Hi Hj Ha Hs0 Hcap Hq]; simpl in *; try by left.
  - rewrite ths_call in Hs. destruct Hs as [?|[-> [= <- ?]]]; [by left|done].
  - rewrite ths_step in Hs by by eapply lookup_lt_Some.
    destruct Hs as [[-> [= <- <-]]|[[? ?]|[-> (c1 & -> & [= <- ?])]]]; [|by left|done].
    destruct (tr_sub_done _ _ _ _ _ _ _ _ _ Ht eq_refl) as (t' & [= <-] & -> & ->). right.
    rewrite sub_make_eq. simpl. exists (sub_new (bc_st cf) t). split; [|done].
    by apply list_lookup_middle.
  - rewrite ths_meet in Hs by (by eapply lookup_lt_Some || by eapply meet_ne). naive_solver.
  - rewrite ths_meet in Hs by (by eapply lookup_lt_Some || by eapply meet_ne). naive_solver.
Qed.

Lemma chans_step T cf es l cf' es' : base cf es -> chans T cf es -> step cf l cf' es' ->
  exists T', T ⊆ T' /\ chans T' cf' (es ++ es').
Proof.
  intros B C H. destruct (ctyped_step T cf l cf' es' (ch_ty _ _ _ C) H) as (T' & Hsub & Hty).
  exists T'. split; [done|]. split; [done|..].
  - intros c. rewrite sent_app, taken_app, (ch_acct _ _ _ C), <- !app_assoc. f_equal.
    eapply step_acct; eauto using ch_ty, ch_cap.
  - eapply step_capped; eauto using ch_cap.
  - intros i c m Hin. apply elem_of_app in Hin as [Hin|Hin].
    + apply (ch_send _ _ _ C) in Hin as (ctx & t & o & Hi & HT). exists ctx, t, o.
      split; [by eapply ths_done_step|by eapply lookup_weaken].
    + destruct (step_send _ _ _ _ _ _ _ H Hin) as (_ & ctx & t & o & q & e & d & H1 & H2 & ->).
      exists ctx, t, o. split; [done|]. eapply lookup_weaken; [|done].
      apply (proj2 (ch_ty _ _ _ C)) in H1. done.
  - rewrite senders_app. apply NoDup_app. split; [apply (ch_once _ _ _ C)|]. split.
    + intros i Hi Hi'. apply elem_senders in Hi as (c & m & Hi). apply elem_senders in Hi' as (c' & m' & Hi').
      apply (ch_send _ _ _ C) in Hi as (? & ? & ? & Hd & _).
      destruct (step_send _ _ _ _ _ _ _ H Hi') as (_ & ? & ? & ? & ? & ? & ? & Hw & _). by simplify_eq.
    + destruct (senders es') as [|i l'] eqn:E; [constructor|].
      assert (Hi : i ∈ senders es') by (rewrite E; left). apply elem_senders in Hi as (c & m & Hi).
      destruct (step_send _ _ _ _ _ _ _ H Hi) as (E' & _). rewrite E in E'. simplify_eq. apply NoDup_singleton.
  - intros i c m Hin.
    assert (exists cl p ctx s o sb, bc_ths cf !! i = Some (cl, p) /\ recv_args cl = Some (ctx, s, o) /\
      bs_heap (bc_st cf) !! s = Some sb /\ q_msg (s_queue sb) = c) as (cl & p & ctx & s & o & sb & H1 & H2 & H3 & H4).
    { apply elem_of_app in Hin as [Hin|Hin]; [by apply (ch_take _ _ _ C) in Hin|by eapply step_take]. }
    destruct (ths_mono_step _ _ _ _ _ _ _ H H1) as [p' H1'].
    destruct (heap_mono_step _ _ _ _ _ _ H H3) as (sb' & H3' & Hs).
    exists cl, p', ctx, s, o, sb'. destruct Hs as (_ & _ & -> & _). done.
  - intros i m Hin. apply elem_of_app in Hin as [Hin|Hin].
    + apply (ch_handle _ _ _ C) in Hin as [c ?]. exists c. apply elem_of_app. by left.
    + destruct (step_handle _ _ _ _ _ _ H Hin) as [c ?]. exists c. apply elem_of_app. by right.
  - intros k t s Hk. destruct (step_sub_done _ _ _ _ _ _ _ H Hk) as [Hk'|?]; [|done].
    apply (ch_sub1 _ _ _ C) in Hk' as (sb & Hs & <-).
    destruct (heap_mono_step _ _ _ _ _ _ H Hs) as (sb' & Hs' & Hsame). exists sb'. split; [done|]. apply Hsame.
  - intros s sb' Hs. destruct (step_sub_new _ _ _ _ _ _ H Hs) as [(sb & Hs' & Hsame)|?]; [|done].
    apply (ch_sub2 _ _ _ C) in Hs' as (k & Hk). exists k. destruct Hsame as (_ & -> & _). by eapply ths_done_step.
Qed.
Lemma chans_exec uuid opts ls cf es : bexec (broker_init uuid opts) ls = Some (cf, es) ->
  base cf es /\ exists T, chans T cf es.
Proof.
  apply (with_base (fun cf es => exists T, chans T cf es)).
  - exists ∅. apply chans_init.
  - intros ? ? ? ? ? ? [T ?] _ ?. edestruct chans_step as (T' & _ & ?); eauto.
Qed.
