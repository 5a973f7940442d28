(** Every handled message comes from a different Pub; what receivers did. *)
From Verif.Proof Require Export BrokerP2.

Definition sends_on (c : nat) (es : list event) : list (nat * message) :=
  omap (fun e => match e with EAct i (ASend c' m) => if Nat.eqb c' c then Some (i, m) else None | _ => None end) es.
Definition all_sends (es : list event) : list (nat * (nat * message)) :=
  omap (fun e => match e with EAct i (ASend c m) => Some (i, (c, m)) | _ => None end) es.
Lemma handlings_app es es' : handlings (es ++ es') = handlings es ++ handlings es'.
Proof. apply omap_app. Qed.
Lemma sends_on_app c es es' : sends_on c (es ++ es') = sends_on c es ++ sends_on c es'.
Proof. apply omap_app. Qed.
Lemma sends_on_sent c es : (sends_on c es).*2 = sent c es.
Proof.
  induction es as [|x es IH]; [done|]. unfold sends_on, sent in *. simpl.
  destruct x as [| | | |i [| | | | |]]; try done. destruct (c0 =? c); [|done]. simpl. f_equal. apply IH.
Qed.
Lemma all_sends_senders es : (all_sends es).*1 = senders es.
Proof.
  induction es as [|x es IH]; [done|]. unfold all_sends, senders in *. simpl.
  destruct x as [| | | |i [| | | | |]]; try done. simpl. f_equal. apply IH.
Qed.
Lemma elem_all_sends i c m es : (i, (c, m)) ∈ all_sends es <-> EAct i (ASend c m) ∈ es.
Proof.
  unfold all_sends. rewrite elem_of_list_omap. split.
  - intros ([| | | |k [| | | | |]] & ? & ?); try done. by simplify_eq.
  - intros ?. eexists. by split.
Qed.
Lemma elem_sends_on i c m es : (i, m) ∈ sends_on c es <-> EAct i (ASend c m) ∈ es.
Proof.
  unfold sends_on. rewrite elem_of_list_omap. split.
  - intros ([| | | |k [c'| | | | |]] & ? & ?); try done. destruct (Nat.eqb_spec c' c); [|done]. by simplify_eq.
  - intros ?. eexists. split; [done|]. simpl. by rewrite Nat.eqb_refl.
Qed.
Lemma fmap_fst_unique {A B} (l : list (A * B)) a x y :
  NoDup l.*1 -> (a, x) ∈ l -> (a, y) ∈ l -> x = y.
Proof.
  induction l as [|[a' z] l IH]; simpl; [set_solver|]. rewrite NoDup_cons, !elem_of_cons.
  intros [Hn Hd] [?|Hx] [?|Hy]; simplify_eq; auto.
  - exfalso. apply Hn, elem_of_list_fmap. by exists (a', y).
  - exfalso. apply Hn, elem_of_list_fmap. by exists (a', x).
Qed.
Lemma send_unique es i c m c' m' : NoDup (senders es) ->
  EAct i (ASend c m) ∈ es -> EAct i (ASend c' m') ∈ es -> c = c' /\ m = m'.
Proof.
  rewrite <- all_sends_senders, <- !elem_all_sends. intros Hd H1 H2.
  pose proof (fmap_fst_unique _ _ _ _ Hd H1 H2). by simplify_eq.
Qed.
Lemma sends_on_nodup c es : NoDup (senders es) -> NoDup (sends_on c es).*1.
Proof.
  induction es as [|x es IH]; [by intros; constructor|].
  unfold sends_on, senders in *. simpl. destruct x as [| | | |i [c' m| | | | |]]; try done.
  rewrite NoDup_cons. intros [Hn Hd]. destruct (c' =? c) eqn:E; [|by apply IH].
  simpl. rewrite NoDup_cons. split; [|by apply IH].
  intros Hin. apply Hn. apply elem_of_list_fmap in Hin as ([i' m'] & -> & Hin).
  apply (elem_sends_on i' c m') in Hin. apply elem_senders. eauto.
Qed.

Lemma elem_drop {A} (x : A) n l : x ∈ drop n l -> x ∈ l.
Proof. intros H. rewrite <- (take_drop n l). apply elem_of_app. by right. Qed.

Definition attributed (es : list event) (J : list nat) : Prop :=
  NoDup J /\ Forall2 (from_pub es) (handlings es) J /\
  forall c j, j ∈ drop (length (taken c es)) (sends_on c es).*1 -> j ∉ J.
Lemma from_pub_mono es es' h j : from_pub es h j -> from_pub (es ++ es') h j.
Proof. intros (c & ? & ?). exists c. rewrite !elem_of_app. eauto. Qed.

Lemma step_takes cf l cf' es' : step cf l cf' es' ->
  (handlings es' = [] /\ forall c, length (taken c es') <= 1) \/
  exists c m i, handlings es' = [(i, m)] /\ EAct i (ATake c m) ∈ es' /\ taken c es' = [m] /\
    forall c', c' <> c -> taken c' es' = [].
Proof.
  intros H. destruct H as [c0 Hc|ctx|d|i0 ch c0 p b' p' sp acts Hi Ht|
    i0 j ctx t m0 o q e d cj ctxj s oj sb dj Hi Hj Ha Hs Hcap Hq|
    i0 j ctx t m0 o q e d cj ctxj s oj sb Hi Hj Ha Hs Hcap Hq]; simpl.
  - left. split; [done|]. intros; simpl; lia.
  - left. split; [done|]. intros; simpl; lia.
  - left. split; [done|]. intros; simpl; lia.
  - assert (Hh : handlings ((EAct i0 <$> acts) ++ ret_event i0 p') = handlings (EAct i0 <$> acts)).
    { rewrite handlings_app. by destruct p'; simpl; rewrite app_nil_r. }
    setoid_rewrite taken_app. setoid_rewrite taken_ret. setoid_rewrite app_nil_r. rewrite Hh.
    destruct Ht; simpl; try (left; split; [done|]; intros; simpl; lia).
    + right. exists (q_msg (s_queue sb)), m, i0. split; [done|]. split; [set_solver|].
      unfold taken. simpl. rewrite Nat.eqb_refl. split; [done|]. intros c' Hne.
      destruct (Nat.eqb_spec (q_msg (s_queue sb)) c'); [by subst|done].
    + left. split; [done|]. intros c'. unfold taken. simpl. destruct (q_msg (s_queue sb) =? c'); simpl; lia.
  - right. exists (q_msg q), m0, j. split; [done|]. split; [set_solver|].
    unfold taken. simpl. rewrite Nat.eqb_refl. split; [done|]. intros c' Hne.
    destruct (Nat.eqb_spec (q_msg q) c'); [by subst|done].
  - left. split; [done|]. intros c'. unfold taken. simpl. destruct (q_msg q =? c'); simpl; lia.
Qed.

Lemma attributed_step cf es J T l cf' es' : base cf es -> chans T cf es -> attributed es J ->
  step cf l cf' es' -> exists J', attributed (es ++ es') J'.
Proof.
  intros B C (Hnd & Hall & Hrest) H.
  destruct (chans_step T cf es l cf' es' B C H) as (T' & _ & C').
  assert (Hold : forall c j, j ∈ drop (length (taken c es)) (sends_on c (es ++ es')).*1 -> j ∉ J).
  { intros c j Hj. rewrite sends_on_app, fmap_app in Hj.
    assert (length (taken c es) <= length (sends_on c es).*1).
    { rewrite fmap_length, <- (fmap_length snd), sends_on_sent, (ch_acct _ _ _ C), app_length. lia. }
    rewrite drop_app_le in Hj by done. apply elem_of_app in Hj as [Hj|Hj]; [by eapply Hrest|].
    intros HJ. apply elem_of_list_fmap in Hj as ([j' m] & -> & Hj). apply elem_sends_on in Hj.
    apply elem_of_list_lookup in HJ as [k HJ].
    destruct (Forall2_lookup_r _ _ _ _ _ Hall HJ) as ([i h] & _ & c' & Hs & _).
    destruct (step_send _ _ _ _ _ _ _ H Hj) as (_ & ? & ? & ? & ? & ? & ? & Hw & _).
    apply (ch_send _ _ _ C) in Hs as (? & ? & ? & Hd & _). simpl in *. by simplify_eq. }
  assert (Hmono : Forall2 (from_pub (es ++ es')) (handlings es) J).
  { eapply Forall2_impl; [done|]. intros. by apply from_pub_mono. }
  destruct (step_takes _ _ _ _ H) as [[Hh Ht]|(c & m & i & Hh & Hin & Htc & Hto)].
  - exists J. split; [done|]. split; [by rewrite handlings_app, Hh, app_nil_r|].
    intros c j Hj. apply (Hold c). revert Hj. rewrite taken_app, app_length, <- drop_drop.
    apply elem_drop.
  - assert (Hk : sent c (es ++ es') !! length (taken c es) = Some m).
    { rewrite (ch_acct _ _ _ C'), taken_app, Htc, <- app_assoc.
      rewrite lookup_app_r by done. by rewrite Nat.sub_diag. }
    rewrite <- sends_on_sent, list_lookup_fmap in Hk.
    destruct (sends_on c (es ++ es') !! length (taken c es)) as [[j m']|] eqn:Ej; [|done]. simpl in Hk. simplify_eq.
    assert (Hj : EAct j (ASend c m) ∈ es ++ es') by by eapply elem_sends_on, elem_of_list_lookup_2.
    assert (Hdrop : drop (length (taken c es)) (sends_on c (es ++ es')).*1 =
      j :: drop (S (length (taken c es))) (sends_on c (es ++ es')).*1).
    { apply drop_S. by rewrite list_lookup_fmap, Ej. }
    exists (J ++ [j]). split; [|split].
    + apply NoDup_app. split; [done|]. split; [|apply NoDup_singleton].
      intros x Hx ->%elem_of_list_singleton. revert Hx. apply (Hold c). rewrite Hdrop. left.
    + rewrite handlings_app, Hh. apply Forall2_app; [done|]. constructor; [|constructor].
      exists c. split; [done|]. simpl. apply elem_of_app. by right.
    + intros c' j' Hj'. rewrite not_elem_of_app, not_elem_of_cons. split_and!; [| |apply not_elem_of_nil].
      * apply (Hold c'). revert Hj'. rewrite taken_app, app_length, <- drop_drop. apply elem_drop.
      * intros ->. destruct (decide (c' = c)) as [->|Hne].
        -- rewrite taken_app, Htc, app_length, Nat.add_1_r in Hj'.
           pose proof (sends_on_nodup c _ (ch_once _ _ _ C')) as Hn.
           rewrite <- (take_drop (length (taken c es)) (sends_on c (es ++ es')).*1), Hdrop in Hn.
           apply NoDup_app in Hn as (_ & _ & Hn). by apply NoDup_cons in Hn as [? _].
        -- apply elem_drop, elem_of_list_fmap in Hj' as ([j' m''] & -> & Hj').
           apply elem_sends_on in Hj'.
           by destruct (send_unique _ _ _ _ _ _ (ch_once _ _ _ C') Hj Hj') as [-> _].
Qed.
Lemma attributed_exec uuid opts ls cf es : bexec (broker_init uuid opts) ls = Some (cf, es) ->
  exists J, attributed es J.
Proof.
  intros H.
  assert (G : base cf es /\ exists T J, chans T cf es /\ attributed es J).
  { revert H. apply (with_base (fun cf es => exists T J, chans T cf es /\ attributed es J)).
    - exists ∅, []. split; [apply chans_init|]. split_and!; [constructor|constructor|]. set_solver.
    - intros ? ? ? ? ? ? (T & J & ? & ?) _ ?. edestruct chans_step as (T' & _ & ?); eauto.
      edestruct attributed_step as (J' & ?); eauto. }
  naive_solver.
Qed.

(** What one goroutine did. *)
Definition acts_by (i : nat) (es : list event) : list act :=
  omap (fun e => match e with EAct j a => if Nat.eqb j i then Some a else None | _ => None end) es.
Definition a_taken : list act -> list message := omap (fun a => match a with ATake _ m => Some m | _ => None end).
Definition a_handled : list act -> list message := omap (fun a => match a with AHandle m => Some m | _ => None end).
Definition a_answers : list act -> list (option N) := omap (fun a => match a with AHandled r => Some r | _ => None end).
Lemma omap_omap {A B C} (f : A -> option B) (g : B -> option C) (l : list A) :
  omap g (omap f l) = omap (fun x => match f x with Some y => g y | None => None end) l.
Proof.
  induction l as [|x l IH]; [done|]. simpl. destruct (f x) as [y|]; [|apply IH].
  simpl. destruct (g y); [f_equal|]; apply IH.
Qed.
Lemma omap_ext' {A B} (f g : A -> option B) (l : list A) : (forall x, f x = g x) -> omap f l = omap g l.
Proof. intros H. induction l as [|x l IH]; [done|]. simpl. rewrite H. destruct (g x); [f_equal|]; apply IH. Qed.
Lemma taken_by_acts i es : taken_by i es = a_taken (acts_by i es).
Proof.
  unfold a_taken, acts_by. rewrite omap_omap. apply omap_ext'.
  intros [| | | |j [| | | | |]]; try done; by destruct (j =? i).
Qed.
Lemma handled_by_acts i es : handled_by i es = a_handled (acts_by i es).
Proof.
  unfold a_handled, acts_by. rewrite omap_omap. apply omap_ext'.
  intros [| | | |j [| | | | |]]; try done; by destruct (j =? i).
Qed.
Lemma answers_acts i es : answers i es = a_answers (acts_by i es).
Proof.
  unfold a_answers, acts_by. rewrite omap_omap. apply omap_ext'.
  intros [| | | |j [| | | | |]]; try done; by destruct (j =? i).
Qed.
Lemma acts_by_app i es es' : acts_by i (es ++ es') = acts_by i es ++ acts_by i es'.
Proof. apply omap_app. Qed.
Lemma elem_acts_by i a es : a ∈ acts_by i es <-> EAct i a ∈ es.
Proof.
  unfold acts_by. rewrite elem_of_list_omap. split.
  - intros ([| | | |j a'] & ? & ?); try done. destruct (Nat.eqb_spec j i); [|done]. by simplify_eq.
  - intros ?. eexists. split; [done|]. simpl. by rewrite Nat.eqb_refl.
Qed.
Lemma acts_by_new cf es i : base cf es -> length (bc_ths cf) <= i -> acts_by i es = [].
Proof.
  intros B Hi. destruct (acts_by i es) as [|a l] eqn:E; [done|].
  assert (H : a ∈ acts_by i es) by (rewrite E; left). apply elem_acts_by, (base_act _ _ B) in H. lia.
Qed.
Lemma acts_by_step k i acts p : acts_by k ((EAct i <$> acts) ++ ret_event i p) = if decide (k = i) then acts else [].
Proof.
  rewrite acts_by_app. assert (acts_by k (ret_event i p) = []) as -> by by destruct p.
  rewrite app_nil_r. induction acts as [|a acts IH]; simpl; [by case_decide|].
  unfold acts_by in *. simpl. destruct (Nat.eqb_spec i k) as [->|Hne].
  - rewrite decide_True by done. f_equal. rewrite decide_True in IH by done. apply IH.
  - rewrite decide_False by done. rewrite decide_False in IH by done. apply IH.
Qed.

(** Step of a single goroutine's view: a local invariant over its program point
    and its own acts. *)
Section local.
  Context (L : call -> pc -> list act -> Prop).
  Context (Lstart : forall c, L c (pc_start c) []).
  Context (Ltr : forall b c p ch b' p' sp acts h,
    tr b c p ch b' p' sp acts -> wf_pc c p -> L c p h -> L c p' (h ++ acts)).
  Context (Lsend : forall ctx t m o q e d x h,
    L (CPub ctx t m o) (PPubWait q e d) h -> L (CPub ctx t m o) (PDone (Ok None)) (h ++ [ASend x m])).
  Context (Ltake : forall c d x m h, recv_args c <> None ->
    L c (PRecvWait d) h -> L c (PRecvHandle m) (h ++ [ATake x m; AHandle m])).
  Context (Ldrop : forall c x m h, recv_args c <> None ->
    L c PRecvDrop h -> L c (PDone (Err BrokerErrTimeout)) (h ++ [ATake x m])).
  Definition local_inv (cf : bconf) (es : list event) : Prop :=
    forall i c p, bc_ths cf !! i = Some (c, p) -> L c p (acts_by i es).
  Lemma local_step cf es l cf' es' : base cf es -> local_inv cf es -> step cf l cf' es' -> local_inv cf' (es ++ es').
  Proof.
    intros B I H k c p Hk. rewrite acts_by_app.
    destruct H as [c0 Hc|ctx|d|i0 ch c0 p0 b' p' sp acts Hi Ht|
    i0 j ctx t m0 o q e d cj ctxj s oj sb dj Hi Hj Ha Hs Hcap Hq|
    i0 j ctx t m0 o q e d cj ctxj s oj sb Hi Hj Ha Hs Hcap Hq]; simpl in Hk; simpl.
    - rewrite app_nil_r. rewrite ths_call in Hk. destruct Hk as [Hk|[-> [= -> ->]]]; [by apply I|].
      rewrite (acts_by_new cf) by done. apply Lstart.
    - rewrite app_nil_r. by apply I.
    - rewrite app_nil_r. by apply I.
    - rewrite acts_by_step. rewrite ths_step in Hk by by eapply lookup_lt_Some.
      destruct Hk as [[-> [= -> ->]]|[[Hne Hk]|[-> (c1 & -> & [= -> ->])]]].
      + rewrite decide_True by done. eapply Ltr; [done|by eapply base_wf|by apply I].
      + rewrite decide_False by done. rewrite app_nil_r. by apply I.
      + apply lookup_lt_Some in Hi. rewrite decide_False by lia.
        rewrite app_nil_r, (acts_by_new cf) by done. apply Lstart.
    - assert (Hne : i0 <> j) by by eapply meet_ne.
      rewrite ths_meet in Hk by (by eapply lookup_lt_Some || done).
      destruct Hk as [[-> [= -> ->]]|[[-> [= -> ->]]|(? & ? & Hk)]].
      + rewrite Nat.eqb_refl. rewrite (proj2 (Nat.eqb_neq i0 j)) by done.
        eapply Ltake; [by rewrite Ha|by apply I].
      + rewrite Nat.eqb_refl. rewrite (proj2 (Nat.eqb_neq j i0)) by done. eapply Lsend. by apply I.
      + rewrite (proj2 (Nat.eqb_neq i0 k)), (proj2 (Nat.eqb_neq j k)) by done. rewrite app_nil_r. by apply I.
    - assert (Hne : i0 <> j) by by eapply meet_ne.
      rewrite ths_meet in Hk by (by eapply lookup_lt_Some || done).
      destruct Hk as [[-> [= -> ->]]|[[-> [= -> ->]]|(? & ? & Hk)]].
      + rewrite Nat.eqb_refl. rewrite (proj2 (Nat.eqb_neq i0 j)) by done.
        eapply Ldrop; [by rewrite Ha|by apply I].
      + rewrite Nat.eqb_refl. rewrite (proj2 (Nat.eqb_neq j i0)) by done. eapply Lsend. by apply I.
      + rewrite (proj2 (Nat.eqb_neq i0 k)), (proj2 (Nat.eqb_neq j k)) by done. rewrite app_nil_r. by apply I.
  Qed.
  Lemma local_exec uuid opts ls cf es : bexec (broker_init uuid opts) ls = Some (cf, es) -> local_inv cf es.
  Proof.
    intros H. apply (with_base local_inv) in H as [_ H]; [done|..].
    - intros i c p. simpl. done.
    - intros. by eapply local_step.
  Qed.
End local.

(** Receive and Digest. *)
Definition one_shot (c : call) : bool := match c with CDigest _ _ => false | _ => true end.
Definition quiet (c : call) (h : list act) : Prop :=
  a_taken h = a_handled h /\ a_answers h = replicate (length (a_handled h)) None /\
  (one_shot c -> a_handled h = []).
Definition rlog (c : call) (p : pc) (h : list act) : Prop :=
  match recv_args c with
  | None => a_taken h = [] /\ a_handled h = [] /\ a_answers h = []
  | Some _ =>
      match p with
      | PRecvHandle m =>
          exists hd, a_handled h = hd ++ [m] /\ a_taken h = hd ++ [m] /\
            a_answers h = replicate (length hd) None /\ (one_shot c -> hd = [])
      | PDone r =>
          (exists hd m a, a_handled h = hd ++ [m] /\ a_taken h = hd ++ [m] /\
             a_answers h = replicate (length hd) None ++ [a] /\ r = answer a /\
             (one_shot c -> hd = [])) \/
          (r = Err BrokerErrTimeout /\ a_answers h = replicate (length (a_handled h)) None /\
             (one_shot c -> a_handled h = []) /\
             (a_taken h = a_handled h \/ exists m, a_taken h = a_handled h ++ [m])) \/
          ((r = Ok None \/ r = Err BrokerErrSubscriptionInactive) /\ quiet c h)
      | _ => quiet c h
      end
  end.
Lemma a_taken_app h h' : a_taken (h ++ h') = a_taken h ++ a_taken h'.
Proof. apply omap_app. Qed.
Lemma a_handled_app h h' : a_handled (h ++ h') = a_handled h ++ a_handled h'.
Proof. apply omap_app. Qed.
Lemma a_answers_app h h' : a_answers (h ++ h') = a_answers h ++ a_answers h'.
Proof. apply omap_app. Qed.
Lemma rlog_start c : rlog c (pc_start c) [].
Proof. by destruct c. Qed.
Lemma rlog_take c d x m h : recv_args c <> None ->
  rlog c (PRecvWait d) h -> rlog c (PRecvHandle m) (h ++ [ATake x m; AHandle m]).
Proof.
  unfold rlog. destruct (recv_args c); [|done]. intros _ (H1 & H2 & H3).
  rewrite a_taken_app, a_handled_app, a_answers_app. simpl. rewrite app_nil_r.
  exists (a_handled h). by rewrite H1.
Qed.
Lemma rlog_drop c x m h : recv_args c <> None ->
  rlog c PRecvDrop h -> rlog c (PDone (Err BrokerErrTimeout)) (h ++ [ATake x m]).
Proof.
  unfold rlog. destruct (recv_args c); [|done]. intros _ (H1 & H2 & H3).
  rewrite a_taken_app, a_handled_app, a_answers_app. simpl. rewrite !app_nil_r.
  right; left. split_and!; try done. right. exists m. by rewrite H1.
Qed.
Lemma rlog_tr b c p ch b' p' sp acts h :
  tr b c p ch b' p' sp acts -> wf_pc c p -> rlog c p h -> rlog c p' (h ++ acts).
Proof.
  intros Ht Hw Hl. destruct (recv_args c) as [[[ctx s] o]|] eqn:Ea.
  - destruct Ht; try done; try (by destruct c).
    + (* check, active *) unfold rlog in *. rewrite Ea in *. by rewrite app_nil_r.
    + rewrite recv_return_err. unfold rlog in *. rewrite Ea in *. rewrite app_nil_r. right; right. eauto.
    + rewrite app_nil_r. unfold rlog in *. rewrite Ea in *. destruct c; try done; simpl. right; right. eauto.
    + unfold rlog in *. rewrite Ea in *. by rewrite app_nil_r.
    + rewrite app_nil_r. unfold rlog in *. rewrite Ea in *. destruct c; try done; simpl. right; right. eauto.
    + rewrite app_nil_r. unfold rlog in *. rewrite Ea in *. destruct c; try done; simpl. right; right. eauto.
    + eapply rlog_take; [by rewrite Ea|done].
    + rewrite recv_return_err. eapply rlog_drop; [by rewrite Ea|done].
    + rewrite recv_return_err, app_nil_r. unfold rlog in *. rewrite Ea in *.
      destruct Hl as (H1' & H2' & H3'). right; left. split_and!; auto.
    + unfold rlog in *. rewrite Ea in *. destruct Hl as (hd & H1 & H2 & H3 & H4).
      assert (Hd : a_handled (h ++ [AHandled e]) = hd ++ [m]) by (rewrite a_handled_app; simpl; by rewrite app_nil_r).
      assert (Hk : a_taken (h ++ [AHandled e]) = hd ++ [m]) by (rewrite a_taken_app; simpl; by rewrite app_nil_r).
      assert (Hn : a_answers (h ++ [AHandled e]) = replicate (length hd) None ++ [e]) by (rewrite a_answers_app; simpl; by rewrite H3).
      assert (recv_return c (answer e) = PRecvCheck \/ recv_return c (answer e) <> PRecvCheck) as [E|E]
        by (destruct c, e; simpl; auto; right; done).
      * rewrite E. assert (e = None /\ one_shot c = false) as [-> Ho] by (destruct c, e; done).
        split; [by rewrite Hk|]. split; [|by rewrite Ho].
        rewrite Hn, Hd, app_length. simpl. rewrite Nat.add_1_r, replicate_S_end. done.
      * assert (recv_return c (answer e) = PDone (answer e)) as -> by (destruct c, e; done).
        left. exists hd, m, e. done.
  - assert (G : a_taken acts = [] /\ a_handled acts = [] /\ a_answers acts = []) by (destruct Ht; done || (by destruct c)).
    unfold rlog in *. rewrite Ea in *. rewrite a_taken_app, a_handled_app, a_answers_app.
    destruct Hl as (-> & -> & ->). destruct G as (-> & -> & ->). done.
Qed.
Lemma rlog_exec uuid opts ls cf es : bexec (broker_init uuid opts) ls = Some (cf, es) ->
  forall i c p, bc_ths cf !! i = Some (c, p) -> rlog c p (acts_by i es).
Proof.
  apply (local_exec rlog).
  - apply rlog_start.
  - apply rlog_tr.
  - intros ctx t m o q e d x h H. unfold rlog in *. simpl in *.
    rewrite a_taken_app, a_handled_app, a_answers_app. simpl. by rewrite !app_nil_r.
  - intros. by eapply rlog_take.
  - intros. by eapply rlog_drop.
Qed.
