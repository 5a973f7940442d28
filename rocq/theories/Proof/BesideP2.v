(** Store calls that change the graph in one section, beside direct reads. *)
From Verif.Model Require Import Conc Beside.
From Verif.Spec Require Import LinSpec ConcSpec.
From Verif.Proof Require Import LinP MutexP ConcP GraphLockP BesideP.

(** ** programs run by one goroutine, again *)
(** does the rest of the run ask for a write lock? *)
Fixpoint more {S R} (p : prog S R) (s : S) : bool :=
  match p with
  | Ret _ => false
  | Act u k => more (k s) (u s)
  | RLock _ k | RUnlock _ k | Unlock _ k => more k s
  | Lock _ _ | LockWait _ _ => true
  end.
Definition is_ret {S R} (p : prog S R) : Prop := match p with Ret _ => True | _ => False end.
(** the run changes the graph only under the last write lock it takes, and releases
    the store's mutex last *)
Fixpoint lastc {R} (p : prog sstate R) (s : sstate) : Prop :=
  match p with
  | Ret _ => True
  | Act u k => (more (k s) (u s) = true -> s_g (u s).2 = s_g s.2) /\ lastc (k s) (u s)
  | RLock _ k | RUnlock _ k | Lock _ k | LockWait _ k => lastc k s
  | Unlock m k => if Nat.eqb m 0 then is_ret k else lastc k s
  end.
(** the run changes nothing *)
Fixpoint rov {S R} (p : prog S R) (s : S) : Prop :=
  match p with
  | Ret _ => True
  | Act u k => u s = s /\ rov (k s) s
  | RLock _ k | Lock _ k | LockWait _ k | Unlock _ k => rov k s
  | RUnlock m k => if Nat.eqb m 0 then is_ret k else rov k s
  end.
Definition single (c : stcall) : Prop :=
  match c.2 with SBulkAdd _ _ | SBulkDelete _ | SBulkLink _ _ _ | SBulkUnlink _ _ => False | _ => True end.

Lemma rov_read {A B C} nest (Q : hold -> A -> Prop) h (b : prog sstate A) (f : A -> B) (g : B -> C) s :
  disc true nest Q h b -> rov (pmap g (pbind (pmap f b) (fun r => RUnlock 0 (Ret r)))) s.
Proof.
  intros D. unfold pmap. remember true as ro eqn:Er. induction D as [| h u k N U D IH | | | | |]; cbn [pbind rov Nat.eqb]; subst; auto; try exact I; try discriminate.
Qed.
Lemma more_bind {S A B} (p : prog S A) (f : A -> prog S B) s :
  more (pbind p f) s = more p s || more (f (seqrun p s).1) (seqrun p s).2.
Proof. revert s. induction p; intros s; cbn; auto. Qed.
(** a graph program that goes on to a write lock (m) or not *)
Fixpoint gl {R} (m : bool) (p : prog gstate R) (x : gstate) : Prop :=
  match p with
  | Ret _ => True
  | Act u k => (more (k x) (u x) || m = true -> (u x).2 = x.2) /\ gl m (k x) (u x)
  | RLock _ k | RUnlock _ k | Lock _ k | LockWait _ k => gl m k x
  | Unlock i k => i <> 0 /\ gl m k x
  end.
Lemma more_zoom {A} (p : prog gstate A) w i g : more (zoom p) (w, Store i g) = more p (w, g).
Proof.
  revert w g. induction p as [r|u k IH|m k IH|m k IH|m k IH|m k IH|m k IH]; intros w g; cbn; auto.
  destruct (u (w, g)) as [w1 g1]. apply IH.
Qed.
Lemma zoom_run {A} (p : prog gstate A) w i g :
  seqrun (zoom p) (w, Store i g) = ((seqrun p (w, g)).1, ((seqrun p (w, g)).2.1, Store i (seqrun p (w, g)).2.2)).
Proof. rewrite seqrun_zoom. cbn. now destruct (seqrun p (w, g)) as [r [w1 g1]]. Qed.
Lemma lastc_zoom {A B} (p : prog gstate A) (f : A -> prog sstate B) w i g :
  gl (more (f (seqrun p (w, g)).1) ((seqrun p (w, g)).2.1, Store i (seqrun p (w, g)).2.2)) p (w, g) ->
  lastc (f (seqrun p (w, g)).1) ((seqrun p (w, g)).2.1, Store i (seqrun p (w, g)).2.2) ->
  lastc (pbind (zoom p) f) (w, Store i g).
Proof.
  revert w g. induction p as [r|u k IH|m k IH|m k IH|m k IH|m k IH|m k IH]; intros w g H L; cbn [zoom pbind lastc gl seqrun fst snd s_g s_uid] in *; auto.
  - destruct H as [H G]. destruct (u (w, g)) as [w1 g1] eqn:E. cbn [fst snd s_g] in *. split; [|now apply IH].
    intros M. apply H. rewrite more_bind, zoom_run in M. cbn [fst snd] in M. rewrite more_zoom in M. exact M.
  - destruct H as [N G]. destruct (Nat.eqb_spec m 0) as [E|_]; [contradiction|]. now apply IH.
Qed.
Lemma gl_rest {A} (Q : hold -> A -> Prop) h (p : prog gstate A) x : gd false Q h p -> more p x = false -> gl false p x.
Proof.
  intros D. revert x. induction D as [h r q N | h u k N W Rd D IH | n k D IH | n k D IH | k D IH | k D IH | k D IH];
    intros x M; cbn [more gl] in *; auto; try discriminate.
  split; auto. rewrite M. discriminate.
Qed.
Ltac glgo := cbn [gl more orb seqrun pbind fst snd Nat.eqb]; repeat match goal with
  | |- _ /\ _ => split
  | |- True => exact I
  | |- _ <> _ => discriminate
  | |- _ -> _ => first [reflexivity | discriminate | intros _; reflexivity]
  end.
Lemma gl_remove_node u x : gl false (remove_node_prog u) x.
Proof.
  unfold remove_node_prog, locked, gset_b, gset_nodes, gload, gsave. glgo.
  destruct (g_nodes _ !! _) as [n|]; glgo.
Qed.
Lemma gl_unlink u v x : gl false (unlink_prog u v) x.
Proof.
  unfold unlink_prog, locked, gset_b, gload, gsave. glgo.
  destruct (g_nodes _ !! _) as [n|]; glgo. destruct (g_nodes _ !! uid_string v) as [n'|]; glgo.
Qed.
Lemma gl_link u v opts x : gl false (link_prog u v opts) x.
Proof.
  unfold link_prog, edge_prog, rlocked, locked, galloc, gload, gsave. glgo.
  destruct (wg_edge _ u v) as [e|e|p]; glgo. destruct (bool_decide _); glgo.
  destruct (g_nodes _ !! uid_string u) as [n|]; glgo. destruct (g_nodes _ !! uid_string v) as [n'|]; glgo.
  all: try (destruct (b_set_edge _ _); glgo).
Qed.
Lemma gl_new_node m o st e opts x : gl m (new_node_prog o st e opts) x.
Proof.
  unfold new_node_prog, galloc, gload. glgo.
  destruct (newnode_id o st _) as [id|y|p]; glgo.
Qed.
Lemma gl_add_node n opts x : gl false (add_node_prog (MemNode n) opts) x.
Proof.
  unfold add_node_prog, locked, gset_b, gset_nodes, gload, gsave. glgo.
  destruct (b_nodes _ !! _); glgo.
  - destruct (g_nodes _ !! _); glgo. destruct (go_upsert _); glgo.
  - destruct (b_add_node _ _); glgo.
Qed.
Lemma lastc_assoc {A B C} (p : prog sstate A) (f : A -> prog sstate B) (g : B -> prog sstate C) s :
  lastc (pbind p (fun a => pbind (f a) g)) s -> lastc (pbind (pbind p f) g) s.
Proof.
  revert s. induction p as [r|u k IH|m k IH|m k IH|m k IH|m k IH|m k IH]; intros s; cbn [pbind lastc]; auto.
  - intros [H L]. split; auto. intros M. apply H. rewrite !more_bind in M. rewrite !more_bind. rewrite seqrun_bind in M.
    now rewrite orb_assoc.
  - destruct (Nat.eqb m 0); auto. now destruct k.
Qed.
Lemma store_shape o c : single c ->
  (exists k, mixed_prog o (inl c) = Lock 0 k /\ forall s, lastc k s /\ seqrun k s = mixed_call o (inl c) s) \/
  (exists k, mixed_prog o (inl c) = RLock 0 k /\ forall s, rov k s /\ seqrun k s = mixed_call o (inl c) s /\ (seqrun k s).2 = s).
Proof.
  intros Hs.
  assert (E : forall s, seqrun (mixed_prog o (inl c)) s = mixed_call o (inl c) s).
  { intros s. cbn [mixed_prog mixed_call]. rewrite seqrun_map.
    assert (E : seqrun (store_prog o c) s = store_call o c s).
    { destruct (store_sections o c) as [(b & -> & _ & <-)|(b & -> & _ & <-)]; [apply seqrun_locked|apply seqrun_rlocked]. }
    rewrite E. now destruct (store_call o c s). }
  destruct c as [st [e opts|u|u|u v opts|u v|es opts|us|us|u vs opts|u vs]]; cbn [single snd] in Hs; try contradiction;
    [left|right|left|left|left|right]; eexists; (split; [reflexivity|]);
    (intros s; assert (R := E s); cbn [seqrun mixed_prog store_prog snd fst locked rlocked pmap pbind] in R).
  - split; [|exact R]. destruct s as [w [i g]]. do 2 apply lastc_assoc. unfold add_prog. apply lastc_assoc.
    apply lastc_zoom; [apply gl_new_node|]. destruct (seqrun (new_node_prog _ _ _ _) _) as [[n|x|p] [w1 g1]]; cbn [fst snd]; try exact I.
    destruct (so_upsert _); [apply lastc_zoom; [apply gl_add_node|exact I]|].
    apply lastc_assoc, lastc_zoom; [apply gl_add_node|exact I].
  - split; [eapply rov_read, disc_sget|]. split; [exact R|]. (etransitivity; [exact (f_equal snd R)|]); now destruct s.
  - split; [|exact R]. destruct s as [w [i g]]. do 2 apply lastc_assoc. apply lastc_zoom; [apply gl_remove_node|exact I].
  - split; [|exact R]. destruct s as [w [i g]]. do 3 apply lastc_assoc. apply lastc_zoom; [apply gl_link|exact I].
  - split; [|exact R]. destruct s as [w [i g]]. do 2 apply lastc_assoc. apply lastc_zoom; [apply gl_unlink|exact I].
  - split; [eapply rov_read, disc_sbulk_get|]. split; [exact R|]. (etransitivity; [exact (f_equal snd R)|]); now destruct s.
Qed.

(** ** the log *)
Definition one_change (c : mcall) : Prop := match c with inl c => single c | inr q => reading q.2 end.
Lemma two_one o c : one_change c -> two mfatal (HR 0) (HR 0) (mixed_prog o c).
Proof. intros H. apply two_mixed. now destruct c. Qed.
(** what is left of a call that does not ask for write locks leaves the graph alone *)
Lemma two_quiet {R} (fatal : R -> Prop) a h p s :
  two fatal a h p -> h <> HW -> more p s = false -> s_g (seqrun p s).2.2 = s_g s.2.
Proof.
  intros D. revert s. induction D as [| a h u k Na Nh W Rd D IH | k D IH | h k N D IH | k D IH | k D IH | h k N D IH | a n k N Z D IH | a n k N D IH | k D IH | k D IH | k D IH];
    intros s Nw M; cbn [more seqrun] in *; try discriminate; auto; try (apply IH; auto; discriminate); try contradiction.
  rewrite IH by auto. destruct W; [contradiction|auto].
Qed.
Lemma step_run {S R} (s : S) mu (p : prog S R) s' mu' p' : prog_step s mu p = Some (s', mu', p') -> seqrun p' s' = seqrun p s.
Proof.
  intros E. destruct p; cbn [prog_step] in E; [discriminate|..];
    repeat match type of E with context [match ?x with _ => _ end] => destruct x; try discriminate end; injection E as <- <- <-; reflexivity.
Qed.
Lemma reads_graph o q x y : reading q.2 -> s_g x.2 = s_g y.2 -> reads_off o q x = reads_off o q y.
Proof. destruct q as [st q]. unfold reads_off. destruct q; cbn; try tauto; intros _ ->; reflexivity. Qed.
Lemma read_call o q y : reading q.2 -> mixed_call o (inr q) y = (inr (reads_off o q y), y).
Proof. destruct q as [st q], y as [w [i g]]. unfold reads_off. destruct q; cbn; try tauto; reflexivity. Qed.

Section once.
  Context (o : iter_order) (s0 : sstate) (todo : list (list mcall)).
  Notation impl := (mixed_prog o).
  Notation call := (mixed_call o).
  Notation event := (nat * mcall * mret)%type.
  Context (NF : forall c, reachable impl s0 todo c -> forall i t op r,
             c_ths c !! i = Some t -> t_cur t = Some (op, Ret r) -> ~ mfatal r).
  (** A store call that takes the write lock enters the log when it gets the last
      write lock it asks for, others when they get their first lock. *)
  Definition emit (c : conf sstate mret mcall) (i : nat) : list event :=
    match c_ths c !! i with
    | Some t =>
        match t_cur t with
        | Some (inl x, RLock 0 k) => [(i, inl x, (seqrun k (c_sh c)).1)]
        | Some (inl x, LockWait _ k) => if more k (c_sh c) then [] else [(i, inl x, (seqrun k (c_sh c)).1)]
        | Some (inr q, RLock 1 k) => [(i, inr q, (seqrun k (c_sh c)).1)]
        | _ => []
        end
    | None => []
    end.
  Definition th_ok (s y : sstate) (t : thread sstate mret mcall) (a : hold) (l : list (mcall * mret)) : Prop :=
    match t_cur t with
    | None => l = t_done t
    | Some (inl x, p) =>
        match a with
        | HR 0 => (p = impl (inl x) /\ single x /\ l = t_done t) \/ exists r, p = Ret r /\ l = t_done t ++ [(inl x, r)]
        | HR _ => rov p s /\ l = t_done t ++ [(inl x, (seqrun p s).1)]
        | HA => (exists k, p = LockWait 0 k /\ forall s1, lastc k s1 /\ seqrun k s1 = call (inl x) s1) /\ l = t_done t
        | HW => lastc p s /\
            if more p s then l = t_done t /\ seqrun p s = call (inl x) y /\ s_g s.2 = s_g y.2
            else l = t_done t ++ [(inl x, (seqrun p s).1)] /\ (seqrun p s).2 = y
        end
    | Some (inr q, p) =>
        a = HR 0 /\ reading q.2 /\
        ((p = RLock 1 (read_act o q) /\ l = t_done t) \/
         ((p = read_act o q \/ exists r, p = RUnlock 1 (Ret r) \/ p = Ret r) /\ l = t_done t ++ [(inr q, (seqrun p s).1)]))
    end.
  Record binv (log : list event) (c : conf sstate mret mcall) (y : sstate) (la lh : list hold) : Prop := {
    bi_t : tinv mfatal one_change c la lh;
    bi_ths : forall i t a, c_ths c !! i = Some t -> la !! i = Some a -> th_ok (c_sh c) y t a (calls_of i log);
    bi_out : forall i, length (c_ths c) <= i -> calls_of i log = [];
    bi_legal : legal call s0 log y;
    bi_sh : total h_wr la = 0 -> c_sh c = y;
  }.
  (** nobody writes the graph: it is the one of the log *)
  Lemma binv_graph log c y la lh : binv log c y la lh -> total h_wr lh = 0 -> s_g (c_sh c).2 = s_g y.2.
  Proof.
    intros I Z. destruct (Nat.eq_0_gt_0_cases (total h_wr la)) as [E|P]; [now rewrite (bi_sh _ _ _ _ _ I E)|].
    destruct (total_pos _ _ P) as (i & a & Ea & Hw). destruct a; cbn in Hw; try lia.
    destruct (lookup_lt_is_Some_2 (c_ths c) i) as [t Et].
    { rewrite <- (ti_la _ _ _ _ _ (bi_t _ _ _ _ _ I)). by eapply lookup_lt_Some. }
    destruct (tinv_get _ _ _ _ _ _ _ (bi_t _ _ _ _ _ I) Et) as (a & h & Ea' & Eh & _ & O).
    rewrite Ea in Ea'. injection Ea' as <-. pose proof (bi_ths _ _ _ _ _ I _ _ _ Et Ea) as T. unfold th_ok in T.
    pose proof (total_ge h_wr _ _ _ Eh) as G.
    destruct (t_cur t) as [[[x|q] p]|]; [| |destruct O; discriminate].
    - destruct T as [_ T]. destruct (more p (c_sh c)) eqn:M; [tauto|]. destruct T as [_ <-]. symmetry.
      eapply two_quiet; eauto. intros ->. cbn in G. lia.
    - destruct T; discriminate.
  Qed.
  Lemma th_frame s s' y y' t a h l :
    th_ok s y t a l -> tok mfatal one_change t a h -> a <> HW ->
    ((exists n, a = HR (1 + n)) -> s' = s) -> (h <> HR 0 -> s_g s'.2 = s_g s.2) -> th_ok s' y' t a l.
  Proof.
    unfold th_ok. intros T [_ O] Na Hs Hg. destruct (t_cur t) as [[[x|q] p]|]; auto.
    - destruct a as [[|n]| |]; auto; [|contradiction]. rewrite Hs by (now exists n). auto.
    - destruct T as (-> & Hr & T). split; [auto|]. split; [auto|]. destruct T as [?|[Hp El]]; auto. right. split; auto. rewrite El.
      destruct Hp as [-> |(r & [-> | ->])]; auto. cbn [seqrun read_act fst]. do 3 f_equal.
      rewrite (reads_graph o q s' s); auto. apply Hg.
      inversion O as [|? ? ? ? _ _ _ _ K| | | | | | | | | |]; subst. specialize (K s). inversion K; subst. discriminate.
  Qed.
  Lemma binv_upd log c y la lh i t a h s' mu' t' a' h' ev y' :
    binv log c y la lh -> c_ths c !! i = Some t -> la !! i = Some a -> lh !! i = Some h ->
    tinv mfatal one_change (Conf s' mu' (<[i := t']> (c_ths c))) (<[i := a']> la) (<[i := h']> lh) ->
    th_ok s' y' t' a' (calls_of i log ++ calls_of i ev) ->
    (ev = [] \/ exists op r, ev = [(i, op, r)]) -> legal call s0 (log ++ ev) y' ->
    (total h_wr (<[i := a']> la) = 0 -> s' = y') ->
    s' = c_sh c \/ a = HW -> y' = y \/ a' = HW -> s_g s'.2 = s_g (c_sh c).2 \/ h' = HW ->
    binv (log ++ ev) (Conf s' mu' (<[i := t']> (c_ths c))) y' (<[i := a']> la) (<[i := h']> lh).
  Proof.
    intros I Et Ea Eh I' T Hev Hl Hsh Hs Hy Hg. pose proof (lookup_lt_Some _ _ _ Et) as Lt.
    pose proof (lookup_lt_Some _ _ _ Ea) as La. pose proof (lookup_lt_Some _ _ _ Eh) as Lh.
    assert (Hc : forall j, j <> i -> calls_of j (log ++ ev) = calls_of j log).
    { intros j N. rewrite calls_of_app. destruct Hev as [-> |(op & r & ->)]; cbn; [now rewrite app_nil_r|].
      destruct (Nat.eqb_spec i j); [congruence|now rewrite app_nil_r]. }
    split; auto; cbn [c_ths c_sh].
    - intros j t1 a1 E1 E2. destruct (decide (i = j)) as [<-|N].
      + rewrite list_lookup_insert in E1 by auto. rewrite list_lookup_insert in E2 by auto.
        injection E1 as <-. injection E2 as <-. now rewrite calls_of_app.
      + rewrite Hc by auto. rewrite list_lookup_insert_ne in E1 by auto.
        pose proof E2 as E2'. rewrite list_lookup_insert_ne in E2 by auto.
        destruct (tinv_get _ _ _ _ _ _ _ (bi_t _ _ _ _ _ I) E1) as (a2 & h1 & Ea2 & Eh1 & O).
        rewrite E2 in Ea2. injection Ea2 as <-. pose proof (bi_ths _ _ _ _ _ I _ _ _ E1 E2) as T1.
        assert (Eh1' : <[i:=h']> lh !! j = Some h1) by (rewrite list_lookup_insert_ne; auto).
        destruct (ti_0 _ _ _ _ _ (bi_t _ _ _ _ _ I)) as [_ _ _ A1 Ax].
        destruct (ti_0 _ _ _ _ _ I') as [_ _ _ B1 Bx]. destruct (ti_1 _ _ _ _ _ I') as [_ _ _ C1 Cx].
        assert (a1 = HW \/ a1 <> HW) as [-> |Nw] by (destruct a1; auto; right; discriminate).
        * assert (a <> HW) as Na.
          { intros ->. pose proof (total_ge2 h_wr _ _ _ _ _ N Ea E2) as G. cbn in G. lia. }
          assert (a' <> HW) as Na'.
          { intros ->. pose proof (total_ge2 h_wr _ _ _ _ _ N (list_lookup_insert la i HW La) E2') as G. cbn in G. lia. }
          destruct Hs as [-> |?]; [|contradiction]. destruct Hy as [-> |?]; [auto|contradiction].
        * eapply th_frame; eauto.
          -- intros [n ->]. destruct Hs as [?|Ew]; auto. exfalso.
             pose proof (total_ge h_wr _ _ _ Ea) as G. rewrite Ew in G. cbn in G. specialize (Ax ltac:(lia)).
             pose proof (total_ge h_rd _ _ _ E2) as G2. cbn in G2. lia.
          -- intros N0. destruct Hg as [?|Ew]; auto. exfalso.
             pose proof (list_lookup_insert lh i h' Lh) as Ei. rewrite Ew in *.
             pose proof (total_ge h_wr _ _ _ Ei) as G. cbn in G. specialize (Cx ltac:(lia)).
             pose proof (total_ge h_rd _ _ _ Eh1') as G2. pose proof (total_ge h_ann _ _ _ Eh1') as G3.
             pose proof (total_ge2 h_wr _ _ _ _ _ N Ei Eh1') as G4.
             destruct h1 as [[|n]| |]; cbn in *; try congruence; lia.
    - intros j Lj. rewrite insert_length in Lj. rewrite Hc by lia. now apply I.
  Qed.
  Lemma legal_one log y i op r y' : legal call s0 log y -> call op y = (r, y') -> legal call s0 (log ++ [(i, op, r)]) y'.
  Proof. intros L E. pose proof (legal_snoc call _ _ _ i op L) as H. now rewrite E in H. Qed.
  Lemma calls_one i op (r : mret) : calls_of i [(i, op, r)] = [(op : mcall, r)].
  Proof. cbn. now rewrite Nat.eqb_refl. Qed.
  Lemma total_keep f (l : list hold) i h h' : l !! i = Some h -> f h' = f h -> total f (<[i := h']> l) = total f l.
  Proof. intros E F. pose proof (total_insert f l i h h' E). lia. Qed.
  Lemma binv_step log c y la lh i c' : reachable impl s0 todo c ->
    binv log c y la lh -> conf_step impl c i = Some c' ->
    exists y' la' lh', binv (log ++ emit c i) c' y' la' lh'.
  Proof.
    intros Hr I E. destruct (c_ths c !! i) as [t|] eqn:Et; [|unfold conf_step in E; rewrite Et in E; discriminate].
    destruct (tinv_get _ _ _ _ _ _ _ (bi_t _ _ _ _ _ I) Et) as (a & h & Ea & Eh & AP & O).
    destruct (tinv_step impl mfatal one_change (two_one o) _ _ _ _ _ _ _ _ (bi_t _ _ _ _ _ I) Et Ea Eh E) as [(op & r & Ec & F)|I'].
    { exfalso. eapply NF; eauto. }
    pose proof (bi_ths _ _ _ _ _ I _ _ _ Et Ea) as T. unfold emit. rewrite Et.
    unfold conf_step in E. rewrite Et in E. destruct (thread_step impl (c_sh c) (c_mu c) t) as [[[s' mu'] t1]|] eqn:Es; [|discriminate].
    injection E as <-. unfold tnxt in I'. unfold th_ok in T.
    destruct (ti_0 _ _ _ _ _ (bi_t _ _ _ _ _ I)) as [Ar Aw Aa A1 Ax].
    destruct (ti_1 _ _ _ _ _ (bi_t _ _ _ _ _ I)) as [Mr Mw Ma M1 Mx].
    pose proof (bi_legal _ _ _ _ _ I) as L.
    destruct (t_cur t) as [[op p]|] eqn:Ec.
    2:{ (* the next call *)
      destruct O as [-> ->]. unfold thread_step in Es. rewrite Ec in Es.
      destruct (t_todo t) as [|op ops] eqn:Etd; [discriminate|]. injection Es as <- <- <-.
      exists y, (<[i := HR 0]> la), (<[i := HR 0]> lh).
      eapply (binv_upd _ _ _ _ _ _ _ _ _ _ _ _ _ _ [] y I Et Ea Eh I'); auto.
      - unfold th_ok. cbn [t_cur t_done calls_of]. rewrite app_nil_r. inversion AP as [|? ? Ha _]; subst. destruct op as [x|q]; [now left|].
        split; [auto|]. split; [auto|]. left. split; [|auto]. now apply read_prog.
      - now rewrite app_nil_r.
      - intros Z. rewrite (total_keep _ _ _ _ _ Ea) in Z by auto. now apply I. }
    destruct (match p with Ret r => Some r | _ => None end) as [r|] eqn:Er.
    { (* a call returns *)
      destruct p; try discriminate. clear Er r. unfold thread_step in Es. rewrite Ec in Es. injection Es as <- <- <-. cbn [nxt] in I'.
      destruct (tinv_get _ _ _ _ _ _ _ I' (list_lookup_insert _ _ _ (lookup_lt_Some _ _ _ Et))) as (a1 & h1 & E1 & E2 & _ & O1).
      rewrite list_lookup_insert in E1 by (eapply lookup_lt_Some; eauto). rewrite list_lookup_insert in E2 by (eapply lookup_lt_Some; eauto).
      cbn in O1. injection E1 as <-. injection E2 as <-. destruct O1 as [-> ->].
      assert (Ev : match op with inl x => [] | inr _ => [] end = @nil event) by (now destruct op).
      exists y, (<[i := HR 0]> la), (<[i := HR 0]> lh).
      replace (match op with inl _ => [] | inr _ => [] end) with (@nil event) by (now destruct op).
      eapply (binv_upd _ _ _ _ _ _ _ _ _ _ _ _ _ _ [] y I Et Ea Eh I'); auto.
      - unfold th_ok. cbn [t_cur t_done calls_of]. rewrite app_nil_r. destruct op as [x|q].
        + destruct T as [(Ep & Hx & _)|(r & [= <-] & ->)]; auto. exfalso.
          destruct (store_shape o x Hx) as [(k & Ek & _)|(k & Ek & _)]; rewrite Ek in Ep; discriminate.
        + destruct T as (_ & _ & [[? _]|[_ ->]]); [discriminate|reflexivity].
      - now rewrite app_nil_r.
      - intros Z. rewrite (total_keep _ _ _ _ _ Ea) in Z by auto. now apply I. }
    rewrite (thread_step_prog _ _ _ _ _ _ Ec) in Es by (intros r ->; discriminate).
    destruct (prog_step (c_sh c) (c_mu c) p) as [[[s1 mu1] p1]|] eqn:Ep; [|discriminate].
    injection Es as <- <- <-. pose proof (step_run _ _ _ _ _ _ Ep) as Er1.
    destruct op as [x|q].
    - destruct a as [[|n]| |].
      + (* the call asks for the store's mutex *)
        destruct T as [(-> & Hx & El)|(r & -> & _)]; [|discriminate].
        destruct (store_shape o x Hx) as [(k & Ek & Hk)|(k & Ek & Hk)]; rewrite Ek in *; cbn [prog_step] in Ep;
          destruct (m_ann (c_mu c 0)) eqn:EA; try discriminate; injection Ep as <- <- <-; cbn [nxt Nat.eqb] in I'.
        * eexists y, _, _. eapply (binv_upd _ _ _ _ _ _ _ _ _ _ _ _ _ _ [] y I Et Ea Eh I'); auto.
          -- unfold th_ok. cbn [t_cur t_done calls_of]. rewrite app_nil_r. eauto.
          -- now rewrite app_nil_r.
          -- intros Z. rewrite (total_keep _ _ _ _ _ Ea) in Z by auto. now apply I.
        * symmetry in Aa. apply Nat.ltb_ge in Aa. assert (Ey : c_sh c = y) by (apply I; lia).
          destruct (Hk (c_sh c)) as (Hv & Hc & H2).
          eexists y, _, _. eapply (binv_upd _ _ _ _ _ _ _ _ _ _ _ _ _ _ _ y I Et Ea Eh I'); auto; [|right; eauto|].
          -- unfold th_ok. cbn [t_cur t_done Nat.add]. rewrite calls_one, El. auto.
          -- apply legal_one with y; auto. rewrite <- Ey, <- Hc. rewrite <- H2 at 3. apply surjective_pairing.
      + (* under the read lock *)
        destruct T as [Hv El].
        inversion O as [|? ? u k Na Nh W Rd D| | ? k Nh D| | | |? m k Na Nz D|? m k Na D| | |]; subst; cbn [prog_step rov Nat.eqb] in *.
        * discriminate.
        * destruct Hv as [Eu Hv]. injection Ep as <- <- <-. cbn [nxt] in I'. rewrite Eu in *.
          eexists y, _, _. eapply (binv_upd _ _ _ _ _ _ _ _ _ _ _ _ _ _ [] y I Et Ea Eh I'); auto.
          -- unfold th_ok. cbn [t_cur t_done calls_of]. rewrite app_nil_r, El, Er1. auto.
          -- now rewrite app_nil_r.
          -- intros Z. rewrite (total_keep _ _ _ _ _ Ea) in Z by auto. now apply I.
        * destruct (m_rd (c_mu c 0)); [discriminate|]. injection Ep as <- <- <-. cbn [nxt Nat.eqb] in I'.
          destruct k as [r| | | | | |]; try contradiction.
          eexists y, _, _. eapply (binv_upd _ _ _ _ _ _ _ _ _ _ _ _ _ _ [] y I Et Ea Eh I'); auto.
          -- unfold th_ok. cbn [t_cur t_done calls_of]. rewrite app_nil_r, El. right. eauto.
          -- now rewrite app_nil_r.
          -- intros Z. rewrite (total_keep _ _ _ _ _ Ea) in Z by auto. now apply I.
        * destruct (m_ann (c_mu c 1)); [discriminate|]. injection Ep as <- <- <-. cbn [nxt Nat.eqb] in I'.
          eexists y, _, _. eapply (binv_upd _ _ _ _ _ _ _ _ _ _ _ _ _ _ [] y I Et Ea Eh I'); auto.
          -- unfold th_ok. cbn [t_cur t_done calls_of]. rewrite app_nil_r, El. auto.
          -- now rewrite app_nil_r.
          -- intros Z. rewrite (total_keep _ _ _ _ _ Ea) in Z by auto. now apply I.
        * destruct (m_rd (c_mu c 1)); [discriminate|]. injection Ep as <- <- <-. cbn [nxt Nat.eqb] in I'.
          eexists y, _, _. eapply (binv_upd _ _ _ _ _ _ _ _ _ _ _ _ _ _ [] y I Et Ea Eh I'); auto.
          -- unfold th_ok. cbn [t_cur t_done calls_of]. rewrite app_nil_r, El. auto.
          -- now rewrite app_nil_r.
          -- intros Z. rewrite (total_keep _ _ _ _ _ Ea) in Z by auto. now apply I.
      + (* the call gets the write lock *)
        destruct T as [(k & -> & Hk) El]. cbn [prog_step] in Ep. destruct (m_rd (c_mu c 0)) eqn:ER; [|discriminate].
        injection Ep as <- <- <-. cbn [nxt Nat.eqb] in I'.
        pose proof (total_ge h_ann _ _ _ Ea) as Ga. cbn in Ga. assert (Ey : c_sh c = y) by (apply I; lia).
        destruct (Hk (c_sh c)) as (Hv & Hc). rewrite <- Ey in *.
        assert (W1 : total h_wr (<[i:=HW]> la) <> 0).
        { pose proof (total_ge h_wr _ _ _ (list_lookup_insert la i HW (lookup_lt_Some _ _ _ Ea))) as G. cbn in G. lia. }
        destruct (more k (c_sh c)) eqn:Em.
        * eexists y, _, _. eapply (binv_upd _ _ _ _ _ _ _ _ _ _ _ _ _ _ [] y I Et Ea Eh I'); auto.
          -- unfold th_ok. cbn [t_cur t_done calls_of]. rewrite app_nil_r, El, Em, <- Ey. auto.
          -- rewrite app_nil_r. now rewrite <- Ey.
        * exists (seqrun k (c_sh c)).2. eexists _, _. eapply (binv_upd _ _ _ _ _ _ _ _ _ _ _ _ _ _ _ _ I Et Ea Eh I'); auto; [|right; eauto| |].
          -- unfold th_ok. cbn [t_cur t_done]. rewrite calls_one, El, Em. auto.
          -- apply legal_one with (c_sh c); auto. rewrite <- Hc. apply surjective_pairing.
          -- congruence.
      + (* under the write lock *)
        destruct T as [Hv T].
        assert (Keep : forall a1 h1 (s2 : sstate) mu2 p2,
          tinv mfatal one_change (Conf s2 mu2 (<[i := Thread (Some (inl x, p2)) (t_todo t) (t_done t)]> (c_ths c))) (<[i := a1]> la) (<[i := h1]> lh) ->
          a1 = HW -> lastc p2 s2 -> more p2 s2 = more p (c_sh c) -> seqrun p2 s2 = seqrun p (c_sh c) ->
          (more p (c_sh c) = true -> s_g s2.2 = s_g (c_sh c).2) -> s_g s2.2 = s_g (c_sh c).2 \/ h1 = HW ->
          exists y' la' lh', binv (log ++ []) (Conf s2 mu2 (<[i := Thread (Some (inl x, p2)) (t_todo t) (t_done t)]> (c_ths c))) y' la' lh').
        { intros a1 h1 s2 mu2 p2 I1 -> Hl Hm Hq Hg Hh. eexists y, _, _.
          eapply (binv_upd _ _ _ _ _ _ _ _ _ _ _ _ _ _ [] y I Et Ea Eh I1); auto.
          - unfold th_ok. cbn [t_cur t_done calls_of]. rewrite app_nil_r. split; [auto|]. rewrite Hm, Hq.
            destruct (more p (c_sh c)); [|auto]. destruct T as (T1 & T2 & T3). split; [auto|]. split; [auto|]. rewrite Hg; auto.
          - now rewrite app_nil_r.
          - intros Z. pose proof (total_ge h_wr _ _ _ (list_lookup_insert la i HW (lookup_lt_Some _ _ _ Ea))) as G. cbn in G. lia. }
        inversion O as [|? ? u k Na Nh W Rd D| | | | |? k Nh D|? m k Na Nz D|? m k Na D|k D|k D|k D]; subst; cbn [prog_step lastc Nat.eqb] in *.
        * discriminate.
        * injection Ep as <- <- <-. cbn [nxt] in I'. destruct Hv as [Hg Hv]. eapply Keep; eauto. destruct W; auto.
        * destruct (m_wr (c_mu c 0)); [|discriminate]. injection Ep as <- <- <-. cbn [nxt Nat.eqb] in I'.
          destruct k as [r| | | | | |]; try contradiction. cbn [more seqrun fst snd] in T. destruct T as [El Ey].
          eexists y, _, _. eapply (binv_upd _ _ _ _ _ _ _ _ _ _ _ _ _ _ [] y I Et Ea Eh I'); auto.
          -- unfold th_ok. cbn [t_cur t_done calls_of]. rewrite app_nil_r, El. right. eauto.
          -- now rewrite app_nil_r.
        * destruct (m_ann (c_mu c 1)); [discriminate|]. injection Ep as <- <- <-. cbn [nxt Nat.eqb] in I'. eapply Keep; eauto.
        * destruct (m_rd (c_mu c 1)); [discriminate|]. injection Ep as <- <- <-. cbn [nxt Nat.eqb] in I'. eapply Keep; eauto.
        * destruct (m_ann (c_mu c 1)); [discriminate|]. injection Ep as <- <- <-. cbn [nxt Nat.eqb] in I'. eapply Keep; eauto.
        * destruct (m_rd (c_mu c 1)); [|discriminate]. injection Ep as <- <- <-. cbn [nxt Nat.eqb] in I'.
          cbn [more seqrun] in T, Keep. destruct (more k (c_sh c)) eqn:Em; [eapply Keep; eauto|].
          destruct T as (El & Hc & Hg).
          exists (seqrun k (c_sh c)).2. eexists _, _. eapply (binv_upd _ _ _ _ _ _ _ _ _ _ _ _ _ _ _ _ I Et Ea Eh I'); auto; [|right; eauto| |].
          -- unfold th_ok. cbn [t_cur t_done]. rewrite calls_one, El, Em. auto.
          -- apply legal_one with y; auto. rewrite <- Hc. apply surjective_pairing.
          -- intros Z. pose proof (total_ge h_wr _ _ _ (list_lookup_insert la i HW (lookup_lt_Some _ _ _ Ea))) as G. cbn in G. lia.
        * destruct (m_wr (c_mu c 1)); [|discriminate]. injection Ep as <- <- <-. cbn [nxt Nat.eqb] in I'. eapply Keep; eauto.
    - (* a reading call *)
      destruct T as (-> & Hq & T). destruct T as [[-> El]|[Hp El]].
      + cbn [prog_step] in Ep. destruct (m_ann (c_mu c 1)) eqn:EA; [discriminate|]. injection Ep as <- <- <-.
        symmetry in Ma. apply Nat.ltb_ge in Ma.
        cbn [nxt Nat.eqb] in I'. eexists y, _, _.
        eapply (binv_upd _ _ _ _ _ _ _ _ _ _ _ _ _ _ _ y I Et Ea Eh I'); auto; [|right; eauto| |].
        * unfold th_ok. cbn [t_cur t_done]. rewrite calls_one, El. split; [auto|]. split; [auto|]. right. auto.
        * cbn [seqrun read_act fst]. apply legal_one with y; auto. rewrite read_call by auto. do 2 f_equal. symmetry.
          apply reads_graph; auto. apply (binv_graph _ _ _ _ _ I). lia.
        * intros Z. rewrite (total_keep _ _ _ _ _ Ea) in Z by auto. now apply I.
      + assert (Hs : s1 = c_sh c /\ (exists r, p1 = RUnlock 1 (Ret r) \/ p1 = Ret r) /\ nxt 0 (HR 0) p = HR 0).
        { destruct Hp as [-> |(r & [-> | ->])]; cbn [prog_step read_act] in Ep; [| |discriminate].
          - rewrite stay_id in Ep. injection Ep as <- <- <-. eauto.
          - destruct (m_rd (c_mu c 1)); [discriminate|]. injection Ep as <- <- <-. eauto. }
        destruct Hs as (-> & Hp1 & Ha).
        assert (Hev : match p with RLock 1 k => [(i, inr q, (seqrun k (c_sh c)).1)] | _ => [] end = @nil event).
        { destruct Hp as [-> |(r & [-> | ->])]; reflexivity. }
        rewrite Ha in I'. eexists y, _, _. rewrite Hev.
        eapply (binv_upd _ _ _ _ _ _ _ _ _ _ _ _ _ _ [] y I Et Ea Eh I'); auto.
        * unfold th_ok. cbn [t_cur t_done calls_of]. rewrite app_nil_r, El, Er1. split; [auto|]. split; [auto|]. right. auto.
        * now rewrite app_nil_r.
        * intros Z. rewrite (total_keep _ _ _ _ _ Ea) in Z by auto. now apply I.
  Qed.
  Fixpoint lin_of (c : conf sstate mret mcall) (sched : list nat) : list event :=
    match sched with
    | [] => []
    | i :: sched' => match conf_step impl c i with None => [] | Some c' => emit c i ++ lin_of c' sched' end
    end.
  Lemma lin_of_prefix c s1 s2 : lin_of c s1 `prefix_of` lin_of c (s1 ++ s2).
  Proof.
    revert c. induction s1 as [|i s1 IH]; intros c; cbn [lin_of app].
    - apply prefix_nil.
    - destruct (conf_step impl c i); [|done]. now apply prefix_app.
  Qed.
  Lemma binv_init : Forall (Forall one_change) todo ->
    binv [] (conf_init s0 todo) s0 (replicate (length todo) (HR 0)) (replicate (length todo) (HR 0)).
  Proof.
    intros A. split; [now apply tinv_init| |auto|constructor|auto].
    intros i t a Et _. cbn in Et. rewrite list_lookup_fmap in Et. destruct (todo !! i); [|discriminate]. injection Et as <-. reflexivity.
  Qed.
  Lemma binv_exec log c y la lh sched c' : reachable impl s0 todo c ->
    binv log c y la lh -> exec impl c sched = Some c' ->
    exists y' la' lh', binv (log ++ lin_of c sched) c' y' la' lh'.
  Proof.
    revert log c y la lh. induction sched as [|i sched IH]; intros log c y la lh Hr I E; cbn [exec lin_of] in *.
    - injection E as <-. exists y, la, lh. now rewrite app_nil_r.
    - destruct (conf_step impl c i) as [c1|] eqn:Es; [|discriminate].
      destruct (binv_step _ _ _ _ _ _ _ Hr I Es) as (y1 & la1 & lh1 & I1).
      assert (Hr1 : reachable impl s0 todo c1) by (destruct Hr as [sc Hsc]; exists (sc ++ [i]); eapply exec_snoc; eauto).
      destruct (IH _ _ _ _ _ Hr1 I1 E) as (y2 & la2 & lh2 & I2). exists y2, la2, lh2. now rewrite app_assoc.
  Qed.
  Theorem once_linearize : Forall (Forall one_change) todo -> linearization impl call s0 todo.
  Proof.
    intros A. exists (lin_of (conf_init s0 todo)). split; [intros; apply lin_of_prefix|].
    intros sched c E. destruct (binv_exec [] _ _ _ _ _ _ (ex_intro _ [] eq_refl) (binv_init A) E) as (y & la & lh & I). cbn [app] in I.
    split; [|split].
    - exists y. split; [apply I|]. intros Q. apply I.
      destruct (Nat.eq_0_gt_0_cases (total h_wr la)) as [|P]; auto.
      destruct (total_pos _ _ P) as (i & a & Ea & Hw). destruct a; cbn in Hw; try lia.
      destruct (lookup_lt_is_Some_2 (c_ths c) i) as [t Et].
      { rewrite <- (ti_la _ _ _ _ _ (bi_t _ _ _ _ _ I)). by eapply lookup_lt_Some. }
      destruct (tinv_get _ _ _ _ _ _ _ (bi_t _ _ _ _ _ I) Et) as (a & h & Ea' & Eh & _ & O).
      apply (Forall_lookup_1 _ _ _ _ Q) in Et. rewrite Et in O. destruct O as [-> _]. congruence.
    - intros i t Et. destruct (tinv_get _ _ _ _ _ _ _ (bi_t _ _ _ _ _ I) Et) as (a & h & Ea & _ & _).
      pose proof (bi_ths _ _ _ _ _ I _ _ _ Et Ea) as T. unfold th_ok in T.
      destruct (t_cur t) as [[[x|q] p]|]; auto.
      + destruct a as [[|n]| |].
        * destruct T as [(_ & _ & ?)|(r & _ & ?)]; auto. right. eauto 6.
        * destruct T as [_ ?]. right. eauto 6.
        * tauto.
        * destruct T as [_ T]. destruct (more p (c_sh c)); [tauto|]. destruct T. right. eauto 6.
      + destruct T as (_ & _ & [[_ ?]|[_ ?]]); auto. right. eauto 6.
    - apply I.
  Qed.
End once.

(** with enough ids no call of the store is fatal, readers or not *)
Lemma mixed_not_fatal o s0 todo :
  (forall e, reachable (store_prog o) s0 (left_todo todo) e -> ~ returned sfatal e) -> Forall (Forall allowed) todo ->
  forall c, reachable (mixed_prog o) s0 todo c -> forall i t op r, c_ths c !! i = Some t -> t_cur t = Some (op, Ret r) -> ~ mfatal r.
Proof.
  intros NF A c Hr i t op r Et Ec (r' & -> & F).
  destruct (sim_reach o s0 todo NF c A Hr) as (sched & e & la & lh & le & H).
  destruct (lookup_lt_is_Some_2 (c_ths e) i) as [t' Et'].
  { rewrite (sm_len _ _ _ _ _ _ _ _ _ H). eapply lookup_lt_Some; eauto. }
  destruct (sm_ths _ _ _ _ _ _ _ _ _ H _ _ _ Et Et') as (_ & _ & _ & Tc). rewrite Ec in Tc. destruct op as [op|q].
  - destruct Tc as (p' & Ep & Ec'). destruct p'; try discriminate. injection Ep as <-.
    apply (NF e); [exists sched; apply H|]. exists t'. split; [eapply elem_of_list_lookup_2; eauto|]. right. exists op, r'. auto.
  - destruct Tc as (_ & [?|[?|(r & [?|?] & _)]]); discriminate.
Qed.

(** ** one goroutine *)
Lemma alone_run {S R Op} (impl : Op -> prog S R) (op : Op) s e :
  reachable impl s [[op]] e -> finished e ->
  exists t, c_ths e = [t] /\ t_done t = [(op, (seqrun (impl op) s).1)] /\ c_sh e = (seqrun (impl op) s).2.
Proof.
  intros [sched E] F.
  assert (I : exists t, c_ths e = [t] /\
    ((t = Thread None [op] [] /\ c_sh e = s) \/
     (exists p, t = Thread (Some (op, p)) [] [] /\ seqrun p (c_sh e) = seqrun (impl op) s) \/
     (t = Thread None [] [(op, (seqrun (impl op) s).1)] /\ c_sh e = (seqrun (impl op) s).2))).
  { assert (I0 : exists t, c_ths (conf_init s [[op]]) = [t] /\
      ((t = Thread None [op] [] /\ c_sh (conf_init (R := R) s [[op]]) = s) \/
       (exists p, t = Thread (Some (op, p)) [] [] /\ seqrun p (c_sh (conf_init (R := R) s [[op]])) = seqrun (impl op) s) \/
       (t = Thread None [] [(op, (seqrun (impl op) s).1)] /\ c_sh (conf_init (R := R) s [[op]]) = (seqrun (impl op) s).2))).
    { eexists. split; [reflexivity|]. left. auto. }
    revert E I0. generalize (conf_init (R := R) s [[op]]). induction sched as [|i sched IH]; intros c E I0; cbn [exec] in E.
    - injection E as <-. exact I0.
    - destruct (conf_step impl c i) as [c1|] eqn:Es; [|discriminate]. apply (IH c1 E). clear IH E F.
      destruct I0 as (t & Et & I0). unfold conf_step in Es. rewrite Et in Es. destruct i as [|i]; [|discriminate]. cbn [lookup list_lookup] in Es.
      destruct I0 as [[-> Hs]|[(p & -> & Hs)|[-> _]]].
      + cbn in Es. injection Es as <-. eexists. split; [reflexivity|]. right. left. eexists. split; [reflexivity|]. cbn. now rewrite Hs.
      + destruct (match p with Ret r => Some r | _ => None end) as [r|] eqn:Er.
        * destruct p; try discriminate. cbn in Es. injection Es as <-. eexists. split; [reflexivity|]. right. right.
          cbn in *. rewrite <- Hs. auto.
        * rewrite (thread_step_prog impl (c_sh c) (c_mu c) (Thread (Some (op, p)) [] []) op p eq_refl) in Es by (intros r ->; discriminate).
          destruct (prog_step (c_sh c) (c_mu c) p) as [[[s1 mu1] p1]|] eqn:Ep; [|discriminate]. injection Es as <-.
          eexists. split; [reflexivity|]. right. left. eexists. split; [reflexivity|]. cbn. now rewrite (step_run _ _ _ _ _ _ Ep).
      + discriminate. }
  destruct I as (t & Et & I). exists t. split; auto. unfold finished in F. rewrite Et in F. apply Forall_inv in F as [F1 F2].
  destruct I as [[-> _]|[(p & -> & _)|[-> Hs]]]; [discriminate|discriminate|auto].
Qed.
Lemma seqrun_mixed o c x :
  (forall q, seqrun (graph_prog o q) (x.1, s_g x.2) = graph_call o q (x.1, s_g x.2)) ->
  seqrun (mixed_prog o c) x = mixed_call o c x.
Proof.
  intros H. destruct c as [c|q]; cbn [mixed_prog mixed_call]; rewrite seqrun_map.
  - assert (E : seqrun (store_prog o c) x = store_call o c x).
    { destruct (store_sections o c) as [(b & -> & _ & <-)|(b & -> & _ & <-)]; [apply seqrun_locked|apply seqrun_rlocked]. }
    rewrite E. now destruct (store_call o c x).
  - destruct x as [w [i g]]. rewrite zoom_run. cbn [fst snd s_g s_uid] in *. rewrite H. now destruct (graph_call o q (w, g)).
Qed.
