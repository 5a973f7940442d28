(** Calls without locks whose effect is one last step, and attribute calls among them. *)
From Verif.Model Require Import AttrsConc.
From Verif.Spec Require Import LinSpec AttrsConcSpec.
From Verif.Proof Require Import LinP AttrsP.

(** ** programs that end with their only effect *)
Section single.
  Context {S R Op : Type} (impl : Op -> prog S R) (call : Op -> S -> R * S).
  Context (ok : nat -> Op -> Prop) (good : S -> Prop) (pending : Op -> prog S R -> S -> Prop).
  Notation event := (nat * Op * R)%type.
  Context (H0 : forall i op s, ok i op -> good s -> pending op (impl op) s).
  Context (H1 : forall op p s, pending op p s -> exists u k, p = Act u k /\
             ((exists r, k s = Ret r /\ call op s = (r, u s)) \/ (u s = s /\ pending op (k s) s))).
  Context (H2 : forall i j op op' p s, i <> j -> ok i op -> ok j op' -> good s -> pending op p s -> pending op p (call op' s).2).
  Context (H3 : forall i op s, ok i op -> good s -> good (call op s).2).

  Definition semit (c : conf S R Op) (i : nat) : list event :=
    match c_ths c !! i with
    | Some t =>
        match t_cur t with
        | Some (op, Act u k) => match k (c_sh c) with Ret r => [(i, op, r)] | _ => [] end
        | _ => []
        end
    | None => []
    end.
  Definition sth (s : S) (i : nat) (t : thread S R Op) (l : list (Op * R)) : Prop :=
    Forall (ok i) (t_todo t) /\
    match t_cur t with
    | None => l = t_done t
    | Some (op, p) => ok i op /\ ((exists r, p = Ret r /\ l = t_done t ++ [(op, r)]) \/ (pending op p s /\ l = t_done t))
    end.
  Record sinv (s0 : S) (log : list event) (c : conf S R Op) : Prop := {
    si_legal : legal call s0 log (c_sh c);
    si_good : good (c_sh c);
    si_th : forall i t, c_ths c !! i = Some t -> sth (c_sh c) i t (calls_of i log);
    si_out : forall i, length (c_ths c) <= i -> calls_of i log = [];
  }.
  Lemma sinv_upd s0 log c i t t' ev s' mu' :
    sinv s0 log c -> c_ths c !! i = Some t ->
    (ev = [] /\ s' = c_sh c \/ exists op r, ok i op /\ ev = [(i, op, r)] /\ call op (c_sh c) = (r, s')) ->
    sth s' i t' (calls_of i log ++ calls_of i ev) ->
    sinv s0 (log ++ ev) (Conf s' mu' (<[i := t']> (c_ths c))).
  Proof.
    intros I Et Hev T.
    assert (Lt : i < length (c_ths c)) by (eapply lookup_lt_Some; eauto).
    assert (Hc : forall j, j <> i -> calls_of j (log ++ ev) = calls_of j log).
    { intros j N. rewrite calls_of_app. destruct Hev as [[-> _]|(op & r & _ & -> & _)]; cbn; [now rewrite app_nil_r|].
      destruct (Nat.eqb_spec i j); [congruence|now rewrite app_nil_r]. }
    constructor; cbn [c_sh c_ths].
    - destruct Hev as [[-> ->]|(op & r & _ & -> & E)]; [rewrite app_nil_r; apply I|].
      pose proof (legal_snoc call _ _ _ i op (si_legal _ _ _ I)) as L. now rewrite E in L.
    - destruct Hev as [[-> ->]|(op & r & O & -> & E)]; [apply I|].
      pose proof (H3 _ _ _ O (si_good _ _ _ I)) as G. now rewrite E in G.
    - intros j t1 E1. destruct (decide (i = j)) as [<-|N].
      + rewrite list_lookup_insert in E1 by auto. injection E1 as <-. now rewrite calls_of_app.
      + rewrite list_lookup_insert_ne in E1 by auto. rewrite Hc by auto.
        destruct (si_th _ _ _ I _ _ E1) as [T1 T2]. split; [auto|].
        destruct (t_cur t1) as [[op p]|]; auto. destruct T2 as [O [?|[P El]]]; split; auto. right. split; auto.
        destruct Hev as [[_ ->]|(op' & r & O' & _ & E)]; auto.
        pose proof (H2 j i op op' p (c_sh c) ltac:(auto) O O' (si_good _ _ _ I) P) as P'. now rewrite E in P'.
    - intros j Lj. rewrite insert_length in Lj. rewrite Hc by lia. now apply I.
  Qed.
  Lemma sinv_step s0 log c i c' : sinv s0 log c -> conf_step impl c i = Some c' -> sinv s0 (log ++ semit c i) c'.
  Proof.
    intros I E. unfold conf_step in E. destruct (c_ths c !! i) as [t|] eqn:Et; [|discriminate].
    destruct (thread_step impl (c_sh c) (c_mu c) t) as [[[s' mu'] t']|] eqn:Es; [|discriminate]. injection E as <-.
    destruct (si_th _ _ _ I _ _ Et) as [T1 T2]. unfold semit. rewrite Et. unfold thread_step in Es.
    destruct (t_cur t) as [[op p]|] eqn:Ec.
    - destruct T2 as [O [(r & -> & El)|[P El]]].
      + injection Es as <- <- <-. eapply sinv_upd; eauto. split; [auto|]. cbn [t_cur t_done calls_of]. now rewrite app_nil_r.
      + destruct (H1 _ _ _ P) as (u & k & -> & Hs). cbn [prog_step] in Es. injection Es as <- <- <-.
        destruct Hs as [(r & Ek & Hc)|[Eu P']].
        * rewrite Ek. eapply sinv_upd; eauto 6. split; [auto|]. cbn [t_cur t_done calls_of]. rewrite Nat.eqb_refl, El. eauto.
        * assert (Ev : match k (c_sh c) with Ret r => [(i, op, r)] | _ => [] end = @nil event).
          { destruct (H1 _ _ _ P') as (u' & k' & -> & _). auto. }
          rewrite Ev, Eu. eapply sinv_upd; eauto. split; [auto|]. cbn [t_cur t_done calls_of]. rewrite app_nil_r. auto.
    - destruct (t_todo t) as [|op ops] eqn:Etd; [discriminate|]. injection Es as <- <- <-. inversion T1; subst.
      eapply sinv_upd; eauto. split; [auto|]. cbn [t_cur t_done calls_of]. rewrite app_nil_r. split; [auto|]. right.
      split; auto. eapply H0; eauto. apply I.
  Qed.
  Fixpoint slog (c : conf S R Op) (sched : list nat) : list event :=
    match sched with
    | [] => []
    | i :: sched' => match conf_step impl c i with Some c' => semit c i ++ slog c' sched' | None => [] end
    end.
  Lemma slog_prefix c s1 s2 : slog c s1 `prefix_of` slog c (s1 ++ s2).
  Proof.
    revert c. induction s1 as [|i s1 IH]; intros c; cbn [slog app]; [apply prefix_nil|].
    destruct (conf_step impl c i); [|done]. now apply prefix_app.
  Qed.
  Lemma sinv_exec s0 log c sched c' : sinv s0 log c -> exec impl c sched = Some c' -> sinv s0 (log ++ slog c sched) c'.
  Proof.
    revert log c. induction sched as [|i sched IH]; intros log c I E; cbn [exec slog] in *.
    - injection E as <-. now rewrite app_nil_r.
    - destruct (conf_step impl c i) as [c1|] eqn:Es; [|discriminate].
      rewrite app_assoc. eapply IH; eauto. now apply sinv_step.
  Qed.
  Context (s0 : S) (todo : list (list Op)) (G : good s0) (A : forall i l, todo !! i = Some l -> Forall (ok i) l).
  Lemma sinv_init : sinv s0 [] (conf_init s0 todo).
  Proof.
    constructor; cbn; auto; [constructor|]. intros i t Et. rewrite list_lookup_fmap in Et.
    destruct (todo !! i) as [l|] eqn:El; [|discriminate]. injection Et as <-. split; cbn; eauto.
  Qed.
  Lemma sinv_reach c : reachable impl s0 todo c -> exists log, sinv s0 log c.
  Proof. intros [sched E]. eexists. exact (sinv_exec _ _ _ _ _ sinv_init E). Qed.
  Lemma single_linearization : linearization impl call s0 todo.
  Proof.
    exists (slog (conf_init s0 todo)). split; [intros; apply slog_prefix|]. intros sched c E.
    pose proof (sinv_exec _ _ _ _ _ sinv_init E) as I. cbn [app] in I. split; [|split].
    - exists (c_sh c). split; auto. apply I.
    - intros i t Et. destruct (si_th _ _ _ I _ _ Et) as [_ T]. destruct (t_cur t) as [[op p]|]; auto.
      destruct T as [_ [(r & -> & El)|[_ El]]]; eauto 6.
    - apply I.
  Qed.
End single.

(** ** programs that read some maps *)
Definition agree (A : aref -> Prop) (w w' : world) : Prop := forall a, A a -> attrs_map w a = attrs_map w' a.
Inductive rdp {R} (A : aref -> Prop) : prog world R -> Prop :=
| rdp_ret r : rdp A (Ret r)
| rdp_act k : (forall w w', agree A w w' -> k w' = k w) -> (forall w, rdp A (k w)) -> rdp A (Act id k).
(** reads, then one last step *)
Inductive quietp {R} (A : aref -> Prop) : prog world R -> Prop :=
| quietp_act u k : (forall w, (exists r, k w = Ret r) \/
    (quietp A (k w) /\ forall w', agree A w w' -> k w' = k w /\ u w' = w')) -> quietp A (Act u k).
Lemma rdp_bind {X Y} A (p : prog world X) (f : X -> prog world Y) : rdp A p -> (forall x, rdp A (f x)) -> rdp A (pbind p f).
Proof.
  intros D F. induction D as [r|k E D IH]; cbn [pbind]; auto. constructor; auto.
  intros w w' H. now rewrite (E w w' H).
Qed.
Lemma rdp_quiet {X} A (p : prog world X) : rdp A p -> (exists r, p = Ret r) \/ quietp A p.
Proof.
  intros D. induction D as [r|k E D IH]; [eauto|]. right. constructor. intros w.
  destruct (IH w) as [?|Q]; auto.
Qed.
Lemma quiet_bind {X Y} A (p : prog world X) (f : X -> prog world Y) :
  rdp A p -> (forall x, (exists r, f x = Ret r) \/ quietp A (f x)) -> (exists r, pbind p f = Ret r) \/ quietp A (pbind p f).
Proof.
  intros D F. induction D as [r|k E D IH]; cbn [pbind]; auto. right. constructor. intros w.
  destruct (IH w) as [?|Q]; auto. right. split; auto. intros w' H. split; [now rewrite (E w w' H)|reflexivity].
Qed.
(** what each step touches: A is read, B is changed *)
Inductive acc {R} (A B : aref -> Prop) : prog world R -> Prop :=
| acc_ret r : acc A B (Ret r)
| acc_act u k :
    (forall w a, world_wf w -> is_Some (w_attrs w !! a) -> ~ B a -> attrs_map (u w) a = attrs_map w a) ->
    (forall w a m, ~ A a -> k (attrs_put w a m) = k w) -> (forall w, acc A B (k w)) -> acc A B (Act u k).
Lemma acc_bind {X Y} A B (p : prog world X) (f : X -> prog world Y) : acc A B p -> (forall x, acc A B (f x)) -> acc A B (pbind p f).
Proof.
  intros D F. induction D as [r|u k Eu Ek D IH]; cbn [pbind]; auto. constructor; auto.
  intros w a m H. now rewrite Ek.
Qed.
Lemma attrs_put_same w a m : attrs_map (attrs_put w a m) a = m.
Proof. unfold attrs_map, attrs_put. cbn. now rewrite lookup_insert. Qed.
Lemma attrs_put_other w a m b : b <> a -> attrs_map (attrs_put w a m) b = attrs_map w b.
Proof. intros N. unfold attrs_map, attrs_put. cbn. rewrite lookup_insert_ne by auto. reflexivity. Qed.
Lemma rdp_acc {X} A B (p : prog world X) : rdp A p -> acc A B p.
Proof.
  intros D. induction D as [r|k E D IH]; constructor; auto. intros w a m N. apply E. intros b Hb.
  symmetry. apply attrs_put_other. intros ->. contradiction.
Qed.

(** ** the calls *)
Lemma rdp_load {X} a (k : world -> X) : (forall w w', attrs_map w a = attrs_map w' a -> k w' = k w) ->
  rdp (fun b => a = b) (pbind load (fun w => Ret (k w))).
Proof. intros E. constructor; [|constructor]. intros w w' H. cbn. f_equal. apply E, H, eq_refl. Qed.
Lemma rdp_get a k : rdp (fun b => a = b) (aget_prog a k).
Proof. apply rdp_load. intros w w' E. unfold attrs_get. now rewrite E. Qed.
Lemma rdp_keys o st a : rdp (fun b => a = b) (akeys_prog o st a).
Proof.
  constructor; intros w.
  - intros w' H. cbn. now rewrite (H a eq_refl).
  - constructor; [|constructor]. intros w1 w2 H. cbn. now rewrite (H a eq_refl).
Qed.
Lemma rdp_copy a ks m : rdp (fun b => a = b) (acopy_loop a ks m).
Proof.
  revert m. induction ks as [|k ks IH]; intros m; cbn [acopy_loop]; [constructor|].
  apply rdp_bind; [apply rdp_get|]. intros [v|e|p]; [apply IH|constructor|constructor].
Qed.
Lemma rdp_dot a ks l : rdp (fun b => a = b) (adot_loop a ks l).
Proof.
  revert l. induction ks as [|k ks IH]; intros l; cbn [adot_loop]; [constructor|].
  apply rdp_bind; [apply rdp_get|]. intros [v|e|p]; [apply IH|constructor|constructor].
Qed.
Lemma rdp_tomap o st a : rdp (fun b => a = b) (atomap_prog o st a).
Proof. apply rdp_bind; [apply rdp_keys|]. intros [ks|e|p]; [apply rdp_copy|constructor|constructor]. Qed.
Lemma rdp_attributes o st a : rdp (fun b => a = b) (attrs_prog o (st, AAttributes a)).
Proof. apply rdp_bind; [apply rdp_keys|]. intros [ks|e|p]; [|constructor|constructor]. apply rdp_bind; [apply rdp_dot|constructor]. Qed.
Lemma quiet_alloc {X Y} A (f : world -> X * world) (g : X -> Y) : quietp A (pmap g (walloc f)).
Proof. constructor. intros w. left. eexists. reflexivity. Qed.
Definition is_act {S R} (p : prog S R) : Prop := match p with Act _ _ => True | _ => False end.
Lemma quiet_prog o c : quietp (uses c) (attrs_prog o c).
Proof.
  assert (Q : (exists r, attrs_prog o c = Ret r) \/ quietp (uses c) (attrs_prog o c)).
  { destruct c as [st [[a k v|a k|a| |a|m]|a|a]]; unfold uses; cbn [snd].
    - right. constructor. intros w. right. cbn. split; [constructor; intros; left; eexists; reflexivity|].
      intros w' H. now rewrite (H a eq_refl).
    - apply rdp_quiet, rdp_bind; [apply rdp_get|constructor].
    - apply rdp_quiet, rdp_bind; [apply rdp_keys|constructor].
    - right. apply quiet_alloc.
    - apply quiet_bind; [apply rdp_tomap|]. intros [m|e|p]; [right; apply quiet_alloc|eauto|eauto].
    - right. apply quiet_alloc.
    - apply rdp_quiet, rdp_bind; [apply rdp_tomap|constructor].
    - apply rdp_quiet, rdp_attributes. }
  destruct Q as [[r E]|Q]; auto. exfalso.
  destruct c as [st [[a k v|a k|a| |a|m]|a|a]]; discriminate E.
Qed.
Lemma alloc_old w a m : world_wf w -> is_Some (w_attrs w !! a) -> attrs_map (attrs_alloc w m).2 a = attrs_map w a.
Proof.
  intros W [x E]. unfold attrs_map, attrs_alloc. cbn. rewrite lookup_insert_ne; auto. intros <-.
  specialize (W _ _ E). lia.
Qed.
Lemma acc_alloc {X} A B (f : world -> aref * world) (g : aref -> X) :
  (forall w a m, f (attrs_put w a m) = f w \/ (f (attrs_put w a m)).1 = (f w).1) ->
  (forall w a, world_wf w -> is_Some (w_attrs w !! a) -> attrs_map (f w).2 a = attrs_map w a) ->
  acc A B (pmap g (walloc f)).
Proof.
  intros E F. constructor; cbn; auto; [|constructor]. intros w a m _. destruct (E w a m) as [->| ->]; auto.
Qed.
Lemma acc_prog o c : acc (uses c) (sets c) (attrs_prog o c).
Proof.
  assert (AL : forall X A B m (g : aref -> X), acc A B (pmap g (walloc (fun w => attrs_alloc w m)))).
  { intros X A B m g. apply acc_alloc; [right; reflexivity|]. intros. now apply alloc_old. }
  destruct c as [st [[a k v|a k|a| |a|m]|a|a]]; unfold uses, sets; cbn [snd].
  - constructor; [auto| |].
    + intros w b m N. cbn. rewrite attrs_put_other by auto. reflexivity.
    + intros w. constructor; [|auto|constructor]. intros w' b _ _ N. apply attrs_put_other. auto.
  - apply rdp_acc, rdp_bind; [apply rdp_get|constructor].
  - apply rdp_acc, rdp_bind; [apply rdp_keys|constructor].
  - exact (AL _ _ _ ∅ _).
  - apply acc_bind; [apply rdp_acc, rdp_tomap|]. intros [m|e|p]; [apply AL|constructor|constructor].
  - apply acc_alloc.
    + intros w a n. right. now rewrite !new_from_map_content.
    + intros. rewrite new_from_map_content. now apply alloc_old.
  - apply rdp_acc, rdp_bind; [apply rdp_tomap|constructor].
  - apply rdp_acc, rdp_attributes.
Qed.

(** ** one goroutine *)
Lemma fill_all o st (m : amap) : fill_keys (size m) (map_range o st m).*1 = Ok (map_range o st m).*1.
Proof.
  unfold fill_keys. rewrite fmap_length, map_range_length, bool_decide_eq_true_2 by lia.
  rewrite Nat.sub_diag. cbn. now rewrite app_nil_r.
Qed.
Lemma run_keys o st a w : seqrun (akeys_prog o st a) w = (attrs_keys o st w a, w).
Proof. unfold akeys_prog, attrs_keys. cbn. unfold id. now rewrite fill_all. Qed.
Lemma run_copy a ks m w : seqrun (acopy_loop a ks m) w = (copy_loop (attrs_get w a) ks m, w).
Proof. revert m. induction ks as [|k ks IH]; intros m; cbn; auto. Qed.
Lemma run_dot a ks l w : seqrun (adot_loop a ks l) w = (option_map (app l) (dot_loop (attrs_get w a) ks), w).
Proof.
  revert l. induction ks as [|k ks IH]; intros l; cbn; [now rewrite app_nil_r|]. unfold id. rewrite IH.
  destruct (dot_loop _ ks); cbn; auto. now rewrite <- app_assoc.
Qed.
Lemma run_tomap o st a w : seqrun (atomap_prog o st a) w = (to_map (Some (mem_iface o st w a)), w).
Proof. unfold atomap_prog. rewrite seqrun_bind, run_keys. cbn. apply run_copy. Qed.
Lemma run_prog o c w : seqrun (attrs_prog o c) w = attrs_call o c w.
Proof.
  destruct c as [st [[a k v|a k|a| |a|m]|a|a]]; unfold attrs_prog, attrs_call; cbn [snd fst astep]; try reflexivity.
  - now rewrite seqrun_map, run_keys.
  - rewrite seqrun_bind, run_tomap. unfold new_copy_from, to_map. cbn [fst snd mem_iface ai_keys ai_get attrs_keys rbind].
    destruct (copy_loop _ _ _); reflexivity.
  - now rewrite seqrun_map, run_tomap.
  - rewrite seqrun_bind, run_keys. cbn [fst snd attrs_keys]. rewrite seqrun_map, run_dot. cbn [fst snd].
    unfold attrs_attributes, dot_attrs. cbn. now destruct (dot_loop _ _).
Qed.

(** ** owned maps *)
Definition apend (o : iter_order) (c : acall) (p : prog world acret) (w : world) : Prop :=
  quietp (uses c) p /\ acc (uses c) (sets c) p /\ forall w', agree (uses c) w w' -> seqrun p w' = attrs_call o c w'.
Definition agood (A : aref -> Prop) (w : world) : Prop := world_wf w /\ forall a, A a -> is_Some (w_attrs w !! a).
Lemma apend_start o c w : apend o c (attrs_prog o c) w.
Proof. split; [apply quiet_prog|]. split; [apply acc_prog|]. intros. apply run_prog. Qed.
Lemma apend_step o c p w : apend o c p w -> exists u k, p = Act u k /\
  ((exists r, k w = Ret r /\ attrs_call o c w = (r, u w)) \/ (u w = w /\ apend o c (k w) w)).
Proof.
  intros (Q & C & E). destruct Q as [u k Q]. exists u, k. split; auto.
  assert (Ew : seqrun (Act u k) w = attrs_call o c w) by (apply E; intros ? ?; reflexivity).
  destruct (Q w) as [[r Hr]|[Q' K]].
  - left. exists r. split; auto. cbn in Ew. rewrite Hr in Ew. now rewrite <- Ew.
  - right. destruct (K w) as [_ Eu]; [intros ? ?; reflexivity|]. split; auto.
    inversion C as [|? ? _ _ C']; subst. split; [auto|]. split; [auto|]. intros w' H. rewrite <- E by auto. cbn.
    destruct (K w' H) as [-> ->]. reflexivity.
Qed.
Lemma attrs_set_put w a k v : attrs_set w a k v = attrs_put w a (<[k := v]> (attrs_map w a)).
Proof. reflexivity. Qed.
Lemma call_old o c w a : world_wf w -> is_Some (w_attrs w !! a) -> ~ sets c a -> attrs_map (attrs_call o c w).2 a = attrs_map w a.
Proof.
  intros W H N. destruct c as [st [[b k v|b k|b| |b|m]|b|b]]; unfold sets in N; cbn [attrs_call snd fst astep] in *; try reflexivity.
  - rewrite attrs_set_put. apply attrs_put_other. auto.
  - exact (alloc_old w a ∅ W H).
  - unfold new_copy_from. cbn [mem_iface ai_keys ai_get attrs_keys rbind]. destruct (copy_loop _ _ _) as [m|e|p]; cbn [rbind]; try reflexivity.
    exact (alloc_old w a m W H).
  - rewrite new_from_map_content. exact (alloc_old w a m W H).
Qed.
Lemma wf_alloc w m : world_wf w -> world_wf (attrs_alloc w m).2.
Proof.
  intros W a x. unfold attrs_alloc. cbn. destruct (decide (a = w_next w)) as [->|N]; [lia|].
  rewrite lookup_insert_ne by auto. intros E. specialize (W _ _ E). lia.
Qed.
Lemma some_alloc w m a : is_Some (w_attrs w !! a) -> is_Some (w_attrs (attrs_alloc w m).2 !! a).
Proof. intros H. unfold attrs_alloc. cbn. now apply lookup_insert_is_Some'; right. Qed.
Lemma agood_alloc A w m : agood A w -> agood A (attrs_alloc w m).2.
Proof. intros [W H]. split; [now apply wf_alloc|]. intros a Ha. now apply some_alloc, H. Qed.
Lemma agood_call (A : aref -> Prop) o c w : (forall a, sets c a -> A a) -> agood A w -> agood A (attrs_call o c w).2.
Proof.
  intros S G. destruct c as [st [[b k v|b k|b| |b|m]|b|b]]; cbn [attrs_call snd fst astep] in *; try exact G.
  - destruct G as [W H]. split.
    + intros a m. unfold attrs_set. cbn. destruct (decide (a = b)) as [->|N].
      * intros _. destruct (H b (S b eq_refl)) as [x E]. exact (W _ _ E).
      * rewrite lookup_insert_ne by auto. apply W.
    + intros a Ha. unfold attrs_set. cbn. apply lookup_insert_is_Some'. right. auto.
  - exact (agood_alloc A w ∅ G).
  - unfold new_copy_from. cbn [mem_iface ai_keys ai_get attrs_keys rbind]. destruct (copy_loop _ _ _) as [m|e|p]; cbn [rbind]; try exact G.
    exact (agood_alloc A w m G).
  - rewrite new_from_map_content. exact (agood_alloc A w m G).
Qed.
Lemma call_no_panic o c w : ~ panicked (attrs_call o c w).1.
Proof.
  assert (C : forall ks a m, exists m', copy_loop (attrs_get w a) ks m = Ok m').
  { intros ks a m. apply copy_loop_total. intros k _. eexists. reflexivity. }
  destruct c as [st [[b k v|b k|b| |b|m]|b|b]]; cbn [attrs_call snd fst astep]; try (intros H; exact H).
  - unfold new_copy_from. cbn [mem_iface ai_keys ai_get attrs_keys rbind].
    destruct (C (map_range o st (attrs_map w b)).*1 b ∅) as [m' ->]. intros H; exact H.
  - unfold to_map. cbn [mem_iface ai_keys ai_get attrs_keys rbind].
    destruct (C (map_range o st (attrs_map w b)).*1 b ∅) as [m' ->]. intros H; exact H.
Qed.
Lemma uses_sets c a : sets c a -> uses c a.
Proof. destruct c as [st [[b k v|b k|b| |b|m]|b|b]]; unfold sets, uses; cbn; tauto. Qed.

Lemma legal_results o s0 log s : legal (attrs_call o) s0 log s -> forall i op r, (op, r) ∈ calls_of i log -> ~ panicked r.
Proof.
  intros L. induction L as [s|s j op r s1 l s2 E L IH]; intros i op' r' H; cbn [calls_of] in H; [now apply elem_of_nil in H|].
  destruct (Nat.eqb j i); [|exact (IH i op' r' H)]. apply elem_of_cons in H as [H|H]; [|exact (IH i op' r' H)]. injection H as -> ->.
  pose proof (call_no_panic o op s) as P. now rewrite E in P.
Qed.

Section owned.
  Context (o : iter_order) (w0 : world) (todo : list (list acall)).
  Context (W : world_wf w0) (AL : allocated w0 todo) (OW : owned todo).
  Definition mine (i : nat) (c : acall) : Prop := exists l, todo !! i = Some l /\ c ∈ l.
  Definition in_use (a : aref) : Prop := exists i c, mine i c /\ uses c a.
  Lemma owned_stable i j op op' p s : i <> j -> mine i op -> mine j op' -> agood in_use s ->
    apend o op p s -> apend o op p (attrs_call o op' s).2.
  Proof.
    intros N (li & El & Hi) (lj & Ej & Hj) [Ws Hs] (Q & C & E). split; [auto|]. split; [auto|]. intros w' H. apply E. intros a Ha.
    rewrite <- (H a Ha). symmetry. apply call_old; auto.
    - apply Hs. exists i, op. split; auto. now exists li.
    - intros Hc. exact (OW j i lj li op' op a ltac:(auto) Ej El Hj Hi Hc Ha).
  Qed.
  Lemma owned_good i op s : mine i op -> agood in_use s -> agood in_use (attrs_call o op s).2.
  Proof. intros M G. apply agood_call; auto. intros a Ha. exists i, op. split; auto. now apply uses_sets. Qed.
  Lemma owned_init : agood in_use w0.
  Proof. split; auto. intros a (i & c & (l & El & Hc) & Hu). eapply AL; eauto. Qed.
  Lemma owned_todo i l : todo !! i = Some l -> Forall (mine i) l.
  Proof. intros E. apply Forall_forall. intros c Hc. now exists l. Qed.
  Lemma owned_linearization : linearization (attrs_prog o) (attrs_call o) w0 todo.
  Proof.
    apply (single_linearization _ _ mine (agood in_use) (apend o)).
    - intros. apply apend_start.
    - apply apend_step.
    - apply owned_stable.
    - apply owned_good.
    - apply owned_init.
    - apply owned_todo.
  Qed.
  Lemma owned_inv c : reachable (attrs_prog o) w0 todo c ->
    exists log, sinv (attrs_call o) mine (agood in_use) (apend o) w0 log c.
  Proof.
    apply (sinv_reach _ _ mine (agood in_use) (apend o)).
    - intros. apply apend_start.
    - apply apend_step.
    - apply owned_stable.
    - apply owned_good.
    - apply owned_init.
    - apply owned_todo.
  Qed.
  Lemma acc_write A B a (p : prog world acret) : acc A B p -> attr_write a p -> (forall x, {B x} + {~ B x}) -> B a.
  Proof.
    intros C (u & k & w & -> & Ww & Hs & H) D. inversion C as [|? ? Eu _ _]; subst.
    destruct (D a) as [|N]; auto. contradiction (H (Eu w a Ww Hs N)).
  Qed.
  Lemma acc_read A B a (p : prog world acret) : acc A B p -> attr_read a p -> (forall x, {A x} + {~ A x}) -> A a.
  Proof.
    intros C (u & k & w & m & -> & H) D. inversion C as [|? ? _ Ek _]; subst.
    destruct (D a) as [|N]; auto. contradiction (H (Ek w a m N)).
  Qed.
  Lemma uses_dec c a : {uses c a} + {~ uses c a}.
  Proof. destruct c as [st [[b k v|b k|b| |b|m]|b|b]]; unfold uses; cbn; try apply N.eq_dec; right; tauto. Qed.
  Lemma sets_dec c a : {sets c a} + {~ sets c a}.
  Proof. destruct c as [st [[b k v|b k|b| |b|m]|b|b]]; unfold sets; cbn; try apply N.eq_dec; right; tauto. Qed.
  Lemma owned_race c : reachable (attrs_prog o) w0 todo c -> ~ attr_race c.
  Proof.
    intros Hr (a & i & j & t1 & t2 & op1 & op2 & p1 & p2 & N & E1 & E2 & C1 & C2 & H1 & H2).
    destruct (owned_inv c Hr) as [log I].
    assert (F : forall i t op p, c_ths c !! i = Some t -> t_cur t = Some (op, p) -> attr_write a p \/ attr_read a p ->
      mine i op /\ acc (uses op) (sets op) p).
    { intros i' t op p Et Ec Hx. destruct (si_th _ _ _ _ _ _ _ I _ _ Et) as [_ T]. rewrite Ec in T.
      destruct T as [M [(r & -> & _)|[(_ & C & _) _]]]; auto. exfalso.
      destruct Hx as [(u & k & w & E & _)|(u & k & w & m & E & _)]; discriminate E. }
    destruct (F i t1 op1 p1 E1 C1 (or_introl H1)) as [M1 A1]. destruct (F j t2 op2 p2 E2 C2 H2) as [M2 A2].
    destruct M1 as (l1 & L1 & I1), M2 as (l2 & L2 & I2).
    apply (OW i j l1 l2 op1 op2 a N L1 L2 I1 I2).
    - eapply acc_write; eauto using sets_dec.
    - destruct H2 as [H2|H2]; [apply uses_sets; eapply acc_write; eauto using sets_dec|eapply acc_read; eauto using uses_dec].
  Qed.
  Lemma owned_no_panic c : reachable (attrs_prog o) w0 todo c -> ~ returned panicked c.
  Proof.
    intros Hr (t & Ht & H). destruct (owned_inv c Hr) as [log I]. apply elem_of_list_lookup in Ht as [i Et].
    destruct (si_th _ _ _ _ _ _ _ I _ _ Et) as [_ T]. pose proof (legal_results _ _ _ _ (si_legal _ _ _ _ _ _ _ I) i) as P.
    destruct H as [(op & r & Hin & Hp)|(op & r & Ec & Hp)].
    - eapply P; [|exact Hp]. destruct (t_cur t) as [[op' p]|]; [|rewrite T; eauto].
      destruct T as [_ [(r' & _ & ->)|[_ ->]]]; eauto. apply elem_of_app. eauto.
    - rewrite Ec in T. destruct T as [_ [(r' & [= <-] & El)|[(Q & _) _]]]; [|inversion Q].
      eapply P; [|exact Hp]. rewrite El. apply elem_of_app. right. now apply elem_of_list_singleton.
  Qed.
End owned.
