(** Who shares attributes with whom: C109. *)
From Verif.Model Require Import Store.
From Verif.Spec Require Import OptionsSpec EntitySpec GraphSpec SubSpec StoreSpec OwnSpec.
From Verif.Proof Require Import OptionsP AttrsP GonumP GraphP GraphP2 StoreP.
From Verif.Props Require Import PEntity PGraph PStore PFail.

(** ** different places have different attributes *)
Definition separate (dir : bool) (s : store) : Prop :=
  forall p q a, at_place s p a -> at_place s q a -> same_place dir p q.
Definition c109_full : Prop :=
  forall dir w s, history dir (fun _ _ _ => True) w s -> separate dir s.

(** BulkAdd gives all its entities the same attributes. *)
Definition has (s : store) (u : UID) (a : aref) : bool :=
  match store_get s u with Ok n => bool_decide (n_attrs n = a) | _ => false end.
Lemma has_at s u a : has s u a = true -> at_place s (PNode u) a.
Proof. unfold has. destruct (store_get s u) as [n| |] eqn:E; intros H; try done. apply bool_decide_eq_true in H. by exists n. Qed.
Theorem c109_own_attributes_refuted : ~ c109_full.
Proof.
  intros H.
  destruct (sstep iter_id [] (w0, store0) (SBulkAdd [gent0 ua; gent0 ub] [store_with_attrs (Some 0%N)])) as [r x] eqn:E.
  assert (D : (has (sstep iter_id [] (w0, store0) (SBulkAdd [gent0 ua; gent0 ub] [store_with_attrs (Some 0%N)])).2.2 ua 0%N &&
               has (sstep iter_id [] (w0, store0) (SBulkAdd [gent0 ua; gent0 ub] [store_with_attrs (Some 0%N)])).2.2 ub 0%N) = true)
    by (vm_compute; reflexivity).
  rewrite E in D. cbn [fst snd] in D. apply andb_true_iff in D as [D1 D2].
  assert (S : history false (fun _ _ _ => True) x.1 x.2).
  { eapply (hist_call false (fun _ _ _ => True) iter_id [] w0 store0); [|done|exact E].
    pose proof (hist_new false (fun _ _ _ => True) w0 (uid_or_new None w0).2 [] (s_uid store0) (s_g store0)) as N. by apply N. }
  pose proof (H _ _ _ S _ _ _ (has_at _ _ _ D1) (has_at _ _ _ D2)) as F. vm_compute in F. discriminate F.
Qed.
Print Assumptions c109_own_attributes_refuted.

(** It is so on every store. *)
Theorem c109_bulk_add_shares : forall dir o st w s e f a x,
  tidy dir (s_g s) -> ~ stored s (ge_uid e) -> ~ stored s (ge_uid f) -> ~ same_text (ge_uid e) (ge_uid f) ->
  store_bulk_add o st w s [e; f] [store_with_attrs (Some a)] = (Ok (), x) ->
  at_place x.2 (PNode (ge_uid e)) a /\ at_place x.2 (PNode (ge_uid f)) a.
Proof.
  intros dir o st w s e f a x T Ne Nf D E. cbn [store_bulk_add] in E.
  assert (U : forall s u, ~ stored s u -> wg_node (s_g s) u = Err GraphErrNodeNotFound).
  { intros s' u N. destruct (wg_node_total (s_g s') u) as [[n H]|H]; [|done]. destruct N. exists n. by apply get_known. }
  change [store_with_attrs (Some a)] with (store_den <$> [SAttrs (Some a)]) in E.
  destruct (store_add o _ w s e _) as [r1 [w1 s1]] eqn:E1.
  pose proof (store_add_tidy dir o (st ++ [length [f]]) w s e (store_den <$> [SAttrs (Some a)]) T) as T1. rewrite E1 in T1. cbn [snd] in T1.
  destruct (store_add_new _ _ _ _ _ _ _ _ _ T (U _ _ Ne) E1) as [[-> _]|(->&_&n&(_&A1&_)&Hn&_)]; [done|].
  destruct (store_add o _ w1 s1 f _) as [r2 [w2 s2]] eqn:E2. cbn [snd] in *.
  assert (Nf1 : ~ stored s1 (ge_uid f)).
  { intros [m H]. apply get_known in H. rewrite Hn, bool_decide_eq_false_2 in H by (intros H'; by symmetry in H').
    apply Nf. exists m. by apply get_known. }
  destruct (store_add_new _ _ _ _ _ _ _ _ _ T1 (U _ _ Nf1) E2) as [[-> _]|(->&_&m&(_&A2&_)&Hm&_)]; [done|].
  injection E as <-. cbn [snd] in *. split.
  - exists n. split; [apply get_known; rewrite Hm, bool_decide_eq_false_2, Hn by done; by rewrite bool_decide_eq_true_2|by apply A1].
  - exists m. split; [apply get_known; rewrite Hm; by rewrite bool_decide_eq_true_2|by apply A2].
Qed.
Print Assumptions c109_bulk_add_shares.

(** ** attributes that are brought once stay apart *)
Lemma same_place_sym dir p q : same_place dir p q -> same_place dir q p.
Proof. unfold same_place, same_ends, same_text. destruct p, q; try done. naive_solver. Qed.
Lemma same_place_trans dir p q r : same_place dir p q -> same_place dir q r -> same_place dir p r.
Proof.
  unfold same_place, same_ends, same_text. destruct p, q, r; try done; [congruence|].
  intros [[A B]|(D&A&B)] [[A' B']|(D'&A'&B')];
    [left; split; congruence|right; split; [done|split; congruence]|right; split; [done|split; congruence]|left; split; congruence].
Qed.
Definition inv (dir : bool) (w : world) (s : store) : Prop :=
  tidy dir (s_g s) /\ (forall p a, at_place s p a -> (a < w_next w)%N) /\ separate dir s.
Lemma inv_less dir w s w' s' :
  inv dir w s -> tidy dir (s_g s') -> (w_next w <= w_next w')%N -> (forall p a, at_place s' p a -> at_place s p a) -> inv dir w' s'.
Proof.
  intros (_&I2&I3) T L P. split; [done|]. split; [intros p a H; apply P, I2 in H; lia|].
  intros p q a H1 H2. eapply I3; eauto.
Qed.
Lemma inv_more dir w s w' s' p0 a0 :
  inv dir w s -> tidy dir (s_g s') -> (w_next w <= w_next w')%N -> (a0 < w_next w')%N -> (forall p, ~ at_place s p a0) ->
  (forall p a, at_place s' p a -> at_place s p a \/ (same_place dir p p0 /\ a = a0)) -> inv dir w' s'.
Proof.
  intros (_&I2&I3) T L La N P. split; [done|]. split.
  - intros p a H. destruct (P _ _ H) as [H1|[_ ->]]; [apply I2 in H1; lia|done].
  - intros p q a H1 H2. destruct (P _ _ H1) as [P1|[P1 ->]], (P _ _ H2) as [P2|[P2 E2]].
    + by eapply I3.
    + subst a. by destruct (N p).
    + by destruct (N q).
    + eapply same_place_trans; [done|by apply same_place_sym].
Qed.
(** options are only looked at through the values they set *)
Definition norm (opts : list store_option) : list store_syn :=
  (if so_upsert (apply_opts store_opts_zero opts) then [SUpsert] else []) ++ [SAttrs (given opts)].
Lemma norm_opts opts : apply_opts store_opts_zero (store_den <$> norm opts) = apply_opts store_opts_zero opts.
Proof. unfold norm, given. by destruct (apply_opts store_opts_zero opts) as [[] oa]. Qed.
Lemma norm_given opts : default None (last_set store_attrs_of (norm opts)) = given opts.
Proof. unfold norm. by destruct (so_upsert _). Qed.
Lemma norm_add o st w s e opts : store_add o st w s e opts = store_add o st w s e (store_den <$> norm opts).
Proof. unfold store_add. by rewrite norm_opts. Qed.
Lemma norm_link w s u v opts : store_link w s u v opts = store_link w s u v (store_den <$> norm opts).
Proof. unfold store_link. by rewrite norm_opts. Qed.
(** addresses only grow *)
Lemma attrs_or_new_next oa w : (w_next w <= w_next (attrs_or_new oa w).2)%N.
Proof. unfold attrs_or_new. destruct oa; cbn; lia. Qed.
Lemma add_next o st w s e opts : (w_next w <= w_next (store_add o st w s e opts).2.1)%N.
Proof.
  unfold store_add, wg_new_node. destruct (newnode_id _ _ _); cbn [rbind]; [|cbn; lia|cbn; lia].
  unfold mem_new_node. pose proof (attrs_or_new_next (go_attrs (apply_opts graph_opts_zero [graph_with_attrs (so_attrs (apply_opts store_opts_zero opts))])) w) as H.
  destruct (attrs_or_new _ w) as [b w1]. cbn [snd] in H.
  destruct (so_upsert _); by destruct (wg_add_node _ _ _).
Qed.
Lemma link_next w s u v opts : (w_next w <= w_next (store_link w s u v opts).2.1)%N.
Proof.
  unfold store_link, wg_link. destruct (link_check _ _ _) as [[e|[f t]]| |]; cbn; try lia.
  unfold link_commit, new_edge. set (eo := apply_opts graph_opts_zero _).
  assert (H1 : (w_next w <= w_next (uid_or_new (go_uid eo) w).2)%N) by (unfold uid_or_new; destruct (go_uid eo); cbn; lia).
  destruct (uid_or_new (go_uid eo) w) as [u0 w1]. cbn [snd] in H1.
  destruct (bool_decide _).
  - pose proof (attrs_or_new_next (go_attrs eo) w1) as H2. destruct (attrs_or_new _ w1) as [b w2]. cbn [snd] in H2.
    destruct (b_set_edge _ _); cbn; lia.
  - pose proof (attrs_or_new_next (go_attrs eo) (uid_from_string w1 (go_dotid eo)).2) as H2.
    cbn [uid_from_string snd w_next] in H2 |- *. unfold uid_from_string. destruct (attrs_or_new _ _) as [b w2]. cbn [snd] in H2.
    destruct (b_set_edge _ _); cbn; lia.
Qed.

Lemma inv_add dir o st w s e opts r x :
  inv dir w s -> unused w s (given opts) -> store_add o st w s e opts = (r, x) -> inv dir x.1 x.2.
Proof.
  intros I U E. pose proof I as (T&I2&_). pose proof (add_next o st w s e opts) as L. rewrite E in L. cbn [snd] in L.
  pose proof (store_add_tidy dir o st w s e opts T) as T'. rewrite E in T'. cbn [snd] in T'.
  rewrite norm_add in E. destruct (wg_node_total (s_g s) (ge_uid e)) as [[n Hn]|Hn].
  - destruct (store_add_known _ _ _ _ _ _ _ _ _ _ T Hn E) as [[_ ->]|[_ Hx]]; [done|].
    apply (inv_less dir w s); [done..|]. by rewrite Hx.
  - destruct (store_add_new _ _ _ _ _ _ _ _ _ T Hn E) as [[_ ->]|(->&_&n&_&Hnode&_&Hedge)]; [done|].
    assert (G : store_get x.2 (ge_uid e) = Ok n) by (apply get_known; rewrite Hnode; by rewrite bool_decide_eq_true_2).
    assert (No : forall m, store_get s (ge_uid e) <> Ok m) by (intros m H; apply get_known in H; congruence).
    destruct (c21_stored_attributes_partial _ _ _ _ _ _ _ _ _ T No E G) as (_&_&_&_&A&_). rewrite norm_given in A.
    cbn [gent_of_node ge_attrs] in A.
    apply (inv_more dir w s _ _ (PNode (ge_uid e)) (n_attrs n)); [done..| | |].
    + unfold unused, attrs_spec in *. destruct (given opts) as [a|]; [rewrite A; destruct U; lia|]. by destruct A as [[_ ?] _].
    + unfold unused, attrs_spec in *. destruct (given opts) as [a|]; [rewrite A; by destruct U|].
      destruct A as [[A _] _]. intros p H. apply I2 in H. lia.
    + intros [u|u v] a.
      * intros (m&Hm&<-). apply get_known in Hm. rewrite Hnode in Hm. case_bool_decide as Hu.
        -- injection Hm as <-. by right.
        -- left. exists m. split; [by apply get_known|done].
      * intros (ed&He&<-). left. exists ed. split; [|done]. by apply Hedge.
Qed.
Lemma inv_link dir w s u v opts r x :
  inv dir w s -> unused w s (given opts) -> store_link w s u v opts = (r, x) -> inv dir x.1 x.2.
Proof.
  intros I U E. pose proof I as (T&I2&_). pose proof (link_next w s u v opts) as L. rewrite E in L. cbn [snd] in L.
  pose proof (store_link_tidy dir w s u v opts T) as T'. rewrite E in T'. cbn [snd] in T'.
  pose proof (tidy_reach _ _ T) as Hr. destruct (c03_tidy_consistent _ _ T) as [_ Hc].
  unfold store_link in E. fold (given opts) in E.
  destruct (wg_link w (s_g s) u v [graph_with_attrs (given opts)]) as [r1 [w1 g1]] eqn:E1. injection E as <- <-. cbn [fst snd s_g] in *.
  assert (Same : g1 = s_g s -> inv dir w1 (Store (s_uid s) g1)).
  { intros ->. apply (inv_less dir w s); [done..|]. by destruct s. }
  pose proof (c06_link dir (s_g s) w u v [GAttrs (given opts)] r1 w1 g1 Hr Hc E1) as H6.
  destruct (wg_node_total (s_g s) u) as [[nu Hu]|Hu]; rewrite Hu in H6; [|apply Same; by destruct H6 as (_&_&->)].
  destruct (wg_node_total (s_g s) v) as [[nv Hv]|Hv]; rewrite Hv in H6; [|apply Same; by destruct H6 as (_&_&->)].
  destruct (decide (same_text u v)) as [Huv|Huv].
  { apply Same. rewrite (wg_link_cases dir) in E1 by (by apply reach_base). rewrite Hu, Hv in E1.
    assert (nu = nv) as <- by (unfold wg_node in *; rewrite Huv in Hu; congruence).
    destruct (link_commit_self w (s_g s) nu nu [graph_with_attrs (given opts)] eq_refl) as [w2 Hw2]. rewrite Hw2 in E1.
    destruct (wg_edge (s_g s) u v) as [e| |] eqn:Ee; [by apply (no_self_edge dir) in Ee|by injection E1 as <- <- <-..]. }
  assert (H6' : (r1 = r1 /\ g1 = s_g s) \/ exists e, requested_edge w w1 nu nv [GAttrs (given opts)] e /\
              (forall x y, wg_edge g1 x y =
                 if bool_decide (same_text x u /\ same_text y v) then Ok e
                 else if bool_decide (same_ends dir x y u v) then Ok (edge_reversed e)
                 else wg_edge (s_g s) x y) /\ (forall x, wg_node g1 x = wg_node (s_g s) x)).
  { destruct (wg_edge (s_g s) u v) as [e| |]; [left; by destruct H6 as (_&_&->)|right; destruct (H6 Huv) as (e1&_&?&?&?&_); by exists e1..]. }
  destruct H6' as [[_ H]|(e&(_&_&_&A&_)&Hed&Hno)]; [by apply Same|]. cbn [last_set] in A.
  change (attrs_spec w w1 (given opts) (ed_attrs e)) in A.
  apply (inv_more dir w s _ _ (PLink u v) (ed_attrs e)); [done..| | |].
  - unfold unused, attrs_spec in *. destruct (given opts) as [a|]; [rewrite A; destruct U; lia|]. by destruct A as [[_ ?] _].
  - unfold unused, attrs_spec in *. destruct (given opts) as [a|]; [rewrite A; by destruct U|].
    destruct A as [[A _] _]. intros p H. apply I2 in H. lia.
  - intros [y|y z] a.
    + intros (m&Hm&<-). left. exists m. split; [|done]. apply get_known in Hm. apply get_known. cbn [s_g] in Hm. by rewrite Hno in Hm.
    + intros (ed&He&<-). unfold store_graph in He. cbn [s_g] in He. rewrite Hed in He. case_bool_decide as H1.
      * injection He as <-. right. split; [by left|done].
      * case_bool_decide as H2; [injection He as <-; by right|]. left. by exists ed.
Qed.
Lemma inv_delete dir w s u r s' : inv dir w s -> store_delete s u = (r, s') -> inv dir w s'.
Proof.
  intros I E. pose proof I as (T&_). pose proof (store_delete_tidy dir s u T) as T'. rewrite E in T'.
  unfold store_delete in E. destruct (wg_remove_node (s_g s) u) as [r1 g1] eqn:E1. injection E as <- <-.
  destruct (c08_remove_node dir (s_g s) u r1 g1 (tidy_reach _ _ T) (proj2 (c03_tidy_consistent _ _ T)) E1) as (_&Hn&_&He&_).
  apply (inv_less dir w s); [done..|]. intros [y|y z] a.
  - intros (m&Hm&<-). apply get_known in Hm. cbn [s_g] in Hm. rewrite Hn in Hm. case_bool_decide; [done|]. exists m. split; [by apply get_known|done].
  - intros (ed&H&<-). unfold store_graph in H. cbn [s_g] in H. rewrite He in H. case_bool_decide; [done|]. by exists ed.
Qed.
Lemma inv_unlink dir w s u v r s' : inv dir w s -> store_unlink s u v = (r, s') -> inv dir w s'.
Proof.
  intros I E. pose proof I as (T&_). pose proof (store_unlink_tidy dir s u v T) as T'. rewrite E in T'.
  unfold store_unlink in E. destruct (wg_unlink (s_g s) u v) as [r1 g1] eqn:E1. injection E as <- <-.
  destruct (c07_unlink dir (s_g s) u v r1 g1 (tidy_reach _ _ T) (proj2 (c03_tidy_consistent _ _ T)) E1) as (_&He&Hn&_).
  apply (inv_less dir w s); [done..|]. intros [y|y z] a.
  - intros (m&Hm&<-). apply get_known in Hm. cbn [s_g] in Hm. rewrite Hn in Hm. exists m. split; [by apply get_known|done].
  - intros (ed&H&<-). unfold store_graph in H. cbn [s_g] in H. rewrite He in H.
    case_bool_decide; [destruct (wg_edge (s_g s) y z); done|]. by exists ed.
Qed.
Lemma inv_step dir o st w s op r x :
  inv dir w s -> own_call w s op -> sstep o st (w, s) op = (r, x) -> inv dir x.1 x.2.
Proof.
  intros I O E. destruct op as [e opts|u|u|u v opts|u v|es opts|us|us|u vs opts|u vs]; cbn [sstep own_call] in *.
  - destruct (store_add o st w s e opts) as [r1 x1] eqn:E1. injection E as <- <-. by eapply inv_add.
  - by injection E as <- <-.
  - destruct (store_delete s u) as [r1 s1] eqn:E1. injection E as <- <-. by eapply inv_delete.
  - destruct (store_link w s u v opts) as [r1 x1] eqn:E1. injection E as <- <-. by eapply inv_link.
  - destruct (store_unlink s u v) as [r1 s1] eqn:E1. injection E as <- <-. by eapply inv_unlink.
  - destruct (store_bulk_add o st w s es opts) as [r1 x1] eqn:E1. injection E as <- <-.
    revert w s r1 I E1. induction es as [|e es IH]; intros w s r1 I E1; cbn [store_bulk_add] in E1; [by injection E1 as <- <-|].
    destruct (store_add o _ w s e opts) as [r2 [w2 s2]] eqn:E2.
    assert (I2 : inv dir w2 s2) by (apply (inv_add dir _ _ _ _ _ _ _ _ I) in E2; [done|by rewrite O]).
    destruct r2; [by eapply IH|by injection E1 as <- <-..].
  - by injection E as <- <-.
  - destruct (store_bulk_delete s us) as [r1 s1] eqn:E1. injection E as <- <-. clear O.
    revert s r1 I E1. induction us as [|e us IH]; intros s r1 I E1; cbn [store_bulk_delete] in E1; [by injection E1 as <- <-|].
    destruct (store_delete s e) as [r2 s2] eqn:E2. apply (inv_delete dir w) in E2; [|done].
    destruct r2; [by eapply IH|by injection E1 as <- <-..].
  - destruct (store_bulk_link w s u vs opts) as [r1 x1] eqn:E1. injection E as <- <-.
    revert w s r1 I E1. induction vs as [|v vs IH]; intros w s r1 I E1; cbn [store_bulk_link] in E1; [by injection E1 as <- <-|].
    destruct (store_link w s u v opts) as [r2 [w2 s2]] eqn:E2.
    assert (I2 : inv dir w2 s2) by (apply (inv_link dir _ _ _ _ _ _ _ I) in E2; [done|by rewrite O]).
    destruct r2; [by eapply IH|by injection E1 as <- <-..].
  - destruct (store_bulk_unlink s u vs) as [r1 s1] eqn:E1. injection E as <- <-. clear O.
    revert s r1 I E1. induction vs as [|v vs IH]; intros s r1 I E1; cbn [store_bulk_unlink] in E1; [by injection E1 as <- <-|].
    destruct (store_unlink s u v) as [r2 s2] eqn:E2. apply (inv_unlink dir w) in E2; [|done].
    destruct r2; [by eapply IH|by injection E1 as <- <-..].
Qed.
Lemma inv_history dir w s : history dir own_call w s -> inv dir w s.
Proof.
  induction 1 as [w w1 opts uid g ->|o st w s op r x _ IH O E|w s w' _ IH L].
  - assert (He : g_nodes (if dir then (new_wdg w1 opts).1 else (new_wug w1 opts).1) = ∅)
      by (unfold new_wdg, new_wug, new_wg; destruct dir; by destruct (uid_or_new _ _)).
    assert (N : forall p a, ~ at_place (Store uid (if dir then (new_wdg w1 opts).1 else (new_wug w1 opts).1)) p a).
    { intros [u|u v] a (n&H&_); [apply get_known in H; unfold wg_node in H|unfold store_graph, wg_edge in H]; cbn [s_g] in H;
        by rewrite He, lookup_empty in H. }
    split; [constructor|]. split; [intros p a H; by apply N in H|]. intros p q a H. by apply N in H.
  - by eapply inv_step.
  - by apply (inv_less dir w s); [|apply IH|..].
Qed.

(** If no call brings attributes that are in the store already, or the same ones for
    several items, every entity and every link has attributes of its own: to Set one
    changes no other. *)
Theorem c109_own_attributes_partial : forall dir w s p q a b k v,
  history dir own_call w s -> at_place s p a -> at_place s q b -> ~ same_place dir p q ->
  a <> b /\ attrs_map (attrs_set w a k v) b = attrs_map w b.
Proof.
  intros dir w s p q a b k v H Hp Hq N. destruct (inv_history _ _ _ H) as (_&_&S).
  assert (a <> b) by (intros ->; by apply N, (S p q b)). split; [done|].
  unfold attrs_map, attrs_set. cbn [w_attrs]. by rewrite lookup_insert_ne.
Qed.
Print Assumptions c109_own_attributes_partial.
(** In the same histories, attributes allocated later (copies, attributes of new entities)
    are nowhere in the store. *)
Theorem c109_new_attributes : forall dir w s p a m,
  history dir own_call w s -> at_place s p a -> a <> (attrs_alloc w m).1.
Proof. intros dir w s p a m H Hp ->. destruct (inv_history _ _ _ H) as (_&L&_). apply L in Hp. cbn in Hp. lia. Qed.
Print Assumptions c109_new_attributes.

(** Attributes given to Add are shared with the caller: what the caller sets afterwards is
    what readers of the store see, on every store. *)
Theorem c109_caller_keeps_access : forall dir o st w s e a x n k v,
  tidy dir (s_g s) -> (forall m, store_get s (ge_uid e) <> Ok m) ->
  store_add o st w s e [store_with_attrs (Some a)] = (Ok (), x) -> store_get x.2 (ge_uid e) = Ok n ->
  attrs_get (attrs_set x.1 a k v) (n_attrs n) k = Ok v.
Proof.
  intros dir o st w s e a x n k v T N E G.
  destruct (c21_stored_attributes_partial dir o st w s e [SAttrs (Some a)] x n T N E G) as (_&_&_&_&A&_).
  cbn in A. rewrite A. unfold attrs_get, attrs_map, attrs_set. cbn [w_attrs]. by rewrite lookup_insert; cbn; rewrite lookup_insert.
Qed.
Print Assumptions c109_caller_keeps_access.

(** an entity with given attributes, one without and a link *)
Example c109_example :
  exists w s, history false own_call w s /\ ua <> ub /\
    (exists a, at_place s (PNode ua) a) /\ (exists a, at_place s (PNode ub) a) /\ (exists a, at_place s (PLink ua ub) a).
Proof.
  pose (w1 := (attrs_alloc w0 ∅).2).
  pose (x1 := (sstep iter_id [] (w1, store0) (SAdd (gent0 ua) [store_with_attrs (Some (w_next w0))])).2).
  pose (x2 := (sstep iter_id [] x1 (SAdd (gent0 ub) [])).2).
  pose (x3 := (sstep iter_id [] x2 (SLink ua ub [])).2).
  exists x3.1, x3.2.
  assert (H0 : history false own_call w1 store0).
  { pose proof (hist_new false own_call w1 (uid_or_new None w0).2 [] (s_uid store0) (s_g store0)) as N. by apply N. }
  assert (S : forall op x, history false own_call x.1 x.2 -> own_call x.1 x.2 op ->
     history false own_call (sstep iter_id [] x op).2.1 (sstep iter_id [] x op).2.2).
  { intros op x Hh Ho. destruct x as [w s]. eapply (hist_call false own_call iter_id [] w s op); [done|done|apply surjective_pairing]. }
  split; [|split; [done|]].
  - unfold x3. apply S; [|done]. unfold x2. apply S; [|done]. unfold x1. apply S; [done|]. cbn [own_call]. split; [vm_compute; reflexivity|].
    assert (He : g_nodes (s_g store0) = ∅) by (vm_compute; reflexivity).
    intros [u|u v] (n&H&_); [apply get_known in H; unfold wg_node in H|unfold store_graph, wg_edge in H]; cbn [snd] in H;
      by rewrite He, lookup_empty in H.
  - split; [|split]; cbn [at_place].
    + eexists. eexists. split; [vm_compute; reflexivity|reflexivity].
    + eexists. eexists. split; [vm_compute; reflexivity|reflexivity].
    + eexists. eexists. split; [vm_compute; reflexivity|reflexivity].
Qed.
