(** The programs of Model/Conc.v follow the lock discipline, and run by one
    goroutine they compute what the sequential models compute. *)
From Verif.Model Require Import Conc.
From Verif.Spec Require Import LinSpec.
From Verif.Proof Require Import LinP.

Definition zero {R} (h : hold) (_ : R) : Prop := h = HR 0.
Definition held {R} (h0 : hold) (h : hold) (_ : R) : Prop := h = h0.

Lemma disc_load {S} ro nest h : h <> HA -> disc ro nest (held h) h (@load S).
Proof. intros N. unfold load. constructor; auto. intros s. now constructor. Qed.
Lemma disc_rmw {S R} nest h (f : S -> R * S) : h <> HA -> disc false nest (held h) h (rmw f).
Proof.
  intros N. unfold rmw, load, save. cbn [pbind].
  repeat (constructor; auto; try discriminate; intros).
Qed.
Lemma seqrun_rmw {S R} (f : S -> R * S) s : seqrun (rmw f) s = f s.
Proof. unfold rmw, load, save. cbn. now destruct (f s). Qed.
Lemma disc_bind_held {S A B} ro nest h h1 (Q : hold -> B -> Prop) (p : prog S A) (f : A -> prog S B) :
  disc ro nest (held h1) h p -> (forall a, disc ro nest Q h1 (f a)) -> disc ro nest Q h (pbind p f).
Proof. intros D F. eapply disc_bind; eauto. intros h' a _ ->. auto. Qed.
Lemma disc_map_held {S A B} ro nest h h1 (p : prog S A) (f : A -> B) :
  disc ro nest (held h1) h p -> disc ro nest (held h1) h (pmap f p).
Proof. intros D. eapply disc_map; eauto. Qed.
Lemma disc_each {S A} nest h (f : A -> prog S (res unit)) l :
  h <> HA -> (forall x, disc false nest (held h) h (f x)) -> disc false nest (held h) h (each_prog f l).
Proof.
  intros N F. induction l as [|x l IH]; cbn [each_prog]; [now constructor|].
  eapply disc_bind_held; eauto. intros [?| |]; auto; now constructor.
Qed.

(** ** plan *)
Lemma plan_sections o op :
  wsection (plan_call o) (fun _ => False) op (plan_prog o op) \/ rsection (plan_call o) op (plan_prog o op).
Proof.
  destruct op as [st [r|u| |u]]; cbn [plan_prog snd fst]; [left|right|right|left];
    eexists; split; try reflexivity; split.
  - eapply disc_mono; [apply disc_map_held, disc_rmw; discriminate|]. intros h a ->. now left.
  - intros s. now rewrite seqrun_map, seqrun_rmw.
  - unfold load. cbn [pbind]. constructor; auto; try discriminate. intros; constructor; [reflexivity|discriminate].
  - reflexivity.
  - unfold load. cbn [pbind]. do 2 (constructor; auto; try discriminate; intros). constructor; [reflexivity|discriminate].
  - reflexivity.
  - eapply disc_mono; [apply disc_map_held, disc_rmw; discriminate|]. intros h a ->. now left.
  - intros s. now rewrite seqrun_map, seqrun_rmw.
Qed.

(** ** link cache *)
Lemma disc_set_from nest f : disc false nest (held (HR 0)) (HR 0) (set_from f).
Proof. now apply disc_rmw. Qed.
Lemma disc_set_to nest f : disc false nest (held (HR 0)) (HR 0) (set_to f).
Proof. now apply disc_rmw. Qed.
Lemma seqrun_set_from f c : seqrun (set_from f) c = ((), Cache (f (c_from c)) (c_to c)).
Proof. unfold set_from, set_to. now rewrite seqrun_rmw. Qed.
Lemma seqrun_set_to f c : seqrun (set_to f) c = ((), Cache (c_from c) (f (c_to c))).
Proof. unfold set_from, set_to. now rewrite seqrun_rmw. Qed.
Lemma disc_put l opts : disc false true (held (HR 0)) (HR 0) (put_prog l opts).
Proof.
  unfold put_prog.
  eapply disc_bind_held; [apply disc_set_from|intros _].
  eapply disc_bind_held; [apply disc_set_to|intros _].
  destruct (co_upsert _).
  - eapply disc_bind_held; [apply disc_set_from|intros _].
    eapply disc_bind_held; [apply disc_set_to|intros _]. now constructor.
  - eapply disc_bind_held; [now apply disc_load|intros c1].
    eapply disc_bind_held.
    { destruct (idx_get _ _ _); [now constructor | apply disc_set_from]. }
    intros _. eapply disc_bind_held; [now apply disc_load|intros c2].
    eapply disc_bind_held.
    { destruct (idx_get _ _ _); [now constructor | apply disc_set_to]. }
    intros _. now constructor.
Qed.
Lemma seqrun_put l opts c : seqrun (put_prog l opts) c = cache_put c l opts.
Proof.
  unfold put_prog, cache_put.
  rewrite seqrun_bind, seqrun_set_from. cbn [fst snd].
  rewrite seqrun_bind, seqrun_set_to. cbn [fst snd c_from c_to].
  destruct (co_upsert _).
  - rewrite seqrun_bind, seqrun_set_from. cbn [fst snd].
    rewrite seqrun_bind, seqrun_set_to. reflexivity.
  - rewrite seqrun_bind. cbn [load seqrun fst snd c_from c_to id].
    rewrite seqrun_bind.
    destruct (idx_get (idx_make (c_from c) (l_from l) (l_to l)) (l_from l) (l_to l));
      [cbn [seqrun fst snd]|rewrite seqrun_set_from; cbn [fst snd c_from c_to]];
      rewrite seqrun_bind; cbn [load seqrun fst snd c_from c_to id]; rewrite seqrun_bind;
      (destruct (idx_get (idx_make (c_to c) (l_to l) (l_from l)) (l_to l) (l_from l));
       [reflexivity|rewrite seqrun_set_to; reflexivity]).
Qed.
Lemma disc_del u : disc false true (held (HR 0)) (HR 0) (del_prog u).
Proof.
  unfold del_prog. eapply disc_bind_held; [apply disc_set_to|intros _].
  eapply disc_bind_held; [apply disc_set_from|intros _]. now constructor.
Qed.
Lemma seqrun_del u c : seqrun (del_prog u) c = cache_delete c u.
Proof.
  unfold del_prog. rewrite seqrun_bind, seqrun_set_to. cbn [fst snd].
  rewrite seqrun_bind, seqrun_set_from. reflexivity.
Qed.
Lemma seqrun_each {S A} (f : A -> prog S (res unit)) (g : S -> A -> res unit * S)
    (bulk : S -> list A -> res unit * S) :
  (forall x s, seqrun (f x) s = g s x) ->
  (forall s, bulk s [] = (Ok (), s)) ->
  (forall s x l, bulk s (x :: l) = match g s x with (Ok _, s1) => bulk s1 l | r => r end) ->
  forall l s, seqrun (each_prog f l) s = bulk s l.
Proof.
  intros F B0 B1. induction l as [|x l IH]; intros s; cbn [each_prog]; [now rewrite B0|].
  rewrite seqrun_bind, F, B1. destruct (g s x) as [[?| |] s1]; cbn; auto.
Qed.
Lemma disc_row o st sel u : disc true true (held (HR 0)) (HR 0) (row_prog o st sel u).
Proof.
  unfold row_prog. eapply disc_bind_held; [now apply disc_load|intros c1].
  eapply disc_bind_held; [now apply disc_load|intros c2]. now constructor.
Qed.
Lemma disc_get o st sel u : disc true true (held (HR 0)) (HR 0) (get_prog o st sel u).
Proof.
  unfold get_prog. eapply disc_bind_held; [now apply disc_load|intros c].
  destruct (sel c !! u); [|now constructor]. apply disc_map_held, disc_row.
Qed.
Lemma disc_bulk_get o st sel us acc : disc true true (held (HR 0)) (HR 0) (bulk_get_prog o st sel us acc).
Proof.
  revert acc. induction us as [|u us IH]; intros acc; cbn [bulk_get_prog]; [now constructor|].
  eapply disc_bind_held; [now apply disc_load|intros c].
  destruct (sel c !! u); [|apply IH]. eapply disc_bind_held; [apply disc_row|intros lx]. apply IH.
Qed.
Lemma seqrun_row o st sel u c row : sel c !! u = Some row ->
  seqrun (row_prog o st sel u) c = (fill_slots (replicate (size row) None) 0 (map_range o st row).*2, c).
Proof. intros E. unfold row_prog, load. cbn. now rewrite E. Qed.
Lemma seqrun_get o st sel u c :
  seqrun (get_prog o st sel u) c =
  (match sel c !! u with Some row => cache_get o st row | None => Ok [] end, c).
Proof.
  unfold get_prog. rewrite seqrun_bind. cbn [load seqrun fst snd id].
  destruct (sel c !! u) as [row|] eqn:E; [|reflexivity].
  rewrite seqrun_map, (seqrun_row _ _ _ _ _ _ E). reflexivity.
Qed.
Lemma seqrun_bulk_get o st sel us acc c :
  seqrun (bulk_get_prog o st sel us acc) c = (bulk_get_index o st (sel c) us acc, c).
Proof.
  revert acc. induction us as [|u us IH]; intros acc; cbn [bulk_get_prog bulk_get_index]; [reflexivity|].
  rewrite seqrun_bind. cbn [load seqrun fst snd id].
  destruct (sel c !! u) as [row|] eqn:E; [|apply IH].
  rewrite seqrun_bind, (seqrun_row _ _ _ _ _ _ E). cbn [fst snd]. rewrite IH. reflexivity.
Qed.
Lemma held_wpost {R} (fatal : R -> Prop) h (r : R) : held (HR 0) h r -> wpost fatal h r.
Proof. intros ->. now left. Qed.
Lemma cache_sections o op :
  wsection (cache_call o) (fun _ => False) op (cache_prog o op) \/ rsection (cache_call o) op (cache_prog o op).
Proof.
  destruct op as [st [[l opts|u| |ls opts|us]|u|u|us|us]]; cbn [cache_prog snd fst];
    [left|left|left|left|left|right|right|right|right]; eexists; split; try reflexivity; split.
  - eapply disc_mono; [apply disc_map_held, disc_put|apply held_wpost].
  - intros s. rewrite seqrun_map, seqrun_put. cbn. now destruct (cache_put s l opts).
  - eapply disc_mono; [apply disc_map_held, disc_del|apply held_wpost].
  - intros s. now rewrite seqrun_map, seqrun_del.
  - eapply disc_mono; [|apply held_wpost].
    eapply disc_bind_held; [apply disc_set_from|intros _].
    eapply disc_bind_held; [apply disc_set_to|intros _]. now constructor.
  - intros s. rewrite seqrun_bind, seqrun_set_from. cbn [fst snd]. rewrite seqrun_bind, seqrun_set_to. reflexivity.
  - eapply disc_mono; [apply disc_map_held, disc_each; [discriminate|]; intros; apply disc_put|apply held_wpost].
  - intros s. rewrite seqrun_map.
    rewrite (seqrun_each _ (fun c l => cache_put c l opts) (fun c ls => cache_bulk_put c ls opts));
      [cbn; now destruct (cache_bulk_put s ls opts) | intros; apply seqrun_put | auto | auto].
  - eapply disc_mono; [apply disc_map_held, disc_each; [discriminate|]; intros; apply disc_del|apply held_wpost].
  - intros s. rewrite seqrun_map.
    rewrite (seqrun_each _ cache_delete cache_bulk_delete);
      [cbn; now destruct (cache_bulk_delete s us) | intros; apply seqrun_del | auto | auto].
  - apply disc_map_held, disc_get.
  - intros s. now rewrite seqrun_map, seqrun_get.
  - apply disc_map_held, disc_get.
  - intros s. now rewrite seqrun_map, seqrun_get.
  - apply disc_map_held, disc_bulk_get.
  - intros s. now rewrite seqrun_map, seqrun_bulk_get.
  - apply disc_map_held, disc_bulk_get.
  - intros s. now rewrite seqrun_map, seqrun_bulk_get.
Qed.

(** ** graph *)
Lemma disc_gload ro nest h : h <> HA -> disc ro nest (held h) h gload.
Proof. intros N. unfold gload. constructor; auto. intros s. now constructor. Qed.
Lemma disc_gsave nest h f : h <> HA -> disc false nest (held h) h (gsave f).
Proof. intros N. unfold gsave. constructor; auto; [discriminate|]. intros s. now constructor. Qed.
Lemma disc_galloc {A} nest h (f : world -> A * world) : h <> HA -> disc false nest (held h) h (galloc f).
Proof. intros N. unfold galloc. constructor; auto; [discriminate|]. intros s. now constructor. Qed.
Lemma disc_gset_b nest h f : h <> HA -> disc false nest (held h) h (gset_b f).
Proof. intros N. eapply disc_bind_held; [now apply disc_gload|intros g]. now apply disc_gsave. Qed.
Lemma disc_gset_nodes nest h f : h <> HA -> disc false nest (held h) h (gset_nodes f).
Proof. intros N. eapply disc_bind_held; [now apply disc_gload|intros g]. now apply disc_gsave. Qed.
Lemma disc_locked {S A} nest (body : prog S A) :
  disc false nest (held HW) HW body -> disc false nest (held (HR 0)) (HR 0) (locked 1 body).
Proof.
  intros D. unfold locked. constructor; auto. constructor; auto.
  eapply disc_bind_held; eauto. intros a. constructor; auto. now constructor.
Qed.
Lemma disc_rlocked {S A} ro nest n (body : prog S A) :
  nest = true \/ n = 0 ->
  disc ro nest (held (HR (1 + n))) (HR (1 + n)) body -> disc ro nest (held (HR n)) (HR n) (rlocked 1 body).
Proof.
  intros N D. unfold rlocked. constructor; auto.
  eapply disc_bind_held; eauto. intros a. constructor; auto. now constructor.
Qed.
Lemma disc_gread {A} ro nest n (f : wg -> A) : nest = true \/ n = 0 ->
  disc ro nest (held (HR n)) (HR n) (rlocked 1 (pbind gload (fun g => Ret (f g)))).
Proof.
  intros N. apply disc_rlocked; auto. eapply disc_bind_held; [now apply disc_gload|intros g]. now constructor.
Qed.
(** the panic of the id allocator is the only result that can leave g.mu locked *)
Definition npost {A} (h : hold) (r : res A) : Prop := h = HR 0 \/ r = Panic PNoSlot.
Lemma newnode_id_panic o st g p : newnode_id o st g = Panic p -> p = PNoSlot.
Proof.
  unfold newnode_id, b_new_node_id, idset_new_id.
  repeat (destruct (bool_decide _); try discriminate); try (intros [= <-]; reflexivity);
    destruct (shuffle _ _ _); try discriminate; intros [= <-]; reflexivity.
Qed.
Lemma disc_new_node nest o st e opts : disc false nest npost (HR 0) (new_node_prog o st e opts).
Proof.
  unfold new_node_prog. constructor; auto. constructor; auto.
  eapply disc_bind_held; [now apply disc_gload|intros g].
  destruct (newnode_id o st g) eqn:En.
  - constructor; auto. eapply disc_bind_held; [now apply disc_galloc|intros n].
    constructor; auto. constructor; auto. eapply disc_bind_held; [now apply disc_gload|intros g'].
    constructor; auto. constructor; [now left | discriminate].
  - constructor; auto. constructor; [now left | discriminate].
  - constructor; [right; f_equal; eapply newnode_id_panic; eauto | discriminate].
Qed.
Lemma disc_add_node nest a opts : disc false nest (held (HR 0)) (HR 0) (add_node_prog a opts).
Proof.
  destruct a as [n|u]; cbn [add_node_prog]; [|now constructor].
  apply disc_locked. eapply disc_bind_held; [now apply disc_gload|intros g].
  destruct (b_nodes (g_b g) !! n_id n).
  - eapply disc_bind_held; [now apply disc_gload|intros g1].
    destruct (g_nodes g1 !! n_key n); [destruct (go_upsert _)|].
    + do 2 (eapply disc_bind_held; [now apply disc_gset_nodes|intros _]). now constructor.
    + now constructor.
    + eapply disc_bind_held; [now apply disc_gset_nodes|intros _]. now constructor.
  - eapply disc_bind_held; [now apply disc_gload|intros g1].
    destruct (b_add_node (g_b g1) n); [|now constructor..].
    eapply disc_bind_held; [now apply disc_gsave|intros _].
    eapply disc_bind_held; [now apply disc_gset_nodes|intros _]. now constructor.
Qed.
Lemma disc_remove_node nest u : disc false nest (held (HR 0)) (HR 0) (remove_node_prog u).
Proof.
  unfold remove_node_prog. constructor; auto. eapply disc_bind_held; [now apply disc_gload|intros g].
  destruct (g_nodes g !! uid_string u); (constructor; auto); [|now constructor].
  apply disc_locked. eapply disc_bind_held; [now apply disc_gset_b|intros _].
  eapply disc_bind_held; [now apply disc_gset_nodes|intros _]. now constructor.
Qed.
Lemma disc_unlink nest u v : disc false nest (held (HR 0)) (HR 0) (unlink_prog u v).
Proof.
  unfold unlink_prog. constructor; auto. eapply disc_bind_held; [now apply disc_gload|intros g].
  destruct (g_nodes g !! uid_string u); [|constructor; auto; now constructor].
  eapply disc_bind_held; [now apply disc_gload|intros g1].
  destruct (g_nodes g1 !! uid_string v); (constructor; auto); [|now constructor].
  apply disc_locked. eapply disc_bind_held; [now apply disc_gset_b|intros _]. now constructor.
Qed.
(** Edge returns no panic: Link then always unlocks *)
Lemma edge_no_panic g u v p : wg_edge g u v <> Panic p.
Proof.
  unfold wg_edge. destruct (g_nodes g !! _); [|discriminate]. destruct (g_nodes g !! _); [|discriminate].
  destruct (b_weighted_edge _ _ _); discriminate.
Qed.
Lemma disc_link u v opts : disc false true (held (HR 0)) (HR 0) (link_prog u v opts).
Proof.
  unfold link_prog. constructor; auto.
  eapply (disc_bind _ _ (fun h r => h = HR 1 /\ forall p, r <> Panic p)).
  { unfold edge_prog, rlocked. constructor; auto.
    eapply (disc_bind _ _ (fun h r => h = HR 2 /\ forall p, r <> Panic p)).
    - eapply disc_bind_held; [now apply disc_gload|intros g]. constructor; [|discriminate].
      split; auto. intros p. apply edge_no_panic.
    - intros h r _ [-> NP]. constructor. now constructor. }
  intros h r _ [-> NP]. destruct r as [e|x|p]; [constructor; auto; now constructor| |now destruct (NP p)].
  destruct (bool_decide _); [|constructor; auto; now constructor].
  eapply disc_bind_held; [now apply disc_gload|intros g].
  destruct (g_nodes g !! uid_string u); [|constructor; auto; now constructor].
  eapply disc_bind_held; [now apply disc_gload|intros g1].
  destruct (g_nodes g1 !! uid_string v); [|constructor; auto; now constructor].
  constructor. apply disc_locked. eapply disc_bind_held; [now apply disc_galloc|intros e].
  eapply disc_bind_held; [now apply disc_gload|intros g2].
  destruct (b_set_edge _ _); [|now constructor..].
  eapply disc_bind_held; [now apply disc_gsave|intros _]. now constructor.
Qed.
Lemma disc_sub_peers nest o st sgn sg from peers :
  disc false nest (held (HR 0)) (HR 0) (sub_peers_prog o st sgn sg from peers).
Proof.
  revert sg. induction peers as [|peer peers IH]; intros sg; cbn [sub_peers_prog]; [now constructor|].
  destruct (sgn !! n_id peer); [|apply IH]. cbv zeta.
  eapply disc_bind_held; [now apply disc_gload|intros g].
  eapply disc_bind_held; [now apply disc_galloc|intros [r sg1]].
  destruct r; [apply IH|now constructor..].
Qed.
Lemma disc_sub_nodes nest o st sgn sg todo :
  disc false nest (held (HR 0)) (HR 0) (sub_nodes_prog o st sgn sg todo).
Proof.
  revert sg. induction todo as [|[id from] todo IH]; intros sg; cbn [sub_nodes_prog]; [now constructor|].
  cbv zeta. eapply disc_bind_held; [now apply disc_gload|intros g].
  destruct (b_from_nodes _ _ _ _); [|now constructor..].
  eapply disc_bind_held; [apply disc_sub_peers|intros r].
  destruct r; [apply IH|now constructor..].
Qed.
Lemma disc_subgraph nest o st u d opts : disc false nest (held (HR 0)) (HR 0) (subgraph_prog o st u d opts).
Proof.
  unfold subgraph_prog. constructor; auto. eapply disc_bind_held; [now apply disc_gload|intros g].
  destruct (g_nodes g !! uid_string u); [|constructor; auto; now constructor].
  constructor. eapply disc_bind_held; [now apply disc_galloc|intros sg].
  constructor; auto. eapply disc_bind_held; [now apply disc_gload|intros g1]. cbv zeta.
  constructor. destruct (bfs_walk _ _ _ _ _) as [[order|e|p]|]; try now constructor.
  destruct (fold_left sub_visit order (sg, ∅, None)) as [[sg1 sgn] [e|]]; [now constructor|].
  apply disc_map_held, disc_sub_nodes.
Qed.

(** what one goroutine computes *)
Lemma seqrun_gload x : seqrun gload x = (x.2, x).
Proof. reflexivity. Qed.
Lemma seqrun_new_node o st e opts w g :
  seqrun (new_node_prog o st e opts) (w, g) =
  match wg_new_node o st w g e opts with
  | Ok (n, w1) => (Ok n, (w1, g))
  | Err x => (Err x, (w, g))
  | Panic p => (Panic p, (w, g))
  end.
Proof.
  unfold new_node_prog, wg_new_node. cbn [seqrun]. rewrite seqrun_bind, seqrun_gload. cbn [fst snd].
  destruct (newnode_id o st g) as [id|x|p]; cbn [rbind seqrun]; auto.
  rewrite seqrun_bind. cbn [galloc seqrun fst snd]. rewrite seqrun_bind, seqrun_gload. cbn [fst snd seqrun].
  destruct (mem_new_node w id e opts) as [n w1]. reflexivity.
Qed.
Lemma seqrun_locked {S A} m (body : prog S A) s : seqrun (locked m body) s = seqrun body s.
Proof. unfold locked. cbn [seqrun]. rewrite seqrun_bind. cbn [seqrun]. now destruct (seqrun body s). Qed.
Lemma seqrun_rlocked {S A} m (body : prog S A) s : seqrun (rlocked m body) s = seqrun body s.
Proof. unfold rlocked. cbn [seqrun]. rewrite seqrun_bind. cbn [seqrun]. now destruct (seqrun body s). Qed.
Lemma seqrun_add_node a opts w g :
  seqrun (add_node_prog a opts) (w, g) = let '(r, g1) := wg_add_node g a opts in (r, (w, g1)).
Proof.
  destruct a as [n|u]; cbn [add_node_prog wg_add_node]; [|reflexivity].
  rewrite seqrun_locked, seqrun_bind, seqrun_gload. cbn [fst snd]. unfold addnode_commit.
  destruct (b_nodes (g_b g) !! n_id n).
  - rewrite seqrun_bind, seqrun_gload. cbn [fst snd].
    destruct (g_nodes g !! n_key n); [destruct (go_upsert _)|]; try reflexivity.
  - rewrite seqrun_bind, seqrun_gload. cbn [fst snd].
    destruct (b_add_node (g_b g) n); reflexivity.
Qed.
Lemma seqrun_gread {A} (f : wg -> A) w g :
  seqrun (rlocked 1 (pbind gload (fun g => Ret (f g)))) (w, g) = (f g, (w, g)).
Proof. now rewrite seqrun_rlocked. Qed.
Lemma seqrun_remove_node u w g :
  seqrun (remove_node_prog u) (w, g) = let '(r, g1) := wg_remove_node g u in (r, (w, g1)).
Proof.
  unfold remove_node_prog, wg_remove_node. cbn [seqrun]. rewrite seqrun_bind, seqrun_gload. cbn [fst snd].
  destruct (g_nodes g !! uid_string u); reflexivity.
Qed.
Lemma seqrun_unlink u v w g :
  seqrun (unlink_prog u v) (w, g) = let '(r, g1) := wg_unlink g u v in (r, (w, g1)).
Proof.
  unfold unlink_prog, wg_unlink. cbn [seqrun]. rewrite seqrun_bind, seqrun_gload. cbn [fst snd].
  destruct (g_nodes g !! uid_string u); [|reflexivity].
  rewrite seqrun_bind, seqrun_gload. cbn [fst snd].
  destruct (g_nodes g !! uid_string v); reflexivity.
Qed.
Lemma seqrun_link u v opts w g :
  seqrun (link_prog u v opts) (w, g) = wg_link w g u v opts.
Proof.
  unfold link_prog, wg_link, link_check. cbn [seqrun]. rewrite seqrun_bind.
  unfold edge_prog. rewrite seqrun_gread. cbn [fst snd].
  destruct (wg_edge g u v) as [e|x|p]; [reflexivity| |reflexivity].
  destruct (bool_decide _); [|reflexivity].
  rewrite seqrun_bind, seqrun_gload. cbn [fst snd].
  destruct (g_nodes g !! uid_string u) as [f|]; [|reflexivity].
  rewrite seqrun_bind, seqrun_gload. cbn [fst snd].
  destruct (g_nodes g !! uid_string v) as [t|]; [|reflexivity].
  cbn [seqrun]. rewrite seqrun_locked, seqrun_bind. cbn [galloc seqrun fst snd].
  rewrite seqrun_bind, seqrun_gload. cbn [fst snd]. unfold link_commit.
  destruct (new_edge w f t opts) as [e w1]. cbn [fst snd].
  destruct (b_set_edge (g_b g) e); reflexivity.
Qed.
Lemma seqrun_sub_peers o st sgn sg from peers w g :
  seqrun (sub_peers_prog o st sgn sg from peers) (w, g) =
  match sub_link_peers o st w (g_b g) sgn sg from peers with
  | (Ok _, (w1, sg1)) => (Ok sg1, (w1, g))
  | (Err e, (w1, _)) => (Err e, (w1, g))
  | (Panic p, (w1, _)) => (Panic p, (w1, g))
  end.
Proof.
  revert sg w. induction peers as [|peer peers IH]; intros sg w; cbn [sub_peers_prog sub_link_peers]; [reflexivity|].
  destruct (sgn !! n_id peer) as [to|]; [|apply IH]. cbv zeta.
  rewrite seqrun_bind, seqrun_gload. cbn [fst snd].
  rewrite seqrun_bind. cbn [galloc seqrun fst snd].
  destruct (sub_link_edges _ _ w sg from to _) as [[?|x|p] [w1 sg1]]; cbn [fst snd]; auto.
Qed.
Lemma seqrun_sub_nodes o st sgn sg todo w g :
  seqrun (sub_nodes_prog o st sgn sg todo) (w, g) =
  match sub_link_nodes o st w (g_b g) sgn sg todo with
  | (Ok _, (w1, sg1)) => (Ok sg1, (w1, g))
  | (Err e, (w1, _)) => (Err e, (w1, g))
  | (Panic p, (w1, _)) => (Panic p, (w1, g))
  end.
Proof.
  revert sg w. induction todo as [|[id from] todo IH]; intros sg w; cbn [sub_nodes_prog sub_link_nodes]; [reflexivity|].
  cbv zeta. rewrite seqrun_bind, seqrun_gload. cbn [fst snd].
  destruct (b_from_nodes _ _ _ _); [|reflexivity..].
  rewrite seqrun_bind, seqrun_sub_peers.
  destruct (sub_link_peers _ _ w _ sgn sg from _) as [[?|x|p] [w1 sg1]]; cbn [fst snd seqrun]; auto.
Qed.
Lemma seqrun_subgraph o st u d opts w g :
  seqrun (subgraph_prog o st u d opts) (w, g) =
  match wg_subgraph o st w g u d opts with
  | Some (r, w1) => (Some r, (w1, g))
  | None => (None, ((seqrun (subgraph_prog o st u d opts) (w, g)).2.1, g))
  end.
Proof.
  unfold subgraph_prog, wg_subgraph. cbn [seqrun]. rewrite seqrun_bind, seqrun_gload. cbn [fst snd].
  destruct (g_nodes g !! uid_string u) as [root|]; [|reflexivity].
  cbn [seqrun]. rewrite seqrun_bind. cbn [galloc seqrun fst snd].
  destruct (new_wdg w opts) as [sg w1]. cbn [fst snd].
  rewrite seqrun_bind, seqrun_gload. cbn [fst snd seqrun].
  destruct (bfs_walk _ _ _ _ _) as [[order|e|p]|]; try reflexivity.
  destruct (fold_left sub_visit order (sg, ∅, None)) as [[sg1 sgn] [e|]]; [reflexivity|].
  rewrite seqrun_map, seqrun_sub_nodes.
  destruct (sub_link_nodes _ _ _ _ _ _ _) as [[?|x|p] [w2 sg2]]; reflexivity.
Qed.

(** ** store *)
Lemma store_eta (s : store) : Store (s_uid s) (s_g s) = s.
Proof. now destruct s. Qed.
Lemma disc_zoom {R} ro nest (Q : hold -> R -> Prop) h p : disc ro nest Q h p -> disc ro nest Q h (zoom p).
Proof.
  intros D. induction D; cbn [zoom]; constructor; auto.
  intros Hr [w s]. rewrite H0 by auto. cbn. now rewrite store_eta.
Qed.
Lemma seqrun_zoom {R} (p : prog gstate R) w s :
  seqrun (zoom p) (w, s) =
  ((seqrun p (w, s_g s)).1, ((seqrun p (w, s_g s)).2.1, Store (s_uid s) (seqrun p (w, s_g s)).2.2)).
Proof.
  revert w s. induction p as [r|u k IH|m k IH|m k IH|m k IH|m k IH|m k IH]; intros w s; cbn [zoom seqrun fst snd]; auto.
  - now rewrite store_eta.
  - rewrite IH. cbn [s_g s_uid]. now destruct (u (w, s_g s)).
Qed.
Lemma zoom_read {A} (f : wg -> A) w s :
  seqrun (zoom (rlocked 1 (pbind gload (fun g => Ret (f g))))) (w, s) = (f (s_g s), (w, s)).
Proof. rewrite seqrun_zoom, seqrun_gread. cbn. now rewrite store_eta. Qed.

Lemma disc_add o st opts e : disc false true npost (HR 0) (add_prog o st opts e).
Proof.
  unfold add_prog. eapply disc_bind; [apply disc_zoom, disc_new_node|].
  intros h r N Q. destruct r as [n|x|p].
  - destruct Q as [-> |?]; [|discriminate].
    destruct (so_upsert _); [|eapply disc_map].
    + eapply disc_mono; [apply disc_zoom, disc_add_node|]. intros h r ->. now left.
    + apply disc_zoom, disc_add_node.
    + intros h r _ ->. now left.
  - destruct Q as [-> |?]; [|discriminate]. constructor; [now left|discriminate].
  - constructor; auto. destruct Q as [-> |[= ->]]; [now left|now right].
Qed.
Lemma seqrun_add o st opts e w s :
  seqrun (add_prog o st opts e) (w, s) = store_add o st w s e opts.
Proof.
  unfold add_prog, store_add. rewrite seqrun_bind, seqrun_zoom, seqrun_new_node.
  destruct (wg_new_node _ _ _ _ _ _) as [[n w1]|x|p]; cbn [fst snd seqrun].
  - destruct (so_upsert _).
    + rewrite seqrun_zoom, seqrun_add_node. cbn [s_g s_uid]. destruct (wg_add_node _ _ _). reflexivity.
    + rewrite seqrun_map, seqrun_zoom, seqrun_add_node. cbn [s_g s_uid]. destruct (wg_add_node _ _ _). reflexivity.
  - now rewrite store_eta.
  - now rewrite store_eta.
Qed.
Lemma disc_sget u : disc true true (held (HR 0)) (HR 0) (sget_prog u).
Proof. apply disc_map_held, disc_zoom. apply disc_gread. auto. Qed.
Lemma seqrun_sget u w s : seqrun (sget_prog u) (w, s) = (store_get s u, (w, s)).
Proof. unfold sget_prog, node_prog. rewrite seqrun_map, zoom_read. reflexivity. Qed.
Lemma seqrun_sdelete u w s :
  seqrun (delete_prog u) (w, s) = let '(r, s1) := store_delete s u in (r, (w, s1)).
Proof.
  unfold delete_prog, store_delete. rewrite seqrun_zoom, seqrun_remove_node.
  destruct (wg_remove_node _ _). reflexivity.
Qed.
Lemma seqrun_slink u v opts w s : seqrun (slink_prog opts u v) (w, s) = store_link w s u v opts.
Proof.
  unfold slink_prog, store_link. rewrite seqrun_map, seqrun_zoom, seqrun_link.
  destruct (wg_link _ _ _ _ _) as [r [w1 g1]]. reflexivity.
Qed.
Lemma seqrun_sunlink u v w s :
  seqrun (sunlink_prog u v) (w, s) = let '(r, s1) := store_unlink s u v in (r, (w, s1)).
Proof.
  unfold sunlink_prog, store_unlink. rewrite seqrun_zoom, seqrun_unlink.
  destruct (wg_unlink _ _ _). reflexivity.
Qed.
Lemma disc_bulk_add o st opts es : disc false true npost (HR 0) (bulk_add_prog o st opts es).
Proof.
  revert st. induction es as [|e es IH]; intros st; cbn [bulk_add_prog]; [constructor; [now left|discriminate]|].
  eapply disc_bind; [apply disc_add|]. intros h r N Q. destruct r as [?|x|p].
  - destruct Q as [-> |?]; [|discriminate]. apply IH.
  - constructor; auto.
  - constructor; auto.
Qed.
Lemma seqrun_bulk_add o st opts es w s :
  seqrun (bulk_add_prog o st opts es) (w, s) = store_bulk_add o st w s es opts.
Proof.
  revert w s. induction es as [|e es IH]; intros w s; cbn [bulk_add_prog store_bulk_add]; [reflexivity|].
  rewrite seqrun_bind, seqrun_add. destruct (store_add _ _ _ _ _ _) as [[?|x|p] [w1 s1]]; cbn [fst snd seqrun]; auto.
Qed.
Lemma disc_sbulk_get i ents us : disc true true (held (HR 0)) (HR 0) (sbulk_get_prog i ents us).
Proof.
  revert ents. induction us as [|u us IH]; intros ents; cbn [sbulk_get_prog]; [now constructor|].
  eapply disc_bind_held; [apply disc_sget|intros r]. destruct r; [apply IH|now constructor..].
Qed.
Lemma seqrun_sbulk_get i ents us w s :
  seqrun (sbulk_get_prog i ents us) (w, s) = (bulk_get_loop s i ents us, (w, s)).
Proof.
  revert ents. induction us as [|u us IH]; intros ents; cbn [sbulk_get_prog bulk_get_loop]; [reflexivity|].
  rewrite seqrun_bind, seqrun_sget. cbn [fst snd]. destruct (store_get s u); [apply IH|reflexivity..].
Qed.

Definition sfatal (r : sret) : Prop := r = SRUnit (Panic PNoSlot).
Lemma held_sfatal h r : held (HR 0) h r -> wpost sfatal h r.
Proof. intros ->. now left. Qed.
Lemma npost_sfatal h r : npost h r -> wpost sfatal h (SRUnit r).
Proof. intros [-> | ->]; [now left|now right]. Qed.
Lemma store_sections o op :
  wsection (store_call o) sfatal op (store_prog o op) \/ rsection (store_call o) op (store_prog o op).
Proof.
  destruct op as [st [e opts|u|u|u v opts|u v|es opts|us|us|u vs opts|u vs]]; cbn [store_prog snd fst];
    [left|right|left|left|left|left|right|left|left|left]; eexists; split; try reflexivity; split.
  - eapply disc_map; [apply disc_add|]. intros h r _. apply npost_sfatal.
  - intros [w s]. rewrite seqrun_map, seqrun_add. cbn. now destruct (store_add _ _ _ _ _ _) as [? [? ?]].
  - apply disc_map_held, disc_sget.
  - intros [w s]. now rewrite seqrun_map, seqrun_sget.
  - eapply disc_mono; [apply disc_map_held, disc_zoom, disc_remove_node|apply held_sfatal].
  - intros [w s]. rewrite seqrun_map, seqrun_sdelete. cbn. now destruct (store_delete s u).
  - eapply disc_mono; [apply disc_map_held, disc_map_held, disc_zoom, disc_link|apply held_sfatal].
  - intros [w s]. rewrite seqrun_map, seqrun_slink. cbn. now destruct (store_link _ _ _ _ _).
  - eapply disc_mono; [apply disc_map_held, disc_zoom, disc_unlink|apply held_sfatal].
  - intros [w s]. rewrite seqrun_map, seqrun_sunlink. cbn. now destruct (store_unlink s u v).
  - eapply disc_map; [apply disc_bulk_add|]. intros h r _. apply npost_sfatal.
  - intros [w s]. rewrite seqrun_map, seqrun_bulk_add. cbn. now destruct (store_bulk_add _ _ _ _ _ _) as [? [? ?]].
  - apply disc_map_held, disc_sbulk_get.
  - intros [w s]. now rewrite seqrun_map, seqrun_sbulk_get.
  - eapply disc_mono; [apply disc_map_held, disc_each; [discriminate|]; intros; apply disc_zoom, disc_remove_node|apply held_sfatal].
  - intros [w s]. rewrite seqrun_map.
    rewrite (seqrun_each _ (fun x u => let '(r, s1) := store_delete x.2 u in (r, (x.1, s1)))
               (fun x us => let '(r, s1) := store_bulk_delete x.2 us in (r, (x.1, s1)))).
    + cbn. now destruct (store_bulk_delete s us).
    + intros ? [? ?]. apply seqrun_sdelete.
    + intros [? ?]. reflexivity.
    + intros [w1 s1] u l. cbn. now destruct (store_delete s1 u) as [[?|x|p] s2].
  - eapply disc_mono; [apply disc_map_held, disc_each; [discriminate|]; intros; apply disc_map_held, disc_zoom, disc_link|apply held_sfatal].
  - intros [w s]. rewrite seqrun_map.
    rewrite (seqrun_each _ (fun x v => store_link x.1 x.2 u v opts)
               (fun x vs => store_bulk_link x.1 x.2 u vs opts)).
    + cbn. now destruct (store_bulk_link w s u vs opts).
    + intros ? [? ?]. apply seqrun_slink.
    + intros [? ?]. reflexivity.
    + intros [w1 s1] v l. cbn. now destruct (store_link w1 s1 u v opts) as [[?|x|p] [w2 s2]].
  - eapply disc_mono; [apply disc_map_held, disc_each; [discriminate|]; intros; apply disc_zoom, disc_unlink|apply held_sfatal].
  - intros [w s]. rewrite seqrun_map.
    rewrite (seqrun_each _ (fun x v => let '(r, s1) := store_unlink x.2 u v in (r, (x.1, s1)))
               (fun x vs => let '(r, s1) := store_bulk_unlink x.2 u vs in (r, (x.1, s1)))).
    + cbn. now destruct (store_bulk_unlink s u vs).
    + intros ? [? ?]. apply seqrun_sunlink.
    + intros [? ?]. reflexivity.
    + intros [w1 s1] v l. cbn. now destruct (store_unlink s1 u v) as [[?|x|p] s2].
Qed.

(** ** all graph calls *)
Definition gfatal (r : gqret) : Prop := r = QRNode (Panic PNoSlot) \/ r = QRUnit (Panic PNoSlot).
Lemma disc_graph o c nest :
  c.2 <> QDOT -> (nest = true \/ forall u v l, c.2 <> QLink u v l) ->
  disc false nest (wpost gfatal) (HR 0) (graph_prog o c).
Proof.
  intros ND NL. destruct c as [st q]; cbn [graph_prog fst snd] in *.
  assert (H0 : forall h (r : gqret), held (HR 0) h r -> wpost gfatal h r) by (intros h r ->; now left).
  destruct q.
  - eapply disc_map; [apply disc_new_node|]. intros h r _ [-> | ->]; [now left | right; now left].
  - eapply disc_mono; [apply disc_map_held, disc_add_node|auto].
  - eapply disc_bind; [apply disc_new_node|]. intros h r N Q. destruct r as [n|x|p].
    + destruct Q as [-> |?]; [|discriminate]. eapply disc_mono; [apply disc_map_held, disc_add_node|auto].
    + destruct Q as [-> |?]; [|discriminate]. constructor; auto. now left.
    + constructor; auto. destruct Q as [-> |[= ->]]; [now left | right; now right].
  - eapply disc_mono; [apply disc_map_held, disc_gread; auto|auto].
  - eapply disc_mono; [apply disc_map_held, disc_gread; auto|auto].
  - eapply disc_mono; [apply disc_map_held, disc_remove_node|auto].
  - destruct NL as [-> |NL]; [|now destruct (NL u v opts)].
    eapply disc_mono; [apply disc_map_held, disc_link|auto].
  - eapply disc_mono; [apply disc_map_held, disc_gread; auto|auto].
  - eapply disc_mono; [apply disc_map_held, disc_gread; auto|auto].
  - eapply disc_mono; [apply disc_map_held, disc_gread; auto|auto].
  - eapply disc_mono; [apply disc_map_held, disc_unlink|auto].
  - eapply disc_mono; [apply disc_map_held, disc_subgraph|auto].
  - now destruct ND.
Qed.
(** None of the bounded walk aside, which Proof/BfsP.v excludes, a graph call made by
    one goroutine is the sequential call. *)
Lemma seqrun_graph o c x :
  (forall u d opts, c.2 = QSubGraph u d opts -> wg_subgraph o c.1 x.1 x.2 u d opts <> None) ->
  seqrun (graph_prog o c) x = graph_call o c x.
Proof.
  intros HS. destruct x as [w g], c as [st q]; cbn [graph_call fst snd] in *. destruct q; unfold graph_prog; cbn [fst snd].
  - rewrite seqrun_map, seqrun_new_node. now destruct (wg_new_node _ _ _ _ _ _) as [[n w1]|x|p].
  - rewrite seqrun_map, seqrun_add_node. now destruct (wg_add_node _ _ _).
  - rewrite seqrun_bind, seqrun_new_node. destruct (wg_new_node _ _ _ _ _ _) as [[n w1]|x|p]; try reflexivity.
    cbn beta iota delta [fst snd]. rewrite seqrun_map, seqrun_add_node. now destruct (wg_add_node _ _ _).
  - unfold node_prog. now rewrite seqrun_map, seqrun_gread.
  - unfold nodes_prog. now rewrite seqrun_map, seqrun_gread.
  - rewrite seqrun_map, seqrun_remove_node. now destruct (wg_remove_node _ _).
  - rewrite seqrun_map, seqrun_link. now destruct (wg_link _ _ _ _ _).
  - unfold edge_prog. now rewrite seqrun_map, seqrun_gread.
  - unfold edges_prog. now rewrite seqrun_map, seqrun_gread.
  - unfold from_prog. now rewrite seqrun_map, seqrun_gread.
  - rewrite seqrun_map, seqrun_unlink. now destruct (wg_unlink _ _ _).
  - specialize (HS u depth opts eq_refl). rewrite seqrun_map, seqrun_subgraph.
    destruct (wg_subgraph o st w g u depth opts) as [[r w1]|]; [reflexivity | now destruct HS].
  - reflexivity.
Qed.
