From Verif.Model Require Import Cache.
From Verif.Spec Require Import OptionsSpec CacheSpec.
From Verif.Proof Require Import AttrsP PlanP OptionsP.

(** Each index row is a singleton holding what the history says. *)
Definition index_agree (key peer : link -> UID) (h : list cev) (m : link_index) : Prop :=
  forall u, match index_val key peer h u with
            | Some l => key l = u /\ m !! u = Some {[peer l := l]}
            | None => m !! u = None
            end.

Definition idx_put (m : link_index) (a b : UID) (l : link) (ups : bool) : link_index :=
  let m1 := idx_make m a b in
  if ups then idx_set m1 a b l
  else match idx_get m1 a b with None => idx_set m1 a b l | Some _ => m1 end.

Lemma cache_put_idx c l s :
  cache_put c l (cache_den <$> s) =
  (Ok (), Cache (idx_put (c_from c) (l_from l) (l_to l) l (bool_decide (s <> [])))
                (idx_put (c_to c) (l_to l) (l_from l) l (bool_decide (s <> [])))).
Proof.
  unfold cache_put. rewrite cache_opts_last. cbn [co_upsert].
  assert (Hs : default false (last_set cache_upsert_of s) = bool_decide (s <> [])).
  { destruct s as [|[] s] using rev_ind; [done|]. rewrite last_set_snoc. simpl.
    rewrite bool_decide_true; [done|]. intros H. by apply app_eq_nil in H as [_ ?]. }
  rewrite Hs. unfold idx_put. by destruct (bool_decide (s <> [])).
Qed.

Lemma idx_put_agree key peer h m l ups :
  index_agree key peer h m ->
  index_agree key peer (EPut l ups :: h) (idx_put m (key l) (peer l) l ups).
Proof.
  intros H u. pose proof (H u) as Hu. pose proof (H (key l)) as Hk. simpl.
  assert (Hne : forall v, key l <> v -> idx_put m (key l) (peer l) l ups !! v = m !! v).
  { intros v Hv. unfold idx_put, idx_set, idx_make.
    destruct (idx_get m (key l) (peer l)) eqn:E1, ups; rewrite ?E1;
      try (destruct (idx_get (<[key l:=∅]> m) (key l) (peer l)));
      by rewrite ?lookup_insert_ne by done. }
  case_bool_decide as E; [|by rewrite Hne].
  subst u. clear Hu Hne.
  assert (Hnew : m !! key l = None \/ (exists l0, m !! key l = Some {[peer l0 := l0]} /\ peer l0 <> peer l) ->
     idx_put m (key l) (peer l) l ups !! key l = Some {[peer l := l]}).
  { intros Hm.
    assert (Hg : idx_get m (key l) (peer l) = None).
    { unfold idx_get. destruct Hm as [->|(l0&->&Hp)]; [done|]. simpl. by rewrite lookup_singleton_ne. }
    unfold idx_put, idx_make. rewrite Hg.
    assert (Hg' : idx_get (<[key l:=∅]> m) (key l) (peer l) = None).
    { unfold idx_get. rewrite lookup_insert. simpl. by rewrite lookup_empty. }
    destruct ups; [|rewrite Hg']; unfold idx_set; rewrite !lookup_insert; simpl; by rewrite insert_empty. }
  destruct (index_val key peer h (key l)) as [l0|].
  - destruct Hk as [Hk1 Hk2]. case_bool_decide as Hp.
    + destruct Hp as [Hp ->]. split; [done|].
      assert (Hg : idx_get m (key l) (peer l) = Some l0).
      { unfold idx_get. rewrite Hk2. simpl. by rewrite Hp, lookup_singleton. }
      unfold idx_put, idx_make. rewrite Hg. by rewrite Hg.
    + split; [done|]. destruct (decide (peer l0 = peer l)) as [Hpp|Hpp].
      * destruct ups; [|by destruct Hp].
        assert (Hg : idx_get m (key l) (peer l) = Some l0).
        { unfold idx_get. rewrite Hk2. simpl. by rewrite Hpp, lookup_singleton. }
        unfold idx_put, idx_make. rewrite Hg.
        unfold idx_set. rewrite lookup_insert, Hk2. simpl. by rewrite Hpp, insert_singleton.
      * apply Hnew. right. eauto.
  - split; [done|]. apply Hnew. by left.
Qed.

Lemma idx_del_agree key peer h m v :
  index_agree key peer h m -> index_agree key peer (EDel v :: h) (delete v m).
Proof.
  intros H u. specialize (H u). simpl. case_bool_decide as E.
  - subst. by rewrite lookup_delete.
  - by rewrite lookup_delete_ne.
Qed.

Definition cache_agree (h : list cev) (c : cache) : Prop :=
  index_agree l_from l_to h (c_from c) /\ index_agree l_to l_from h (c_to c).

Lemma put_agree h c l s :
  cache_agree h c ->
  exists c1, cache_put c l (cache_den <$> s) = (Ok (), c1) /\
             cache_agree (EPut l (bool_decide (s <> [])) :: h) c1.
Proof.
  intros [H1 H2]. rewrite cache_put_idx. eexists. split; [done|]. split.
  - by apply idx_put_agree.
  - by apply idx_put_agree.
Qed.

Lemma bulk_put_agree h c ls s :
  cache_agree h c ->
  exists c1, cache_bulk_put c ls (cache_den <$> s) = (Ok (), c1) /\
             cache_agree (reverse ((fun l => EPut l (bool_decide (s <> []))) <$> ls) ++ h) c1.
Proof.
  revert h c. induction ls as [|l ls IH]; intros h c H.
  - exists c. done.
  - destruct (put_agree h c l s H) as (c1&E1&H1). cbn [cache_bulk_put]. rewrite E1.
    destruct (IH _ _ H1) as (c2&E2&H2). exists c2. split; [done|].
    rewrite fmap_cons, reverse_cons, <- app_assoc. done.
Qed.

Lemma bulk_delete_agree h c us :
  cache_agree h c ->
  exists c1, cache_bulk_delete c us = (Ok (), c1) /\ cache_agree (reverse (EDel <$> us) ++ h) c1.
Proof.
  revert h c. induction us as [|u us IH]; intros h c H.
  - exists c. done.
  - cbn [cache_bulk_delete]. unfold cache_delete.
    destruct (IH (EDel u :: h) (Cache (delete u (c_from c)) (delete u (c_to c)))) as (c2&E2&H2).
    { destruct H. split; by apply idx_del_agree. }
    exists c2. split; [done|]. rewrite fmap_cons, reverse_cons, <- app_assoc. done.
Qed.

Lemma ccall_agree h c k :
  cache_agree h c ->
  exists c1, cstep c (ccall_op k) = (Ok (), c1) /\ cache_agree (reverse (ccall_events k) ++ h) c1.
Proof.
  intros H. destruct k as [l s|u| |ls s|us].
  - by apply put_agree.
  - eexists. split; [done|]. destruct H. split; by apply idx_del_agree.
  - eexists. split; [done|]. split; intros u; done.
  - by apply bulk_put_agree.
  - by apply bulk_delete_agree.
Qed.

Lemma crun_agree h c ks :
  cache_agree h c ->
  cache_agree (reverse (ks ≫= ccall_events) ++ h) (crun c (ccall_op <$> ks)).
Proof.
  revert h c. induction ks as [|k ks IH]; intros h c H; [done|].
  rewrite bind_cons, reverse_app, <- app_assoc. rewrite fmap_cons. unfold crun. cbn [fold_left].
  destruct (ccall_agree h c k H) as (c1&E1&H1). rewrite E1. by apply IH.
Qed.

Lemma cache_agree_new : cache_agree [] new_cache.
Proof. split; intros u; done. Qed.

Lemma cache_get_ok o st row : cache_get o st row = Ok (Some <$> (map_range o st row).*2).
Proof.
  unfold cache_get. f_equal. apply fill_slots_all. by rewrite fmap_length, map_range_length.
Qed.

Lemma map_range_singleton {K V} `{Countable K} o st (k : K) (v : V) :
  map_range o st {[k := v]} = [(k, v)].
Proof.
  unfold map_range. rewrite map_to_list_singleton.
  apply Permutation_singleton_r, shuffle_perm.
Qed.

Lemma index_agree_get key peer h m o st u :
  index_agree key peer h m ->
  match m !! u with Some row => cache_get o st row | None => Ok [] end = one_slot (index_val key peer h u).
Proof.
  intros H. specialize (H u). unfold one_slot. destruct (index_val key peer h u) as [l|].
  - destruct H as [_ ->]. rewrite cache_get_ok, map_range_singleton. done.
  - by rewrite H.
Qed.

Lemma bulk_get_index_spec o st m us acc :
  exists r, bulk_get_index o st m us acc = Ok r /\
    forall u, r !! u =
      match m !! u with
      | Some row => if bool_decide (u ∈ us) then
                      match r !! u with Some lx => Some lx | None => None end else acc !! u
      | None => acc !! u
      end /\
      (u ∈ us -> forall row, m !! u = Some row ->
         exists st', r !! u = Some (Some <$> (map_range o st' row).*2)).
Proof.
  revert acc. induction us as [|u0 us IH]; intros acc.
  - exists acc. split; [done|]. intros u. split.
    + destruct (m !! u); [|done]. rewrite bool_decide_false; [done|]. apply not_elem_of_nil.
    + intros Hu. by apply elem_of_nil in Hu.
  - cbn [bulk_get_index]. destruct (m !! u0) as [row|] eqn:Hm.
    + rewrite cache_get_ok. cbn [rbind app].
      destruct (IH (<[u0:=Some <$> (map_range o (st ++ [length us]) row).*2]> acc)) as (r&Hr&Hs).
      exists r. split; [done|]. intros u. destruct (Hs u) as [H1 H2]. split.
      * destruct (decide (u = u0)) as [->|Hne].
        -- rewrite Hm. rewrite bool_decide_true by left. by destruct (r !! u0).
        -- rewrite H1 at 1. destruct (m !! u); [|by rewrite lookup_insert_ne].
           destruct (decide (u ∈ us)).
           ++ rewrite !bool_decide_true by (done || by right). done.
           ++ rewrite !bool_decide_false; [by rewrite lookup_insert_ne| |done].
              intros [?|?]%elem_of_cons; done.
      * intros Hu row' Hrow'. destruct (decide (u ∈ us)) as [Hin|Hnin]; [by apply H2|].
        apply elem_of_cons in Hu as [->|Hu]; [|done].
        rewrite Hm in H1, Hrow'. injection Hrow' as <-.
        rewrite bool_decide_false in H1 by done. rewrite H1, lookup_insert. eauto.
    + destruct (IH acc) as (r&Hr&Hs). exists r. split; [done|]. intros u. destruct (Hs u) as [H1 H2]. split.
      * rewrite H1 at 1. destruct (m !! u) eqn:E; [|done].
        assert (u <> u0) by congruence.
        destruct (decide (u ∈ us)).
        -- rewrite !bool_decide_true by (done || by right). done.
        -- rewrite !bool_decide_false; [done| |done]. intros [?|?]%elem_of_cons; done.
      * intros Hu row' Hrow'. apply elem_of_cons in Hu as [->|Hu]; [congruence|]. by apply H2.
Qed.
