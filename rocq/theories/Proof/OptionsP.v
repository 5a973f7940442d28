From Verif.Model Require Import Store Cache.
From Verif.Spec Require Import OptionsSpec.

Lemma apply_opts_snoc {O} (z : O) l f : apply_opts z (l ++ [f]) = f (apply_opts z l).
Proof. unfold apply_opts. by rewrite fold_left_app. Qed.

Lemma apply_opts_den_snoc {O S} (den : S -> O -> O) (z : O) l x :
  apply_opts z (den <$> (l ++ [x])) = den x (apply_opts z (den <$> l)).
Proof. rewrite fmap_app. apply apply_opts_snoc. Qed.

Lemma last_set_snoc {S X} (sel : S -> option X) l x :
  last_set sel (l ++ [x]) = match sel x with Some v => Some v | None => last_set sel l end.
Proof.
  unfold last_set. rewrite omap_app. simpl. destruct (sel x).
  - by rewrite last_snoc.
  - by rewrite app_nil_r.
Qed.

Ltac opts_tac :=
  intros l; induction l as [|x l IH] using rev_ind;
  [reflexivity
  |rewrite apply_opts_den_snoc, IH, ?last_set_snoc; destruct x; reflexivity].

Lemma ent_opts_last (l : list ent_syn) :
  apply_opts ent_opts_zero (ent_den <$> l) =
  EntOpts (default None (last_set ent_uid_of l)) (default None (last_set ent_attrs_of l))
          (default ""%string (last_set ent_dot_of l)).
Proof. revert l. opts_tac. Qed.

Lemma link_opts_last (l : list link_syn) :
  apply_opts link_opts_zero (link_den <$> l) =
  LinkOpts (default None (last_set link_uid_of l)) (default None (last_set link_attrs_of l))
           (default false (last_set link_merge_of l)).
Proof. revert l. opts_tac. Qed.

Lemma graph_opts_last (l : list graph_syn) :
  apply_opts graph_opts_zero (graph_den <$> l) =
  GraphOpts (default None (last_set graph_uid_of l)) (default ""%string (last_set graph_dotid_of l))
            (default None (last_set graph_attrs_of l)) (default f64_zero (last_set graph_weight_of l))
            (default ""%string (last_set graph_name_of l)) (default false (last_set graph_nocache_of l))
            (default false (last_set graph_upsert_of l)) (default dot_opts_zero (last_set graph_dot_of l)).
Proof. revert l. opts_tac. Qed.

Lemma store_opts_last (l : list store_syn) :
  apply_opts store_opts_zero (store_den <$> l) =
  StoreOpts (default false (last_set store_upsert_of l)) (default None (last_set store_attrs_of l)).
Proof. revert l. opts_tac. Qed.

Lemma mstore_opts_last (l : list mstore_syn) :
  apply_opts mstore_opts_zero (mstore_den <$> l) =
  MStoreOpts (default None (last_set mstore_uid_of l)) (default None (last_set mstore_graph_of l)).
Proof. revert l. opts_tac. Qed.

Lemma cache_opts_last (l : list cache_syn) :
  apply_opts cache_opts_zero (cache_den <$> l) = CacheOpts (default false (last_set cache_upsert_of l)).
Proof. revert l. opts_tac. Qed.
