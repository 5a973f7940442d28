(** Members of an object and the fields of the serialisable structs. *)
From Verif.Model Require Import Marshal Json.
From Verif.Spec Require Import MarshalSpec JsonSpec.
From Verif.Proof Require Import JsonP JsonP2 JsonP3.

(** ** Keys *)
Definition small (l : list N) : Prop := Forall (fun b => 97 <= b <= 122)%N l.
Lemma lower_iff b c : (97 <= c <= 122)%N -> (lower b = c <-> b = c \/ (65 <= b <= 90 /\ c = b + 32))%N.
Proof.
  intros Hc. unfold lower. destruct (Json.between 65 90 b) eqn:E.
  - apply between_iff in E. split; [intros <-; by right|]. intros [->|[_ ->]]; [lia|done].
  - apply between_false in E. split; [by left|]. intros [->|[? _]]; [done|lia].
Qed.
Lemma fold_key_cons b k : fold_key (b :: k) =
  match b :: k with
  | 226 :: 132 :: 170 :: l => 107 :: fold_key l
  | 197 :: 191 :: l => 115 :: fold_key l
  | _ => lower b :: fold_key k
  end%N.
Proof. cbn [fold_key]. repeat case_match; done. Qed.
Lemma names_fold n : small n -> forall k, names k n <-> fold_key k = n.
Proof.
  intros Hn k. split.
  - intros H. induction H as [|b k n H IH|b k n Hb H IH|k n H IH|k n H IH].
    + done.
    + apply Forall_cons in Hn as [Hb Hn]. rewrite <- (IH Hn). rewrite fold_key_cons.
      assert (Hl : lower b = b) by (apply lower_iff; auto). repeat case_match; subst; try (by rewrite Hl); lia.
    + apply Forall_cons in Hn as [_ Hn]. rewrite <- (IH Hn). rewrite fold_key_cons.
      assert (Hl : lower b = (b + 32)%N) by (apply lower_iff; [lia|auto]). repeat case_match; subst; try (by rewrite Hl); lia.
    + apply Forall_cons in Hn as [_ Hn]. change (utf8 8490 ++ k) with (226 :: 132 :: 170 :: k)%N. cbn [fold_key]. f_equal. auto.
    + apply Forall_cons in Hn as [_ Hn]. change (utf8 383 ++ k) with (197 :: 191 :: k)%N. cbn [fold_key]. f_equal. auto.
  - revert n Hn. remember (length k) as m eqn:Hm. assert (Hle : length k <= m) by lia. clear Hm. revert k Hle.
    induction m as [|m IH]; intros k Hm n Hn E; (destruct k as [|b k]; [subst; constructor|]). { simpl in Hm; lia. }
    simpl in Hm. rewrite fold_key_cons in E.
    assert (HD : ((exists k', b :: k = 226 :: 132 :: 170 :: k' /\ n = 107 :: fold_key k') \/
      (exists k', b :: k = 197 :: 191 :: k' /\ n = 115 :: fold_key k') \/ n = lower b :: fold_key k)%N).
    { subst n. clear. repeat case_match; subst; eauto. }
    destruct HD as [(k' & [= -> ->] & ->)|[(k' & [= -> ->] & ->)| ->]].
    + change (226 :: 132 :: 170 :: k')%N with (utf8 8490 ++ k'). apply Forall_cons in Hn as [_ Hn]. apply nm_kelvin.
      apply IH; [simpl in Hm; lia|done|done].
    + change (197 :: 191 :: k')%N with (utf8 383 ++ k'). apply Forall_cons in Hn as [_ Hn]. apply nm_long_s.
      apply IH; [simpl in Hm; lia|done|done].
    + apply Forall_cons in Hn as [Hb Hn]. assert (Hk : names k (fold_key k)) by (apply IH; [lia|done|done]).
      destruct (proj1 (lower_iff b (lower b) Hb) eq_refl) as [Hl|[Hr Hl]].
      * rewrite <- Hl. by apply nm_same.
      * rewrite Hl. by apply nm_upper.
Qed.
Lemma fold_small k : small k -> fold_key k = k.
Proof. intros H. apply names_fold; [done|]. induction k; constructor. apply IHk. by apply Forall_cons in H as [_ H]. Qed.

(** ** One struct: every field by itself *)
Definition assoc {S} (fs : fields S) (k : list N) : option (json -> S -> option S) :=
  match list_find (fun f : list N * _ => f.1 = k) fs with Some (_, f) => Some f.2 | None => None end.
Lemma find_field_fold {S} (fs : fields S) k : Forall (fun f => small f.1) fs -> find_field fs k = assoc fs (fold_key k).
Proof.
  intros Hs. unfold find_field, assoc. destruct (list_find (fun f : list N * _ => f.1 = k) fs) as [[i f]|] eqn:E; [|done].
  pose proof E as E'. apply list_find_Some in E' as (Hi & Hk & _).
  rewrite Forall_forall in Hs. specialize (Hs f (elem_of_list_lookup_2 _ _ _ Hi)). rewrite Hk in Hs. simpl in Hs.
  rewrite fold_small by done. by rewrite E.
Qed.
Lemma assoc_cons {S} n f (fs : fields S) k : assoc ((n, f) :: fs) k = if decide (n = k) then Some f else assoc fs k.
Proof.
  unfold assoc. cbn [list_find]. case_decide as E1; case_decide as E2; try done.
  destruct (list_find _ fs) as [[i g]|]; done.
Qed.
Definition hits (n : string) (l : list (list N * json)) : list json :=
  snd <$> filter (fun kv : list N * json => fold_key kv.1 = to_bytes n) l.
Lemma hits_cons n k v l : hits n ((k, v) :: l) = if decide (fold_key k = to_bytes n) then v :: hits n l else hits n l.
Proof. unfold hits. rewrite filter_cons. simpl. by case_decide. Qed.
(** the values one after the other *)
Fixpoint run_field {A} (f : json -> A -> option A) (vs : list json) (a : A) : option A :=
  match vs with [] => Some a | v :: vs => match f v a with Some a => run_field f vs a | None => None end end.
Lemma run_field_app {A} (f : json -> A -> option A) vs vs' a :
  run_field f (vs ++ vs') a = match run_field f vs a with Some a => run_field f vs' a | None => None end.
Proof. revert a. induction vs as [|v vs IH]; intros a; [done|]. cbn [app run_field]. by destruct (f v a). Qed.
Lemma set_fields_app {S} (fs : fields S) l l' s :
  set_fields fs (l ++ l') s = match set_fields fs l s with Some s => set_fields fs l' s | None => None end.
Proof.
  revert s. induction l as [|[k v] l IH]; intros s; [done|]. cbn [app set_fields]. destruct (find_field fs k) as [f|]; [|done].
  by destruct (f v s).
Qed.
Definition rs := run_field decode_string.
Definition rb := run_field decode_bool.
Definition rm := run_field decode_map.
Definition rr := run_field decode_resource.

Lemma small_names {S} (fs : fields S) :
  forallb (fun f : list N * _ => forallb (fun b => (97 <=? b) && (b <=? 122))%N f.1) fs = true -> Forall (fun f => small f.1) fs.
Proof.
  intros H. apply Forall_forall. intros f Hf. rewrite forallb_forall in H. apply elem_of_list_In in Hf. specialize (H f Hf).
  apply Forall_forall. intros b Hb. rewrite forallb_forall in H. apply elem_of_list_In in Hb. specialize (H b Hb).
  apply andb_true_iff in H as [H1 H2]. by apply N.leb_le in H1, H2.
Qed.
(** step through the fields: which one does the key name *)
Ltac fields_step IH k v :=
  match goal with |- context [find_field ?fs k] =>
    rewrite (find_field_fold fs k) by (apply small_names; by vm_compute)
  end;
  match goal with |- context [assoc ?fs (fold_key k)] =>
    let X := fresh "X" in
    assert (X : assoc fs (fold_key k) = assoc fs (fold_key k)) by done;
    let h := eval cbv beta delta [entity_fields resource_fields object_fields link_fields embedded] in fs in
    change (assoc fs (fold_key k) = assoc h (fold_key k)) in X;
    rewrite ?fmap_cons, ?fmap_nil in X; cbn [app fmap list_fmap fst snd] in X; rewrite !assoc_cons in X; rewrite X; clear X
  end;
  rewrite !hits_cons; generalize (fold_key k); intros k';
  repeat (match goal with
  | |- context [decide (to_bytes ?n = k')] =>
      destruct (decide (to_bytes n = k')) as [<-|]; [|rewrite (decide_False (P := k' = to_bytes n)) by congruence]
  end);
  [..|cbn [assoc list_find]; apply IH];
  repeat match goal with
  | |- context [decide (to_bytes ?n = to_bytes ?n)] => rewrite (decide_True (P := to_bytes n = to_bytes n)) by done
  | |- context [decide (to_bytes ?n = to_bytes ?n')] => rewrite (decide_False (P := to_bytes n = to_bytes n')) by done
  end;
  unfold rs, rb, rm, rr in *; cbn [run_field];
  (match goal with |- context [match ?f v ?x with Some a => run_field ?f _ a | None => None end] => destruct (f v x); cbn [fmap option_fmap option_map] end;
  [by rewrite IH|];
  repeat case_match; done).
Lemma set_entity l : forall e, set_fields entity_fields l e =
  match rs (hits "uid" l) (se_uid e), rs (hits "type" l) (se_type e), rm (hits "attrs" l) (se_attrs e) with
  | Some u, Some t, Some a => Some (SerEntity u t a)
  | _, _, _ => None
  end.
Proof. induction l as [|[k v] l IH]; intros e; [by destruct e|]. cbn [set_fields]. fields_step IH k v. Qed.
Lemma set_link l : forall e, set_fields link_fields l e =
  match rs (hits "uid" l) (sl_uid e), rs (hits "from" l) (sl_from e), rs (hits "to" l) (sl_to e), rm (hits "attrs" l) (sl_attrs e) with
  | Some u, Some f, Some t, Some a => Some (SerLink u f t a)
  | _, _, _, _ => None
  end.
Proof. induction l as [|[k v] l IH]; intros e; [by destruct e|]. cbn [set_fields]. fields_step IH k v. Qed.
Lemma set_resource l : forall r, set_fields resource_fields l r =
  match rs (hits "uid" l) (se_uid (sr_ent r)), rs (hits "type" l) (se_type (sr_ent r)), rm (hits "attrs" l) (se_attrs (sr_ent r)),
    rs (hits "name" l) (sr_name r), rs (hits "group" l) (sr_group r), rs (hits "version" l) (sr_version r), rs (hits "kind" l) (sr_kind r),
    rb (hits "namespaced" l) (sr_namespaced r) with
  | Some u, Some t, Some a, Some n, Some g, Some v, Some k, Some b => Some (SerResource (SerEntity u t a) n g v k b)
  | _, _, _, _, _, _, _, _ => None
  end.
Proof. induction l as [|[k v] l IH]; intros e; [by destruct e as [[] ? ? ? ? ?]|]. cbn [set_fields]. fields_step IH k v. Qed.
Lemma set_object l : forall o, set_fields object_fields l o =
  match rs (hits "uid" l) (se_uid (so_ent o)), rs (hits "type" l) (se_type (so_ent o)), rm (hits "attrs" l) (se_attrs (so_ent o)),
    rs (hits "name" l) (so_name o), rs (hits "namespace" l) (so_namespace o), rr (hits "resource" l) (so_resource o) with
  | Some u, Some t, Some a, Some n, Some ns, Some r => Some (SerObject (SerEntity u t a) n ns r)
  | _, _, _, _, _, _ => None
  end.
Proof. induction l as [|[k v] l IH]; intros e; [by destruct e as [[] ? ? ?]|]. cbn [set_fields]. fields_step IH k v. Qed.

(** ** The relations of the specification *)
Lemma given_iff n l vs : small (to_bytes n) -> given n l vs <-> vs = hits n l.
Proof.
  intros Hn. split.
  - induction 1 as [|k v l vs Hk _ IH|k v l vs Hk _ IH]; [done| |]; rewrite hits_cons.
    + apply (names_fold (to_bytes n) Hn) in Hk. rewrite decide_True by done. by f_equal.
    + rewrite decide_False; [done|]. intros E. apply Hk. by apply (names_fold (to_bytes n) Hn).
  - intros ->. induction l as [|[k v] l IH]; [constructor|]. rewrite hits_cons. case_decide as E.
    + apply gv_hit; [by apply (names_fold (to_bytes n) Hn)|done].
    + apply gv_miss; [|done]. intros H. apply E. by apply (names_fold (to_bytes n) Hn).
Qed.
Lemma run_snoc {A} (f : json -> A -> option A) vs v a b :
  run_field f (vs ++ [v]) a = Some b <-> exists c, run_field f vs a = Some c /\ f v c = Some b.
Proof.
  rewrite run_field_app. destruct (run_field f vs a) as [c|]; cbn [run_field].
  - split; [|intros (c' & [= <-] & ->); done]. destruct (f v c) eqn:E; [|done]. intros [= <-]. eauto.
  - split; [done|]. by intros (c & ? & _).
Qed.
Lemma string_field_iff vs s : string_field vs s <-> rs vs ""%string = Some s.
Proof.
  unfold rs. split.
  - induction 1 as [|vs s _ IH|vs s t _ IH]; [done| |]; apply run_snoc; eauto.
  - revert s. induction vs as [|v vs IH] using rev_ind; intros s H; [injection H as <-; constructor|].
    apply run_snoc in H as (c & Hc & Hv). apply IH in Hc. destruct v; try done; injection Hv as <-; [by apply sf_null|by eapply sf_set].
Qed.
Lemma bool_field_iff vs s : bool_field vs s <-> rb vs false = Some s.
Proof.
  unfold rb. split.
  - induction 1 as [|vs s _ IH|vs s t _ IH]; [done| |]; apply run_snoc; eauto.
  - revert s. induction vs as [|v vs IH] using rev_ind; intros s H; [injection H as <-; constructor|].
    apply run_snoc in H as (c & Hc & Hv). apply IH in Hc. destruct v; try done; injection Hv as <-; [by apply bf_null|by eapply bf_set].
Qed.
Lemma added_iff m l m' : added m l m' <-> set_entries l m = Some m'.
Proof.
  split.
  - induction 1 as [|m k t l m' _ IH|m k l m' _ IH]; done.
  - revert m. induction l as [|[k v] l IH]; intros m H; [injection H as <-; constructor|]. cbn [set_entries] in H.
    destruct v; try done; cbn [decode_string] in H; [by apply ad_null, IH|by apply ad_set, IH].
Qed.
Lemma map_field_iff vs m : map_field vs m <-> exists a, rm vs None = Some a /\ default ∅ a = m.
Proof.
  unfold rm. split.
  - induction 1 as [|vs m _ (a & IH & _)|vs m l m' _ (a & IH & Ha) Hl].
    + by exists None.
    + exists None. split; [|done]. apply run_snoc. eauto.
    + exists (Some m'). split; [|done]. apply run_snoc. exists a. split; [done|]. cbn [decode_map]. rewrite Ha.
      apply added_iff in Hl. by rewrite Hl.
  - intros (a & H & <-). revert a H. induction vs as [|v vs IH] using rev_ind; intros a H; [injection H as <-; constructor|].
    apply run_snoc in H as (c & Hc & Hv). apply IH in Hc. destruct v as [| | | | |l]; try done.
    + injection Hv as <-. by eapply mf_null.
    + cbn [decode_map] in Hv. destruct (set_entries l (default ∅ c)) eqn:E; [|done]. injection Hv as <-.
      eapply mf_add; [done|]. by apply added_iff.
Qed.
Ltac name_small := by (unfold small; repeat (apply Forall_cons_2; [vm_compute; split; discriminate|]); apply Forall_nil_2).
Lemma has_string_iff l n s : small (to_bytes n) -> has_string l n s <-> rs (hits n l) ""%string = Some s.
Proof.
  intros Hn. unfold has_string. split.
  - intros (vs & Hv & Hs). apply given_iff in Hv as ->; [|done]. by apply string_field_iff.
  - intros H. exists (hits n l). split; [by apply given_iff|by apply string_field_iff].
Qed.
Lemma has_bool_iff l n s : small (to_bytes n) -> has_bool l n s <-> rb (hits n l) false = Some s.
Proof.
  intros Hn. unfold has_bool. split.
  - intros (vs & Hv & Hs). apply given_iff in Hv as ->; [|done]. by apply bool_field_iff.
  - intros H. exists (hits n l). split; [by apply given_iff|by apply bool_field_iff].
Qed.
Lemma has_map_iff l n m : small (to_bytes n) -> has_map l n m <-> exists a, rm (hits n l) None = Some a /\ default ∅ a = m.
Proof.
  intros Hn. unfold has_map. split.
  - intros (vs & Hv & Hs). apply given_iff in Hv as ->; [|done]. by apply map_field_iff.
  - intros H. exists (hits n l). split; [by apply given_iff|by apply map_field_iff].
Qed.
Lemma resource_of_iff l u t a n g v k b : resource_of l u t a n g v k b <->
  exists m, set_fields resource_fields l resource_zero = Some (SerResource (SerEntity u t m) n g v k b) /\ default ∅ m = a.
Proof.
  unfold resource_of. rewrite set_resource. cbn [resource_zero entity_zero sr_ent se_uid se_type se_attrs sr_name sr_group sr_version sr_kind sr_namespaced].
  rewrite !has_string_iff, has_bool_iff, has_map_iff by name_small. split.
  - intros (-> & -> & (m & -> & Hm) & -> & -> & -> & -> & ->). by exists m.
  - intros (m & H & Hm). repeat (case_match; [|done]). injection H as -> -> -> -> -> -> -> ->. do 2 (split; [done|]). split; [by exists m|done].
Qed.
Lemma resource_field_iff vs r : rr vs None = Some r <->
  exists o, resource_field vs o /\ match o, r with
    | None, None => True
    | Some l, Some r => set_fields resource_fields l resource_zero = Some r
    | _, _ => False
    end.
Proof.
  unfold rr. revert r. induction vs as [|v vs IH] using rev_ind; intros r.
  { split; [intros [= <-]; exists None; split; [constructor|done]|]. intros (o & Ho & Hr).
    inversion Ho as [|vs' o' ? ? E|vs' o' l ? E]; subst; [|by destruct vs'..]. by destruct r. }
  rewrite run_snoc. split.
  - intros (c & Hc & Hv). apply IH in Hc as (o & Ho & Hoc). destruct v as [| | | | |l]; try done.
    + injection Hv as <-. exists None. split; [|done]. apply (rf_null vs o); [done|]. intros l ->.
      destruct c as [[[u t m] n g v k b]|]; [|done]. eexists _, _, _, _, _, _, _, _. apply resource_of_iff. eauto.
    + cbn [decode_resource] in Hv. destruct (decode_struct resource_fields (JObj l) (default resource_zero c)) as [r'|] eqn:E; [|done].
      injection Hv as <-. exists (Some (default [] o ++ l)). split; [by apply rf_add|]. rewrite set_fields_app. cbn [decode_struct] in E.
      destruct o as [l0|], c as [c|]; try done. simpl. simpl in E. by rewrite Hoc.
  - intros (o & Ho & Hor). inversion Ho as [E|vs' o' Ho' Hval E|vs' o' l Ho' E]; subst; [by destruct vs| |];
      apply app_inj_tail in E as [<- <-].
    + destruct r; [done|]. destruct o' as [l|].
      * destruct (Hval l eq_refl) as (u & t & a & n & g & v & k & b & Hres). apply resource_of_iff in Hres as (m & Hres & _).
        eexists (Some _). split; [|done]. apply IH. exists (Some l). split; [done|exact Hres].
      * exists None. split; [|done]. apply IH. by exists None.
    + destruct r as [r|]; [|done]. rewrite set_fields_app in Hor.
      destruct o' as [l0|]; simpl in Hor.
      * destruct (set_fields resource_fields l0 resource_zero) as [r0|] eqn:E0; [|done].
        exists (Some r0). split; [apply IH; by exists (Some l0)|]. cbn [decode_resource decode_struct default from_option]. unfold id. by rewrite Hor.
      * exists None. split; [apply IH; by exists None|]. cbn [decode_resource decode_struct default from_option]. by rewrite Hor.
Qed.
