(** Rendering and reading JSON values; valid text is unchanged. *)
From Verif.Model Require Import Json.
From Verif.Spec Require Import MarshalSpec.
From Verif.Proof Require Import JsonP.
Local Open Scope N_scope.

(** *** Values without numbers *)
Fixpoint clean_json (j : json) : json :=
  match j with
  | JStr s => JStr (cln s)
  | JArr l => JArr ((fix go l := match l with [] => [] | j :: l => clean_json j :: go l end) l)
  | JObj l => JObj ((fix go l := match l with [] => [] | (k, j) :: l => (cln k, clean_json j) :: go l end) l)
  | j => j
  end.
Definition clean_elems (l : list json) : list json := clean_json <$> l.
Definition clean_members (l : list (list N * json)) : list (list N * json) :=
  (fun kv : list N * json => (cln kv.1, clean_json kv.2)) <$> l.
Lemma clean_arr l : clean_json (JArr l) = JArr (clean_elems l).
Proof. done. Qed.
Lemma clean_obj l : clean_json (JObj l) = JObj (clean_members l).
Proof. simpl. f_equal. unfold clean_members. induction l as [|[k j] l IH]; [done|]. rewrite fmap_cons. by f_equal. Qed.
Definition render_member (kv : list N * json) : list N := render_string kv.1 ++ [58] ++ render kv.2.
Lemma render_arr l : render (JArr l) = [91] ++ commas (render <$> l) ++ [93].
Proof. done. Qed.
Lemma render_obj l : render (JObj l) = [123] ++ commas (render_member <$> l) ++ [125].
Proof. cbn [render]. do 3 f_equal. induction l as [|[k j] l IH]; [done|]. rewrite fmap_cons. by f_equal. Qed.
Fixpoint jsize (j : json) : nat :=
  match j with
  | JArr l => S ((fix go l := match l with [] => 0 | j :: l => S (jsize j + go l) end) l)
  | JObj l => S ((fix go l := match l with [] => 0 | (_, j) :: l => S (jsize j + go l) end) l)
  | _ => 1
  end%nat.
Definition esize (l : list json) : nat := foldr (fun j n => S (jsize j + n)) 0%nat l.
Definition msize (l : list (list N * json)) : nat := foldr (fun kv n => S (jsize kv.2 + n)) 0%nat l.
Lemma jsize_arr l : jsize (JArr l) = S (esize l).
Proof. done. Qed.
Lemma jsize_obj l : jsize (JObj l) = S (msize l).
Proof. cbn [jsize]. f_equal. induction l as [|[k j] l IH]; [done|]. cbn [msize foldr]. f_equal. f_equal. exact IH. Qed.
Fixpoint no_num (j : json) : Prop :=
  match j with
  | JNum _ => False
  | JArr l => (fix go l := match l with [] => True | j :: l => no_num j /\ go l end) l
  | JObj l => (fix go l := match l with [] => True | (_, j) :: l => no_num j /\ go l end) l
  | _ => True
  end.
Lemma no_num_arr l : no_num (JArr l) <-> Forall no_num l.
Proof. simpl. induction l as [|j l IH]; [done|]. rewrite Forall_cons, IH. done. Qed.
Lemma no_num_obj l : no_num (JObj l) <-> Forall (fun kv => no_num kv.2) l.
Proof. simpl. induction l as [|[k j] l IH]; [done|]. rewrite Forall_cons, IH. done. Qed.

Lemma render_string_esc s : render_string s = [34] ++ esc s ++ [34].
Proof. done. Qed.
(** a value starts with none of: blank, comma, closing bracket *)
Lemma render_head j : no_num j -> exists b k, render j = b :: k /\ is_ws b = false /\ b <> 93 /\ b <> 125.
Proof.
  destruct j as [|[|]| | | |]; intros H; try done; try (by eexists _, _; repeat split).
Qed.
Lemma skip_head b l : is_ws b = false -> skip_ws (b :: l) = b :: l.
Proof. intros H. simpl. by rewrite H. Qed.
Lemma read_members_unfold fuel l : read_members (S fuel) l =
      match skip_ws l with
      | 34 :: l' =>
          match read_string (length l') l' with
          | Some (k, r) =>
              match skip_ws r with
              | 58 :: r =>
                  match read_value fuel r with
                  | Some (v, r) =>
                      match skip_ws r with
                      | 44 :: r =>
                          match read_members fuel r with Some (m, r) => Some ((k, v) :: m, r) | None => None end
                      | 125 :: r => Some ([(k, v)], r)
                      | _ => None
                      end
                  | None => None
                  end
              | _ => None
              end
          | None => None
          end
      | _ => None
      end.
Proof. done. Qed.
Lemma read_elems_unfold fuel l : read_elems (S fuel) l =
      match read_value fuel l with
      | Some (v, r) =>
          match skip_ws r with
          | 44 :: r => match read_elems fuel r with Some (m, r) => Some (v :: m, r) | None => None end
          | 93 :: r => Some ([v], r)
          | _ => None
          end
      | None => None
      end.
Proof. done. Qed.

Definition reads (j : json) : Prop := forall fuel rest, (jsize j <= fuel)%nat ->
  read_value fuel (render j ++ rest) = Some (clean_json j, rest).
Lemma read_members_ok l : l <> [] -> Forall (fun kv => reads kv.2) l ->
  forall fuel rest, (msize l <= fuel)%nat ->
  read_members fuel (commas (render_member <$> l) ++ 125 :: rest) = Some (clean_members l, rest).
Proof.
  induction l as [|[k j] l IH]; [done|]. intros _ HF fuel rest Hf. apply Forall_cons in HF as [Hj HF].
  simpl in Hf, Hj. destruct fuel as [|fuel]; [lia|]. rewrite read_members_unfold.
  assert (Hstep : forall tl, (match skip_ws (render_member (k, j) ++ tl) with
      | 34 :: l' =>
          match read_string (length l') l' with
          | Some (k, r) =>
              match skip_ws r with
              | 58 :: r =>
                  match read_value fuel r with
                  | Some (v, r) =>
                      match skip_ws r with
                      | 44 :: r =>
                          match read_members fuel r with Some (m, r) => Some ((k, v) :: m, r) | None => None end
                      | 125 :: r => Some ([(k, v)], r)
                      | _ => None
                      end
                  | None => None
                  end
              | _ => None
              end
          | None => None
          end
      | _ => None
      end) = match skip_ws tl with
                      | 44 :: r =>
                          match read_members fuel r with Some (m, r) => Some ((cln k, clean_json j) :: m, r) | None => None end
                      | 125 :: r => Some ([(cln k, clean_json j)], r)
                      | _ => None
                      end).
  { intros tl. unfold render_member. cbn [fst snd]. rewrite render_string_esc. rewrite <- !app_assoc. cbn [app].
    rewrite skip_head by done. rewrite read_rendered. rewrite skip_head by done. rewrite Hj by lia. done. }
  destruct l as [|kv l].
  - cbn [fmap list_fmap commas]. rewrite Hstep. by rewrite skip_head.
  - change (commas (render_member <$> (k, j) :: kv :: l)) with
      (render_member (k, j) ++ [44] ++ commas (render_member <$> kv :: l)).
    rewrite <- !app_assoc. rewrite Hstep. cbn [app]. rewrite skip_head by done.
    rewrite IH; [done|done|done|lia].
Qed.
Lemma read_elems_ok l : l <> [] -> Forall reads l ->
  forall fuel rest, (esize l <= fuel)%nat ->
  read_elems fuel (commas (render <$> l) ++ 93 :: rest) = Some (clean_elems l, rest).
Proof.
  induction l as [|j l IH]; [done|]. intros _ HF fuel rest Hf. apply Forall_cons in HF as [Hj HF].
  simpl in Hf, Hj. destruct fuel as [|fuel]; [lia|]. rewrite read_elems_unfold.
  destruct l as [|j' l].
  - cbn [fmap list_fmap commas]. rewrite Hj by lia. by rewrite skip_head.
  - change (commas (render <$> j :: j' :: l)) with (render j ++ [44] ++ commas (render <$> j' :: l)).
    rewrite <- !app_assoc. rewrite Hj by lia. cbn [app]. rewrite skip_head by done.
    rewrite IH; [done|done|done|lia].
Qed.
Lemma read_str s fuel rest : (1 <= fuel)%nat -> read_value fuel (render (JStr s) ++ rest) = Some (JStr (cln s), rest).
Proof.
  intros Hf. destruct fuel as [|fuel]; [lia|]. cbn [render]. rewrite render_string_esc, <- !app_assoc. cbn [app read_value].
  rewrite skip_head by done. change (34 =? 123) with false. change (34 =? 91) with false. change (34 =? 34) with true. cbn iota.
  by rewrite read_rendered.
Qed.
Lemma read_json n : forall j, (jsize j <= n)%nat -> no_num j -> reads j.
Proof.
  induction n as [|n IH]; intros j Hn Hj fuel rest Hf.
  { destruct j as [|[|]| | | |]; simpl in Hn; lia. }
  destruct j as [|[|]|s|s|l|l].
  - destruct fuel; [simpl in Hf; lia|done].
  - destruct fuel; [simpl in Hf; lia|done].
  - destruct fuel; [simpl in Hf; lia|done].
  - done.
  - apply read_str, Hf.
  - rewrite jsize_arr in Hn, Hf. apply no_num_arr in Hj. rewrite clean_arr, render_arr.
    destruct fuel as [|fuel]; [lia|]. rewrite <- !app_assoc. cbn [app read_value]. rewrite skip_head by done.
    change (91 =? 123) with false. change (91 =? 91) with true. cbn iota.
    destruct l as [|j l]; [done|].
    assert (HF : Forall reads (j :: l)).
    { clear -IH Hj Hn. revert Hn. induction Hj as [|j' l' Hj' Hl' IH']; [constructor|]. intros Hn. simpl in Hn. constructor.
      - apply IH; [lia|done]. - apply IH'. lia. }
    assert (Hhd : exists b k, commas (render <$> j :: l) ++ 93 :: rest = b :: k /\ is_ws b = false /\ b <> 93).
    { apply Forall_cons in Hj as [Hj _]. destruct (render_head j Hj) as (b & k & Eb & Hw & Hb & _).
      destruct l as [|j' l].
      - exists b, (k ++ 93 :: rest). cbn [fmap list_fmap commas]. by rewrite Eb.
      - exists b, (k ++ ([44] ++ commas (render <$> j' :: l)) ++ 93 :: rest). split; [|done].
        change (commas (render <$> j :: j' :: l)) with (render j ++ [44] ++ commas (render <$> j' :: l)).
        rewrite Eb. rewrite <- !app_assoc. done. }
    pose proof (read_elems_ok (j :: l) ltac:(done) HF fuel rest ltac:(lia)) as Hr.
    destruct Hhd as (b & k & Eb & Hw & Hb). rewrite Eb in Hr |- *. rewrite skip_head by done. rewrite Hr.
    repeat case_match; try done; congruence.
  - rewrite jsize_obj in Hn, Hf. apply no_num_obj in Hj. rewrite clean_obj, render_obj.
    destruct fuel as [|fuel]; [lia|]. rewrite <- !app_assoc. cbn [app read_value]. rewrite skip_head by done.
    change (123 =? 123) with true. cbn iota.
    destruct l as [|[k j] l]; [done|].
    assert (HF : Forall (fun kv => reads kv.2) ((k, j) :: l)).
    { clear -IH Hj Hn. revert Hn. induction Hj as [|j' l' Hj' Hl' IH']; [constructor|]. intros Hn. simpl in Hn. constructor.
      - apply IH; [lia|done]. - apply IH'. lia. }
    pose proof (read_members_ok ((k, j) :: l) ltac:(done) HF fuel rest ltac:(lia)) as Hr.
    assert (Hhd : exists t, commas (render_member <$> (k, j) :: l) ++ 125 :: rest = 34 :: t).
    { destruct l as [|kv l]; cbn [fmap list_fmap commas]; unfold render_member; cbn [fst snd];
        rewrite render_string_esc; rewrite <- !app_assoc; cbn [app]; eauto. }
    destruct Hhd as (t & Et). rewrite Et in Hr |- *. rewrite skip_head by done. cbn iota. by rewrite Hr.
Qed.
Definition total (l : list (list N)) : nat := foldr (fun x n => length x + n)%nat 0%nat l.
Lemma total_cons x l : total (x :: l) = (length x + total l)%nat.
Proof. done. Qed.
Lemma commas_length (l : list (list N)) : (total l <= length (commas l))%nat.
Proof.
  induction l as [|x [|y l] IH]; [done|simpl; lia|].
  change (commas (x :: y :: l)) with (x ++ [44] ++ commas (y :: l)). rewrite !app_length, total_cons. simpl length at 2. lia.
Qed.
Lemma jsize_render n : forall j, (jsize j <= n)%nat -> no_num j -> (jsize j < 2 * length (render j))%nat.
Proof.
  induction n as [|n IH]; intros j Hn Hj.
  { destruct j as [|[|]| | | |]; simpl in Hn; lia. }
  destruct j as [|[|]|s|s|l|l]; try (simpl; lia); try done.
  - apply no_num_arr in Hj. rewrite jsize_arr, render_arr in *. rewrite !app_length. simpl length.
    pose proof (commas_length (render <$> l)) as Hc.
    assert (esize l <= 2 * total (render <$> l))%nat; [|lia]. clear Hc.
    revert Hn. induction Hj as [|j l Hj Hl IH']; [done|]. intros Hn. simpl in Hn. rewrite fmap_cons, total_cons.
    change (esize (j :: l)) with (S (jsize j + esize l)).
    specialize (IH j ltac:(lia) Hj). specialize (IH' ltac:(lia)). lia.
  - apply no_num_obj in Hj. rewrite jsize_obj, render_obj in *. rewrite !app_length. simpl length.
    pose proof (commas_length (render_member <$> l)) as Hc.
    assert (msize l <= 2 * total (render_member <$> l))%nat; [|lia]. clear Hc.
    revert Hn. induction Hj as [|[k j] l Hj Hl IH']; [done|]. intros Hn. simpl in Hn. rewrite fmap_cons, total_cons.
    change (msize ((k, j) :: l)) with (S (jsize j + msize l)). simpl in Hj.
    specialize (IH j ltac:(lia) Hj). specialize (IH' ltac:(lia)). unfold render_member at 1. cbn [fst snd].
    rewrite !app_length. lia.
Qed.
Theorem parse_render j : no_num j -> parse (render j) = Some (clean_json j).
Proof.
  intros Hj. unfold parse. pose proof (read_json (jsize j) j ltac:(lia) Hj (2 * length (render j) + 2)%nat []) as H.
  rewrite app_nil_r in H. rewrite H; [done|]. pose proof (jsize_render (jsize j) j ltac:(lia) Hj). lia.
Qed.

(** *** The bytes of a rendering are bytes *)
Lemma hex_digit_byte d : d < 16 -> byte (hex_digit d).
Proof. intros H. unfold byte, hex_digit. case_match; lia. Qed.
Lemma esc_bytes n : forall l, (length l <= n)%nat -> Forall byte l -> Forall byte (esc l).
Proof.
  assert (Hn : forall x, x < 256 -> byte x) by done.
  induction n as [|n IH]; intros l Hl HF; [destruct l; [constructor|simpl in Hl; lia]|].
  destruct l as [|b l]; [constructor|]. simpl in Hl. pose proof HF as HF0. apply Forall_cons in HF as [Hb HF].
  destruct (rune_len (b :: l)) as [|[|k]] eqn:E.
  - rewrite esc_bad by done. apply Forall_app. split; [|apply IH; [lia|done]]. repeat constructor.
  - apply rune_len_1 in E. rewrite esc_ascii by done. apply Forall_app. split; [|apply IH; [lia|done]].
    unfold escape_ascii. repeat case_match; repeat constructor; try done;
    apply hex_digit_byte; [apply N.div_lt_upper_bound; lia|apply N.mod_lt; lia].
  - rewrite (esc_multi _ _ E). apply Forall_app. split.
    + destruct (esc_rune_cases (take (S (S k)) (b :: l))) as [->|[[_ ->]|[_ ->]]]; [|repeat constructor..].
      by apply Forall_take.
    + apply IH; [rewrite drop_length; simpl; lia|]. by apply Forall_drop.
Qed.
Fixpoint jbytes (j : json) : Prop :=
  match j with
  | JStr s => Forall byte s
  | JNum s => Forall byte s
  | JArr l => (fix go l := match l with [] => True | j :: l => jbytes j /\ go l end) l
  | JObj l => (fix go l := match l with [] => True | (k, j) :: l => (Forall byte k /\ jbytes j) /\ go l end) l
  | _ => True
  end.
Lemma jbytes_arr l : jbytes (JArr l) <-> Forall jbytes l.
Proof. simpl. induction l as [|j l IH]; [done|]. rewrite Forall_cons, IH. done. Qed.
Lemma jbytes_obj l : jbytes (JObj l) <-> Forall (fun kv => Forall byte kv.1 /\ jbytes kv.2) l.
Proof. simpl. induction l as [|[k j] l IH]; [done|]. rewrite Forall_cons, IH. done. Qed.
Lemma render_string_bytes s : Forall byte s -> Forall byte (render_string s).
Proof.
  intros H. rewrite render_string_esc. apply Forall_app. split; [by repeat constructor|].
  apply Forall_app. split; [by apply (esc_bytes (length s))|by repeat constructor].
Qed.
Lemma commas_bytes l : Forall (Forall byte) l -> Forall byte (commas l).
Proof.
  induction l as [|x [|y l] IH]; intros H; [constructor|by apply Forall_cons in H as [? ?]|].
  change (commas (x :: y :: l)) with (x ++ [44] ++ commas (y :: l)). apply Forall_cons in H as [Hx H].
  apply Forall_app. split; [done|]. apply Forall_app. split; [by repeat constructor|]. by apply IH.
Qed.
Lemma render_bytes n : forall j, (jsize j <= n)%nat -> jbytes j -> Forall byte (render j).
Proof.
  induction n as [|n IH]; intros j Hn Hj.
  { destruct j as [|[|]| | | |]; simpl in Hn; lia. }
  destruct j as [|[|]|s|s|l|l]; try (by repeat constructor); try done.
  - by apply render_string_bytes.
  - apply jbytes_arr in Hj. rewrite jsize_arr in Hn. rewrite render_arr.
    apply Forall_app. split; [by repeat constructor|]. apply Forall_app. split; [|by repeat constructor].
    apply commas_bytes. apply Forall_fmap. revert Hn.
    induction Hj as [|j l Hj Hl IH']; [constructor|]. intros Hn. simpl in Hn. constructor; [apply IH; [lia|done]|apply IH'; lia].
  - apply jbytes_obj in Hj. rewrite jsize_obj in Hn. rewrite render_obj.
    apply Forall_app. split; [by repeat constructor|]. apply Forall_app. split; [|by repeat constructor].
    apply commas_bytes. apply Forall_fmap. revert Hn.
    induction Hj as [|[k j] l [Hk Hj] Hl IH']; [constructor|]. intros Hn. simpl in Hn. constructor; [|apply IH'; lia].
    simpl. unfold render_member. apply Forall_app. split; [by apply render_string_bytes|].
    apply Forall_app. split; [by repeat constructor|]. apply IH; [simpl; lia|done].
Qed.
Theorem parse_marshalled j : no_num j -> jbytes j -> parse (to_bytes (of_bytes (render j))) = Some (clean_json j).
Proof. intros Hn Hj. rewrite to_of_bytes; [by apply parse_render|]. by apply (render_bytes (jsize j)). Qed.

(** *** Valid UTF-8 is unchanged *)
Ltac bt := rewrite ?between_iff, ?N.ltb_lt, ?N.ltb_ge, ?N.eqb_eq, ?N.eqb_neq in *.
Lemma between_false a b x : between a b x = false <-> x < a \/ b < x.
Proof. unfold between. rewrite andb_false_iff, !N.leb_gt. done. Qed.
Lemma utf8_rune_len r k : scalar r -> rune_len (utf8 r ++ k) = length (utf8 r).
Proof.
  intros Hs. unfold utf8. destruct (N.ltb_spec r 128).
  { simpl. by rewrite (proj2 (N.ltb_lt r 128)). }
  assert (Hc : forall x, cont (128 + x mod 64) = true).
  { intros x. unfold cont. apply between_iff. pose proof (N.mod_lt x 64 ltac:(lia)). generalize dependent (x mod 64). intros. lia. }
  destruct (N.ltb_spec r 2048).
  { assert (2 <= r / 64 < 32). { split; [apply N.div_le_lower_bound; lia|apply N.div_lt_upper_bound; lia]. }
    simpl. rewrite (proj2 (N.ltb_ge _ 128)) by lia.
    replace (between 194 223 (192 + r / 64)) with true by (symmetry; apply between_iff; lia).
    by rewrite Hc. }
  destruct (N.ltb_spec r 65536).
  { assert (r / 4096 < 16) by (apply N.div_lt_upper_bound; lia).
    pose proof (N.div_mod r 4096 ltac:(lia)) as D1. pose proof (N.mod_lt r 4096 ltac:(lia)) as D2.
    pose proof (N.div_mod r 64 ltac:(lia)) as D3. pose proof (N.mod_lt r 64 ltac:(lia)) as D4.
    pose proof (N.div_mod (r / 64) 64 ltac:(lia)) as D5. pose proof (N.mod_lt (r / 64) 64 ltac:(lia)) as D6.
    assert (E4 : r / 64 / 64 = r / 4096) by (rewrite N.div_div by lia; done). rewrite E4 in D5. clear E4.
    pose proof (Hc (r / 64)) as C1. pose proof (Hc r) as C2. clear Hc.
    remember ((r / 64) mod 64) as m1 eqn:X1. remember (r mod 64) as m0 eqn:X2. clear X1 X2.
    remember (r / 4096) as q eqn:X1. remember (r / 64) as q' eqn:X2. remember (r mod 4096) as m2 eqn:X3. clear X1 X2 X3.
    cbn [app rune_len]. rewrite (proj2 (N.ltb_ge _ 128)) by lia.
    replace (between 194 223 (224 + q)) with false by (symmetry; apply between_false; lia).
    destruct (N.eqb_spec (224 + q) 224) as [E0|E0].
    { replace (between 160 191 (128 + m1)) with true by (symmetry; apply between_iff; lia).
      by rewrite C2. }
    destruct (N.eqb_spec (q) 13) as [E13|E13].
    { replace (between 225 236 (224 + q)) with false by (symmetry; apply between_false; lia).
      replace (between 238 239 (224 + q)) with false by (symmetry; apply between_false; lia).
      replace (224 + q =? 237) with true by (symmetry; apply N.eqb_eq; lia).
      replace (between 128 159 (128 + m1)) with true
        by (symmetry; apply between_iff; destruct Hs; lia).
      by rewrite C2. }
    replace (between 225 236 (224 + q) || between 238 239 (224 + q)) with true.
    2:{ symmetry. apply orb_true_iff. rewrite !between_iff. lia. }
    by rewrite C1, C2. }
  assert (Hr : r < 1114112) by (destruct Hs; lia).
  assert (r / 262144 < 5) by (apply N.div_lt_upper_bound; lia).
  pose proof (N.div_mod r 262144 ltac:(lia)) as D1. pose proof (N.mod_lt r 262144 ltac:(lia)) as D2.
  pose proof (N.div_mod r 4096 ltac:(lia)) as D3. pose proof (N.mod_lt r 4096 ltac:(lia)) as D4.
  pose proof (N.div_mod (r / 4096) 64 ltac:(lia)) as D5. pose proof (N.mod_lt (r / 4096) 64 ltac:(lia)) as D6.
  assert (E4 : r / 4096 / 64 = r / 262144) by (rewrite N.div_div by lia; done). rewrite E4 in D5. clear E4.
  pose proof (Hc (r / 4096)) as C1. pose proof (Hc (r / 64)) as C2. pose proof (Hc r) as C3. clear Hc.
  remember ((r / 4096) mod 64) as m1 eqn:X1. remember ((r / 64) mod 64) as m0 eqn:X2. remember (r mod 64) as m2 eqn:X3. clear X1 X2 X3.
  remember (r / 262144) as q eqn:X1. remember (r / 4096) as q' eqn:X2.
  remember (r mod 262144) as m3 eqn:X3. remember (r mod 4096) as m4 eqn:X4. clear X1 X2 X3 X4.
  cbn [app rune_len]. rewrite (proj2 (N.ltb_ge _ 128)) by lia.
  replace (between 194 223 (240 + q)) with false by (symmetry; apply between_false; lia).
  replace (240 + q =? 224) with false by (symmetry; apply N.eqb_neq; lia).
  replace (between 225 236 (240 + q)) with false by (symmetry; apply between_false; lia).
  replace (between 238 239 (240 + q)) with false by (symmetry; apply between_false; lia).
  replace (240 + q =? 237) with false by (symmetry; apply N.eqb_neq; lia).
  cbn [orb]. cbn iota.
  destruct (N.eqb_spec (240 + q) 240) as [E0|E0].
  { replace (between 144 191 (128 + m1)) with true by (symmetry; apply between_iff; lia).
    by rewrite ?C1, ?C2, ?C3. }
  destruct (N.eqb_spec (q) 4) as [E13|E13].
  { replace (between 241 243 (240 + q)) with false by (symmetry; apply between_false; lia).
    replace (240 + q =? 244) with true by (symmetry; apply N.eqb_eq; lia).
    replace (between 128 143 (128 + m1)) with true by (symmetry; apply between_iff; lia).
    by rewrite ?C1, ?C2, ?C3. }
  replace (between 241 243 (240 + q)) with true by (symmetry; apply between_iff; lia).
  by rewrite ?C1, ?C2, ?C3.
Qed.
Lemma utf8_nonempty r : exists n, length (utf8 r) = S n.
Proof. unfold utf8. repeat case_match; simpl; eauto. Qed.
Lemma cln_utf8 r k : scalar r -> cln (utf8 r ++ k) = utf8 r ++ cln k.
Proof.
  intros Hs. pose proof (utf8_rune_len r k Hs) as H. destruct (utf8_nonempty r) as [n Hn]. rewrite Hn in H.
  rewrite (cln_good _ _ H). rewrite take_app_alt, drop_app_alt by done. done.
Qed.
Lemma cln_valid rs : Forall scalar rs -> cln (concat (utf8 <$> rs)) = concat (utf8 <$> rs).
Proof.
  induction 1 as [|r rs Hr _ IH]; [done|]. rewrite fmap_cons. cbn [concat]. by rewrite cln_utf8, IH.
Qed.
Lemma valid_text_cln s : valid_text s -> cln (to_bytes s) = to_bytes s.
Proof. intros (rs & HF & E). change (to_bytes s) with (bytes_of s). rewrite E. by apply cln_valid. Qed.

(** every valid rune of the decoder is the encoding of a scalar value *)
Lemma rune_len_utf8 l n : rune_len l = S n -> exists r, scalar r /\ take (S n) l = utf8 r.
Proof.
  assert (Hcont : forall b, cont b = true -> 128 <= b /\ b <= 191) by (intros b; apply between_iff).
  destruct l as [|a l]; [done|]. cbn [rune_len].
  destruct (N.ltb_spec a 128) as [Ha|Ha].
  { intros [= <-]. exists a. split; [left; lia|]. unfold utf8. by rewrite (proj2 (N.ltb_lt a 128)). }
  assert (U2 : forall b, between 194 223 a = true -> cont b = true -> exists r, scalar r /\ [a; b] = utf8 r).
  { intros b H1 H2. apply between_iff in H1. apply Hcont in H2. exists ((a - 192) * 64 + (b - 128)).
    split; [left; lia|]. unfold utf8. rewrite (proj2 (N.ltb_ge _ 128)) by lia. rewrite (proj2 (N.ltb_lt _ 2048)) by lia.
    assert (E : ((a - 192) * 64 + (b - 128)) / 64 = a - 192).
    { symmetry. apply (N.div_unique _ 64 _ (b - 128)); lia. }
    assert (E' : ((a - 192) * 64 + (b - 128)) mod 64 = b - 128).
    { symmetry. apply (N.mod_unique _ 64 (a - 192) (b - 128)); lia. }
    rewrite E, E'. f_equal; [lia|]. f_equal. lia. }
  assert (U3 : forall b c, 224 <= a -> a <= 239 -> cont b = true -> cont c = true ->
    (a = 224 -> 160 <= b) -> (a = 237 -> b <= 159) -> exists r, scalar r /\ [a; b; c] = utf8 r).
  { intros b c H1 H1' H2 H3 Hlo Hhi. apply Hcont in H2, H3.
    set (r := (a - 224) * 4096 + (b - 128) * 64 + (c - 128)). exists r.
    assert (Hr : r < 65536) by (unfold r; lia).
    assert (E1 : r / 4096 = a - 224). { symmetry. apply (N.div_unique _ 4096 _ ((b - 128) * 64 + (c - 128))); unfold r; lia. }
    assert (E2 : r / 64 = (a - 224) * 64 + (b - 128)). { symmetry. apply (N.div_unique _ 64 _ (c - 128)); unfold r; lia. }
    assert (E3 : (r / 64) mod 64 = b - 128). { symmetry. apply (N.mod_unique _ 64 (a - 224) (b - 128)); lia. }
    assert (E4 : r mod 64 = c - 128). { symmetry. apply (N.mod_unique _ 64 ((a - 224) * 64 + (b - 128)) (c - 128)); unfold r; lia. }
    assert (2048 <= r). { unfold r. destruct (N.eq_dec a 224); [specialize (Hlo ltac:(done))|]; lia. }
    split.
    - destruct (N.lt_ge_cases r 55296); [by left|]. right. split; [|lia].
      destruct (N.eq_dec a 237) as [->|]; [specialize (Hhi ltac:(done)); unfold r in *; lia|]. unfold r in *. lia.
    - unfold utf8. rewrite (proj2 (N.ltb_ge _ 128)) by lia. rewrite (proj2 (N.ltb_ge _ 2048)) by lia.
      rewrite (proj2 (N.ltb_lt _ 65536)) by lia. rewrite E1, E3, E4. repeat f_equal; lia. }
  assert (U4 : forall b c d, 240 <= a -> a <= 244 -> cont b = true -> cont c = true -> cont d = true ->
    (a = 240 -> 144 <= b) -> (a = 244 -> b <= 143) -> exists r, scalar r /\ [a; b; c; d] = utf8 r).
  { intros b c d H1 H1' H2 H3 H4 Hlo Hhi. apply Hcont in H2, H3, H4.
    set (r := (a - 240) * 262144 + (b - 128) * 4096 + (c - 128) * 64 + (d - 128)). exists r.
    assert (Hr : r < 1114112). { unfold r. destruct (N.eq_dec a 244) as [->|]; [specialize (Hhi ltac:(done))|]; lia. }
    assert (E1 : r / 262144 = a - 240).
    { symmetry. apply (N.div_unique _ 262144 _ ((b - 128) * 4096 + (c - 128) * 64 + (d - 128))); unfold r; lia. }
    assert (E2 : r / 4096 = (a - 240) * 64 + (b - 128)).
    { symmetry. apply (N.div_unique _ 4096 _ ((c - 128) * 64 + (d - 128))); unfold r; lia. }
    assert (E3 : r / 64 = (a - 240) * 4096 + (b - 128) * 64 + (c - 128)).
    { symmetry. apply (N.div_unique _ 64 _ (d - 128)); unfold r; lia. }
    assert (E4 : (r / 4096) mod 64 = b - 128). { symmetry. apply (N.mod_unique _ 64 (a - 240) (b - 128)); lia. }
    assert (E5 : (r / 64) mod 64 = c - 128).
    { symmetry. apply (N.mod_unique _ 64 ((a - 240) * 64 + (b - 128)) (c - 128)); lia. }
    assert (E6 : r mod 64 = d - 128).
    { symmetry. apply (N.mod_unique _ 64 ((a - 240) * 4096 + (b - 128) * 64 + (c - 128)) (d - 128)); unfold r; lia. }
    assert (65536 <= r). { unfold r. destruct (N.eq_dec a 240); [specialize (Hlo ltac:(done))|]; lia. }
    split; [right; lia|].
    unfold utf8. rewrite (proj2 (N.ltb_ge _ 128)) by lia. rewrite (proj2 (N.ltb_ge _ 2048)) by lia.
    rewrite (proj2 (N.ltb_ge _ 65536)) by lia. rewrite E1, E4, E5, E6. repeat f_equal; lia. }
  assert (Hnn : forall b lo hi, 128 <= lo -> hi <= 191 -> between lo hi b = true -> cont b = true).
  { intros b lo hi ? ? ?. apply between_iff. bt. lia. }
  destruct l as [|b l]; [done|].
  destruct (between 194 223 a) eqn:E1.
  { destruct (cont b) eqn:Eb; [|done]. intros [= <-]. cbn [take]. by apply U2. }
  destruct l as [|c l]; [done|].
  destruct (N.eqb_spec a 224) as [->|E2].
  { destruct (between 160 191 b && cont c) eqn:Eb; [|done]. apply andb_true_iff in Eb as [Eb Ec]. intros [= <-]. cbn [take].
    apply U3; try done; try lia; [by apply (Hnn b 160 191)|]. apply between_iff in Eb. lia. }
  destruct (between 225 236 a || between 238 239 a) eqn:E3.
  { apply orb_true_iff in E3. rewrite !between_iff in E3.
    destruct (cont b && cont c) eqn:Eb; [|done]. apply andb_true_iff in Eb as [Eb Ec]. intros [= <-]. cbn [take].
    apply U3; try done; try lia. }
  destruct (N.eqb_spec a 237) as [->|E4].
  { destruct (between 128 159 b && cont c) eqn:Eb; [|done]. apply andb_true_iff in Eb as [Eb Ec]. intros [= <-]. cbn [take].
    apply U3; try done; try lia; [by apply (Hnn b 128 159)|]. apply between_iff in Eb. lia. }
  destruct l as [|d l]; [done|].
  destruct (N.eqb_spec a 240) as [->|E5].
  { destruct (between 144 191 b && cont c && cont d) eqn:Eb; [|done]. apply andb_true_iff in Eb as [Eb Ed]. apply andb_true_iff in Eb as [Eb Ec].
    intros [= <-]. cbn [take]. apply U4; try done; try lia; [by apply (Hnn b 144 191)|]. apply between_iff in Eb. lia. }
  destruct (between 241 243 a) eqn:E6.
  { apply between_iff in E6. destruct (cont b && cont c && cont d) eqn:Eb; [|done].
    apply andb_true_iff in Eb as [Eb Ed]. apply andb_true_iff in Eb as [Eb Ec].
    intros [= <-]. cbn [take]. apply U4; try done; try lia. }
  destruct (N.eqb_spec a 244) as [->|E7]; [|done].
  destruct (between 128 143 b && cont c && cont d) eqn:Eb; [|done]. apply andb_true_iff in Eb as [Eb Ed]. apply andb_true_iff in Eb as [Eb Ec].
  intros [= <-]. cbn [take]. apply U4; try done; try lia; [by apply (Hnn b 128 143)|]. apply between_iff in Eb. lia.
Qed.
Lemma cln_cleaned n : forall l, (length l <= n)%nat -> cleaned l (cln l).
Proof.
  induction n as [|n IH]; intros l Hl; [destruct l; [constructor|simpl in Hl; lia]|].
  destruct l as [|b l]; [constructor|]. simpl in Hl.
  destruct (rune_len (b :: l)) as [|k] eqn:E.
  - rewrite cln_bad by done. change replacement with (utf8 65533). apply cl_bad; [|apply IH; lia].
    intros r k Hr Hbl. rewrite Hbl in E. rewrite utf8_rune_len in E by done. destruct (utf8_nonempty r) as [m Hm]. congruence.
  - rewrite (cln_good _ _ E). destruct (rune_len_utf8 _ _ E) as (r & Hr & Er).
    rewrite <- (take_drop (S k) (b :: l)) at 1. rewrite Er. apply cl_char; [done|].
    apply IH. rewrite drop_length. simpl. lia.
Qed.
Lemma cleaned_fun l l' : cleaned l l' -> l' = cln l.
Proof.
  induction 1 as [|r l l' Hr _ IH|b l l' Hb _ IH]; [done| |].
  - by rewrite cln_utf8, IH.
  - destruct (rune_len (b :: l)) as [|k] eqn:E.
    + rewrite cln_bad by done. by rewrite IH.
    + exfalso. destruct (rune_len_utf8 _ _ E) as (r & Hr & Er). apply (Hb r (drop (S k) (b :: l)) Hr). by rewrite <- Er, take_drop.
Qed.
Lemma cleaned_iff l l' : cleaned l l' <-> l' = cln l.
Proof. split; [apply cleaned_fun|]. intros ->. by apply (cln_cleaned (length l)). Qed.
