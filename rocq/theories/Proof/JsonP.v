(** Rendering and reading JSON are inverse. *)
From Verif.Model Require Import Json.
From Verif.Spec Require Import MarshalSpec.
Local Open Scope N_scope.

Definition byte (b : N) : Prop := b < 256.
Lemma of_to_bytes s : of_bytes (to_bytes s) = s.
Proof.
  unfold of_bytes, to_bytes. rewrite <- list_fmap_compose.
  rewrite <- (String.string_of_list_ascii_of_string s) at 2. f_equal.
  induction (String.list_ascii_of_string s) as [|a l IH]; [done|]. rewrite fmap_cons, IH. f_equal. apply ascii_N_embedding.
Qed.
Lemma to_of_bytes l : Forall byte l -> to_bytes (of_bytes l) = l.
Proof.
  intros H. unfold of_bytes, to_bytes. rewrite String.list_ascii_of_string_of_list_ascii, <- list_fmap_compose.
  induction H as [|b l Hb _ IH]; [done|]. rewrite fmap_cons, IH. f_equal. simpl. by apply N_ascii_embedding.
Qed.
Lemma to_bytes_byte s : Forall byte (to_bytes s).
Proof. unfold to_bytes. apply Forall_fmap, Forall_true. intros a. apply N_ascii_bounded. Qed.

(** *** Runes *)
Lemma between_iff a b x : between a b x = true <-> a <= x /\ x <= b.
Proof. unfold between. rewrite andb_true_iff, !N.leb_le. done. Qed.
Ltac rl_case :=
  repeat match goal with
  | |- context [match ?l with [] => _ | _ => _ end] => is_var l; destruct l
  | |- context [if ?b then _ else _] => destruct b eqn:?
  | H : context [match ?l with [] => _ | _ => _ end] |- _ => is_var l; destruct l
  | H : context [if ?b then _ else _] |- _ => destruct b eqn:?
  end.
Lemma rune_len_0 l : rune_len l = 0%nat -> l = [] \/ exists b k, l = b :: k /\ 128 <= b.
Proof.
  destruct l as [|a l]; [by left|]. intros H. right. exists a, l. split; [done|].
  simpl in H. destruct (N.ltb_spec a 128); [done|lia].
Qed.
Lemma rune_len_1 b l : rune_len (b :: l) = 1%nat <-> b < 128.
Proof.
  unfold rune_len. destruct (N.ltb_spec b 128) as [Hb|Hb]; [done|]. split; [|lia].
  intros H. exfalso. rl_case; done.
Qed.
Lemma rune_len_2 b l n : rune_len (b :: l) = S (S n) -> 128 <= b.
Proof. unfold rune_len. destruct (N.ltb_spec b 128); [done|lia]. Qed.
Lemma rune_len_le l : (rune_len l <= length l)%nat.
Proof. unfold rune_len. rl_case; simpl; lia. Qed.
(** the rune is decided by its own bytes *)
Lemma rune_len_take l k : (0 < rune_len l)%nat -> rune_len (take (rune_len l) l ++ k) = rune_len l.
Proof.
  destruct l as [|a l]; [simpl; lia|]. simpl.
  destruct (a <? 128) eqn:Ea; [simpl; by rewrite Ea|].
  destruct l as [|b l]; [simpl; lia|].
  destruct (between 194 223 a) eqn:E1.
  { destruct (cont b) eqn:Eb; [|simpl; lia]. intros _. simpl. by rewrite Ea, E1, Eb. }
  destruct l as [|c l]; [simpl; lia|].
  destruct (a =? 224) eqn:E2.
  { destruct (between 160 191 b && cont c) eqn:Eb; [|simpl; lia]. intros _. simpl. by rewrite Ea, E1, E2, Eb. }
  destruct (between 225 236 a || between 238 239 a) eqn:E3.
  { destruct (cont b && cont c) eqn:Eb; [|simpl; lia]. intros _. simpl. by rewrite Ea, E1, E2, E3, Eb. }
  destruct (a =? 237) eqn:E4.
  { destruct (between 128 159 b && cont c) eqn:Eb; [|simpl; lia]. intros _. simpl. by rewrite Ea, E1, E2, E3, E4, Eb. }
  destruct l as [|d l]; [simpl; lia|].
  destruct (a =? 240) eqn:E5.
  { destruct (between 144 191 b && cont c && cont d) eqn:Eb; [|simpl; lia]. intros _. simpl. by rewrite Ea, E1, E2, E3, E4, E5, Eb. }
  destruct (between 241 243 a) eqn:E6.
  { destruct (cont b && cont c && cont d) eqn:Eb; [|simpl; lia]. intros _. simpl. by rewrite Ea, E1, E2, E3, E4, E5, E6, Eb. }
  destruct (a =? 244) eqn:E7; [|simpl; lia].
  destruct (between 128 143 b && cont c && cont d) eqn:Eb; [|simpl; lia]. intros _. simpl. by rewrite Ea, E1, E2, E3, E4, E5, E6, E7, Eb.
Qed.

(** *** Clean text, as a function *)
Fixpoint clean (fuel : nat) (l : list N) : list N :=
  match fuel, l with
  | S fuel, b :: l' =>
      match rune_len l with
      | O => replacement ++ clean fuel l'
      | n => take n l ++ clean fuel (drop n l)
      end
  | _, _ => []
  end.
Definition cln (l : list N) : list N := clean (length l) l.
Lemma clean_fuel n m l : (length l <= n)%nat -> (length l <= m)%nat -> clean n l = clean m l.
Proof.
  revert m l. induction n as [|n IH]; intros m [|b l] Hn Hm; simpl in Hn; try lia; destruct m as [|m]; simpl in Hm; try lia; try done.
  cbn [clean]. destruct (rune_len (b :: l)) as [|k] eqn:E.
  - f_equal. apply IH; lia.
  - f_equal. apply IH; rewrite drop_length; simpl; lia.
Qed.
Lemma cln_bad b l : rune_len (b :: l) = 0%nat -> cln (b :: l) = replacement ++ cln l.
Proof. unfold cln. intros H. cbn [clean length]. rewrite H. done. Qed.
Lemma cln_good l n : rune_len l = S n -> cln l = take (S n) l ++ cln (drop (S n) l).
Proof.
  destruct l as [|b l]; [done|]. unfold cln. intros H. cbn [clean length]. rewrite H. f_equal.
  apply clean_fuel; rewrite !drop_length; simpl; lia.
Qed.

(** *** Strings *)
Lemma escape_fuel n m l : (length l <= n)%nat -> (length l <= m)%nat -> escape n l = escape m l.
Proof.
  revert m l. induction n as [|n IH]; intros m [|b l] Hn Hm; simpl in Hn; try lia; destruct m as [|m]; simpl in Hm; try lia; try done.
  cbn [escape]. destruct (rune_len (b :: l)) as [|[|k]] eqn:E.
  - f_equal. apply IH; lia.
  - f_equal. apply IH; lia.
  - assert (Hd : escape n (drop (S (S k)) (b :: l)) = escape m (drop (S (S k)) (b :: l))).
    { apply IH; rewrite drop_length; simpl; lia. }
    by rewrite Hd.
Qed.
Definition esc (l : list N) : list N := escape (length l) l.
Lemma esc_bad b l : rune_len (b :: l) = 0%nat -> esc (b :: l) = [92; 117; 102; 102; 102; 100] ++ esc l.
Proof. unfold esc. intros H. cbn [escape length]. by rewrite H. Qed.
Lemma esc_ascii b l : b < 128 -> esc (b :: l) = escape_ascii b ++ esc l.
Proof. intros H. unfold esc. cbn [escape length]. by rewrite (proj2 (rune_len_1 b l) H). Qed.
Lemma esc_multi l n : rune_len l = S (S n) -> esc l = escape_rune (take (S (S n)) l) ++ esc (drop (S (S n)) l).
Proof.
  destruct l as [|b l]; [done|]. intros H. unfold esc. cbn [escape length]. rewrite H.
  f_equal. apply escape_fuel; rewrite drop_length; simpl; lia.
Qed.
Lemma esc_rune_cases r : escape_rune r = r \/ (r = [226; 128; 168] /\ escape_rune r = [92; 117; 50; 48; 50; 56]) \/
  (r = [226; 128; 169] /\ escape_rune r = [92; 117; 50; 48; 50; 57]).
Proof. unfold escape_rune. repeat case_match; subst; auto. Qed.

Lemma hex_val_digit d : d < 16 -> hex_val (hex_digit d) = Some d.
Proof.
  intros H. unfold hex_val, hex_digit, between. destruct (N.ltb_spec d 10).
  - replace ((48 <=? 48 + d) && (48 + d <=? 57)) with true; [f_equal; lia|].
    symmetry. apply andb_true_iff. rewrite !N.leb_le. lia.
  - replace ((48 <=? 87 + d) && (87 + d <=? 57)) with false.
    2:{ symmetry. apply andb_false_iff. right. apply N.leb_gt. lia. }
    replace ((97 <=? 87 + d) && (87 + d <=? 102)) with true; [f_equal; lia|].
    symmetry. apply andb_true_iff. rewrite !N.leb_le. lia.
Qed.
Lemma hex4_byte b k : b < 256 ->
  hex4 (48 :: 48 :: hex_digit (b / 16) :: hex_digit (b mod 16) :: k) = Some (b, k).
Proof.
  intros H. unfold hex4. assert (b / 16 < 16) by (apply N.div_lt_upper_bound; lia).
  assert (b mod 16 < 16) by (apply N.mod_lt; lia).
  rewrite !hex_val_digit by done. change (hex_val 48) with (Some 0). do 2 f_equal.
  pose proof (N.div_mod b 16). lia.
Qed.
(** one step of the reader *)
Lemma read_esc_u fuel k l3 x s r : unicode_escape k = Some (x, l3) -> read_string fuel l3 = Some (s, r) ->
  read_string (S fuel) (92 :: 117 :: k) = Some (x ++ s, r).
Proof. intros H1 H2. cbn [read_string]. simpl. by rewrite H1, H2. Qed.
Lemma read_plain fuel b l n s r : 32 <= b -> b <> 34 -> b <> 92 -> rune_len (b :: l) = S n ->
  read_string fuel (drop n l) = Some (s, r) ->
  read_string (S fuel) (b :: l) = Some (b :: take n l ++ s, r).
Proof.
  intros H0 H1 H2 Hr H. cbn [read_string].
  rewrite (proj2 (N.eqb_neq b 34) H1), (proj2 (N.eqb_neq b 92) H2), (proj2 (N.ltb_ge b 32) H0), Hr.
  cbn [drop take]. by rewrite H.
Qed.
Lemma read_ascii b fuel k s r : b < 128 -> read_string fuel k = Some (s, r) ->
  read_string (S fuel) (escape_ascii b ++ k) = Some (b :: s, r).
Proof.
  intros Hb H. unfold escape_ascii.
  destruct ((b =? 34) || (b =? 92)) eqn:E1.
  { apply orb_true_iff in E1 as [E|E]; apply N.eqb_eq in E; subst; cbn [read_string app]; simpl; by rewrite H. }
  apply orb_false_iff in E1 as [E1 E2]. apply N.eqb_neq in E1, E2.
  destruct (N.eqb_spec b 10) as [->|]; [cbn [read_string app]; simpl; by rewrite H|].
  destruct (N.eqb_spec b 13) as [->|]; [cbn [read_string app]; simpl; by rewrite H|].
  destruct (N.eqb_spec b 9) as [->|]; [cbn [read_string app]; simpl; by rewrite H|].
  destruct ((b <? 32) || (b =? 60) || (b =? 62) || (b =? 38)) eqn:E.
  - cbn [app]. rewrite (read_esc_u fuel _ k [b] s r); [done| |done].
    unfold unicode_escape. rewrite hex4_byte by lia.
    replace (between 55296 57343 b) with false by (symmetry; apply andb_false_iff; left; apply N.leb_gt; lia).
    unfold encode_rune. by rewrite (proj2 (N.ltb_lt b 128) Hb).
  - apply orb_false_iff in E as [E _]. apply orb_false_iff in E as [E _]. apply orb_false_iff in E as [E _].
    apply N.ltb_ge in E. cbn [app]. apply (read_plain fuel b k 0 s r); try done. by apply rune_len_1.
Qed.
Lemma read_escaped_n n : forall l rest fuel, (length l <= n)%nat -> (length (esc l) < fuel)%nat ->
  read_string fuel (esc l ++ 34 :: rest) = Some (cln l, rest).
Proof.
  induction n as [|n IH]; intros l rest fuel Hl Hf.
  { destruct l; [|simpl in Hl; lia]. destruct fuel; [lia|]. done. }
  destruct l as [|b l]; [destruct fuel; [lia|]; done|].
  simpl in Hl. destruct fuel as [|fuel]; [lia|].
  destruct (rune_len (b :: l)) as [|[|k]] eqn:E.
  - rewrite esc_bad in * by done. rewrite cln_bad by done. rewrite app_length in Hf. simpl in Hf. rewrite <- app_assoc.
    apply (read_esc_u fuel _ (esc l ++ 34 :: rest) replacement (cln l) rest); [done|]. apply IH; lia.
  - pose proof E as Hb. apply rune_len_1 in Hb. rewrite esc_ascii in * by done. rewrite (cln_good _ _ E). cbn [take drop app].
    rewrite <- app_assoc. apply read_ascii; [done|]. apply IH; [lia|]. rewrite app_length in Hf.
    assert (0 < length (escape_ascii b))%nat by (unfold escape_ascii; repeat case_match; simpl; lia). lia.
  - pose proof (rune_len_2 _ _ _ E) as Hb. pose proof (rune_len_le (b :: l)) as Hle. rewrite E in Hle. simpl in Hle.
    rewrite (esc_multi _ _ E) in *. rewrite (cln_good _ _ E).
    assert (Hlen : length (drop (S (S k)) (b :: l)) = (length l - S k)%nat) by (rewrite drop_length; simpl; lia).
    rewrite app_length in Hf. rewrite <- app_assoc.
    assert (IH' : forall f, (length (esc (drop (S (S k)) (b :: l))) < f)%nat ->
      read_string f (esc (drop (S (S k)) (b :: l)) ++ 34 :: rest) = Some (cln (drop (S (S k)) (b :: l)), rest)).
    { intros f Hf'. apply IH; [lia|done]. }
    set (t := drop (S (S k)) (b :: l)) in *.
    destruct (esc_rune_cases (take (S (S k)) (b :: l))) as [Er|[[Et Er]|[Et Er]]]; rewrite Er in *.
    + pose proof (rune_len_take (b :: l) (esc t ++ 34 :: rest)) as Hr. rewrite E in Hr. specialize (Hr ltac:(lia)).
      cbn [take app] in Hr, Hf |- *.
      rewrite (read_plain fuel b (take (S k) l ++ esc t ++ 34 :: rest) (S k) (cln t) rest); [| lia|lia|lia|done| ].
      * f_equal. f_equal. f_equal. f_equal. rewrite take_app_alt; [done|]. rewrite take_length. lia.
      * rewrite drop_app_alt by (rewrite take_length; lia). apply IH'. simpl in Hf. lia.
    + rewrite Et. simpl in Hf. apply (read_esc_u fuel _ (esc t ++ 34 :: rest) _ (cln t) rest); [done|]. apply IH'. lia.
    + rewrite Et. simpl in Hf. apply (read_esc_u fuel _ (esc t ++ 34 :: rest) _ (cln t) rest); [done|]. apply IH'. lia.
Qed.
Lemma read_rendered l rest :
  read_string (length (esc l ++ 34 :: rest)) (esc l ++ 34 :: rest) = Some (cln l, rest).
Proof. apply (read_escaped_n (length l)); [done|]. rewrite app_length. simpl. lia. Qed.
