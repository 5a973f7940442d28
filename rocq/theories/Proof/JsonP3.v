(** The reader accepts the grammar and nothing else. *)
From Verif.Model Require Import Marshal Json.
From Verif.Spec Require Import MarshalSpec JsonSpec.
From Verif.Proof Require Import JsonP JsonP2.
Local Open Scope N_scope.

(** ** Blank text *)
Lemma is_ws_iff b : is_ws b = true <-> b ∈ [32; 9; 10; 13].
Proof.
  unfold is_ws. rewrite !orb_true_iff, !N.eqb_eq, !elem_of_cons. split; [intuition|].
  intros [|[|[|[|H]]]]; auto. by apply elem_of_nil in H.
Qed.
Lemma skip_blank s l : blank s -> skip_ws (s ++ l) = skip_ws l.
Proof. induction 1 as [|b s Hb _ IH]; [done|]. cbn [app skip_ws]. apply is_ws_iff in Hb. by rewrite Hb. Qed.
Lemma skip_ws_split l : exists s, blank s /\ l = s ++ skip_ws l.
Proof.
  induction l as [|b l (s & Hs & E)]; [by exists []; split; [constructor|]|]. cbn [skip_ws]. destruct (is_ws b) eqn:Eb.
  - exists (b :: s). split; [constructor; [by apply is_ws_iff|done]|]. cbn [app]. by rewrite <- E.
  - exists []. split; [constructor|done].
Qed.
Lemma skip_ws_idem l : skip_ws (skip_ws l) = skip_ws l.
Proof. induction l as [|b l IH]; [done|]. cbn [skip_ws]. destruct (is_ws b) eqn:E; [done|]. cbn [skip_ws]. by rewrite E. Qed.

(** ** Hexadecimal digits *)
Lemma hex_iff b d : hex_val b = Some d <-> hex b d.
Proof.
  unfold hex_val, hex. destruct (between 48 57 b) eqn:E1.
  { apply between_iff in E1. split; [intros [= <-]; left; lia|]. intros [[_ ->]|[[? _]|[? _]]]; [done|lia..]. }
  destruct (between 97 102 b) eqn:E2.
  { apply between_iff in E2. split; [intros [= <-]; right; right; lia|]. intros [[? _]|[[? _]|[_ ->]]]; [lia|lia|done]. }
  destruct (between 65 70 b) eqn:E3.
  { apply between_iff in E3. split; [intros [= <-]; right; left; lia|]. intros [[? _]|[[_ ->]|[? _]]]; [lia|done|lia]. }
  split; [done|]. apply between_false in E1, E2, E3. intros [[? _]|[[? _]|[? _]]]; lia.
Qed.
Lemma hex4_iff l r k : hex4 l = Some (r, k) <-> exists h, l = h ++ k /\ four_hex h r.
Proof.
  split.
  - unfold hex4. destruct l as [|a [|b [|c [|d l]]]]; try done.
    destruct (hex_val a) as [x|] eqn:Ea; [|done]. destruct (hex_val b) as [y|] eqn:Eb; [|done].
    destruct (hex_val c) as [z|] eqn:Ec; [|done]. destruct (hex_val d) as [u|] eqn:Ed; [|done].
    intros [= <- <-]. apply hex_iff in Ea, Eb, Ec, Ed. exists [a; b; c; d]. split; [done|].
    exists a, b, c, d, x, y, z, u. do 5 (split; [done|]). lia.
  - intros (h & -> & a & b & c & d & x & y & z & u & -> & Ha & Hb & Hc & Hd & ->).
    apply hex_iff in Ha, Hb, Hc, Hd. cbn [app hex4]. rewrite Ha, Hb, Hc, Hd. do 2 f_equal. lia.
Qed.
Lemma hex_bound b d : hex b d -> d < 16 /\ b <> 34 /\ b <> 92.
Proof. intros [[? ->]|[[? ->]|[? ->]]]; lia. Qed.
Lemma four_hex_bound h r : four_hex h r -> r < 65536.
Proof.
  intros (a & b & c & d & x & y & z & u & -> & Ha & Hb & Hc & Hd & ->).
  apply hex_bound in Ha, Hb, Hc, Hd. lia.
Qed.
Lemma four_hex_chars h r : four_hex h r -> length h = 4%nat /\ 34 ∉ h.
Proof.
  intros (a & b & c & d & x & y & z & u & -> & Ha & Hb & Hc & Hd & ->). split; [done|].
  apply hex_bound in Ha as (_ & Ha & _), Hb as (_ & Hb & _), Hc as (_ & Hc & _), Hd as (_ & Hd & _).
  rewrite !elem_of_cons, elem_of_nil. intuition.
Qed.

(** ** Runes *)
Lemma surrogate_iff r : between 55296 57343 r = true <-> high_surrogate r \/ low_surrogate r.
Proof. rewrite between_iff. unfold high_surrogate, low_surrogate. lia. Qed.
Lemma encode_scalar r : scalar r -> encode_rune r = utf8 r.
Proof.
  intros Hs. unfold encode_rune, utf8. destruct (r <? 128); [done|]. destruct (r <? 2048); [done|].
  destruct (between 55296 57343 r) eqn:E. { apply between_iff in E. destruct Hs; lia. }
  destruct (r <? 65536); [done|]. rewrite (proj2 (N.ltb_lt r 1114112)); [done|]. destruct Hs; lia.
Qed.
Lemma utf8_high r : 128 <= r -> Forall (fun b => 128 <= b) (utf8 r).
Proof.
  intros H. assert (G : forall x y, 128 <= x -> 128 <= x + y) by (intros; lia). unfold utf8. rewrite (proj2 (N.ltb_ge r 128) H).
  destruct (r <? 2048); [|destruct (r <? 65536)]; repeat (apply Forall_cons_2; [apply G; lia|]); by apply Forall_nil_2.
Qed.
Lemma utf8_low r : r < 128 -> utf8 r = [r].
Proof. intros H. unfold utf8. by rewrite (proj2 (N.ltb_lt r 128) H). Qed.
Lemma rune_ok_iff l : (exists r k, scalar r /\ l = utf8 r ++ k) <-> rune_len l <> 0%nat.
Proof.
  split.
  - intros (r & k & Hr & ->). rewrite utf8_rune_len by done. destruct (utf8_nonempty r) as [n ->]. done.
  - destruct (rune_len l) as [|n] eqn:E; [done|]. intros _. destruct (rune_len_utf8 _ _ E) as (r & Hr & Er).
    exists r, (drop (S n) l). split; [done|]. by rewrite <- Er, take_drop.
Qed.
Lemma invalid_iff b l : (forall r k, scalar r -> b :: l <> utf8 r ++ k) <-> rune_len (b :: l) = 0%nat.
Proof.
  split.
  - intros H. destruct (rune_len (b :: l)) as [|n] eqn:E; [done|]. exfalso.
    destruct (proj2 (rune_ok_iff (b :: l))) as (r & k & Hr & Ek); [by rewrite E|]. by apply (H r k).
  - intros H r k Hr Ek. apply (proj1 (rune_ok_iff (b :: l))); [eauto|done].
Qed.
(** what follows the closing quote does not matter *)
Lemma invalid_quote b t rest : 128 <= b -> rune_len (b :: t) = 0%nat -> rune_len (b :: t ++ 34 :: rest) = 0%nat.
Proof.
  intros Hb H. apply invalid_iff. intros r k Hr E.
  assert (Hr' : 128 <= r).
  { destruct (N.lt_ge_cases r 128) as [Hl|]; [|done]. rewrite utf8_low in E by done. injection E as -> _. lia. }
  pose proof (utf8_high r Hr') as HF.
  destruct (decide (length (utf8 r) <= length (b :: t))%nat) as [Hl|Hl].
  - apply (proj2 (invalid_iff b t) H r (drop (length (utf8 r)) (b :: t)) Hr).
    change (b :: t ++ 34 :: rest) with ((b :: t) ++ 34 :: rest) in E.
    apply (f_equal (take (length (utf8 r)))) in E. rewrite take_app_le in E by done. rewrite take_app in E.
    rewrite <- E at 1. symmetry. apply take_drop.
  - change (b :: t ++ 34 :: rest) with ((b :: t) ++ 34 :: rest) in E.
    apply (f_equal (fun l => l !! length (b :: t))) in E. rewrite lookup_app_r in E by done.
    replace (length (b :: t) - length (b :: t))%nat with 0%nat in E by lia. rewrite lookup_app_l in E by lia.
    rewrite Forall_forall in HF. symmetry in E. apply elem_of_list_lookup_2 in E. specialize (HF _ E). lia.
Qed.

(** ** Strings *)
Lemma unicode_scalar h r k : four_hex h r -> scalar r -> unicode_escape (h ++ k) = Some (utf8 r, k).
Proof.
  intros Hh Hr. unfold unicode_escape. rewrite (proj2 (hex4_iff (h ++ k) r k)) by eauto.
  destruct (between 55296 57343 r) eqn:E. { apply between_iff in E. destruct Hr; lia. }
  by rewrite encode_scalar.
Qed.
Lemma unicode_pair h r h' r' k : four_hex h r -> high_surrogate r -> four_hex h' r' -> low_surrogate r' ->
  unicode_escape (h ++ 92 :: 117 :: h' ++ k) = Some (utf8 (65536 + (r - 55296) * 1024 + (r' - 56320)), k).
Proof.
  intros Hh Hr Hh' Hr'. unfold unicode_escape. rewrite (proj2 (hex4_iff (h ++ _) r _)) by eauto.
  rewrite (proj2 (surrogate_iff r)) by auto. rewrite (proj2 (hex4_iff (h' ++ k) r' k)) by eauto.
  unfold high_surrogate, low_surrogate in *.
  rewrite (proj2 (between_iff 55296 56319 r)), (proj2 (between_iff 56320 57343 r')) by lia. cbn [andb]. cbn iota.
  rewrite encode_scalar; [done|]. right. lia.
Qed.
Lemma backslash_u (k : list N) : (exists k', k = 92 :: 117 :: k') \/ ~ (exists k', k = 92 :: 117 :: k').
Proof.
  destruct k as [|a [|b k]]; [right; by intros [? [=]]..|].
  destruct (decide (a = 92)) as [->|]; [|right; by intros [? [=]]].
  destruct (decide (b = 117)) as [->|]; [left; eauto|right; by intros [? [=]]].
Qed.
Lemma low_follows (k : list N) :
  (exists h' r' k', four_hex h' r' /\ low_surrogate r' /\ k = 92 :: 117 :: h' ++ k') \/
  (forall h' r' k', four_hex h' r' -> low_surrogate r' -> k <> 92 :: 117 :: h' ++ k').
Proof.
  destruct (backslash_u k) as [(k' & ->)|Hk]; [|right; intros h' r' k' _ _ ->; apply Hk; eauto].
  destruct (hex4 k') as [[r' k2]|] eqn:E.
  - destruct (between 56320 57343 r') eqn:Eb.
    + left. apply hex4_iff in E as (h' & -> & Hh'). apply between_iff in Eb. by exists h', r', k2.
    + right. intros h1 r1 k1 H1 H2 [= ->]. rewrite (proj2 (hex4_iff (h1 ++ k1) r1 k1)) in E by eauto. injection E as -> ->.
      apply between_false in Eb. unfold low_surrogate in H2. lia.
  - right. intros h1 r1 k1 H1 H2 [= ->]. by rewrite (proj2 (hex4_iff (h1 ++ k1) r1 k1)) in E by eauto.
Qed.
Lemma unicode_unpaired h r k : four_hex h r -> high_surrogate r \/ low_surrogate r ->
  (high_surrogate r -> forall h' r' k', four_hex h' r' -> low_surrogate r' -> k <> 92 :: 117 :: h' ++ k') ->
  unicode_escape (h ++ k) = Some (replacement, k).
Proof.
  intros Hh Hr Hn. unfold unicode_escape. rewrite (proj2 (hex4_iff (h ++ k) r k)) by eauto.
  rewrite (proj2 (surrogate_iff r)) by auto.
  destruct (backslash_u k) as [(k' & ->)|Hk].
  - destruct (hex4 k') as [[r' k2]|] eqn:E; [|done].
    destruct (between 55296 56319 r && between 56320 57343 r') eqn:Eb; [|done]. exfalso.
    apply andb_true_iff in Eb as [E1 E2]. apply between_iff in E1, E2. apply hex4_iff in E as (h' & -> & Hh').
    by apply (Hn E1 h' r' k2).
  - repeat case_match; subst; try done; destruct Hk; eauto.
Qed.
Lemma unicode_inv l x k : unicode_escape l = Some (x, k) -> exists h r, four_hex h r /\
  ((scalar r /\ l = h ++ k /\ x = utf8 r) \/
   (high_surrogate r /\ exists h' r', four_hex h' r' /\ low_surrogate r' /\ l = h ++ 92 :: 117 :: h' ++ k /\
      x = utf8 (65536 + (r - 55296) * 1024 + (r' - 56320))) \/
   ((high_surrogate r \/ low_surrogate r) /\ l = h ++ k /\ x = replacement /\
     (high_surrogate r -> forall h' r' k', four_hex h' r' -> low_surrogate r' -> k <> 92 :: 117 :: h' ++ k'))).
Proof.
  intros H. unfold unicode_escape in H. destruct (hex4 l) as [[r l']|] eqn:E; [|done].
  apply hex4_iff in E as (h & -> & Hh). exists h, r. split; [done|]. pose proof (four_hex_bound _ _ Hh) as Hb.
  destruct (between 55296 57343 r) eqn:Es.
  - pose proof (proj1 (surrogate_iff r) Es) as Hs.
    assert (HD : (exists h' r' k', high_surrogate r /\ four_hex h' r' /\ low_surrogate r' /\ l' = 92 :: 117 :: h' ++ k') \/
      (high_surrogate r -> forall h' r' k', four_hex h' r' -> low_surrogate r' -> l' <> 92 :: 117 :: h' ++ k')).
    { destruct Hs as [Hs|Hs]; [|right; unfold high_surrogate, low_surrogate in *; lia].
      destruct (low_follows l') as [(h' & r' & k' & ?)|]; [left; by exists h', r', k'|by right]. }
    destruct HD as [(h' & r' & k' & H1 & H2 & H3 & ->)|Hn'].
    + pose proof (unicode_pair h r h' r' k' Hh H1 H2 H3) as G. unfold unicode_escape in G.
      rewrite (proj2 (hex4_iff (h ++ _) r _)) in G by eauto. rewrite Es in G. rewrite H in G. injection G as -> ->.
      right. left. split; [done|]. by exists h', r'.
    + right. right.
      pose proof (unicode_unpaired h r l' Hh Hs Hn') as G. unfold unicode_escape in G.
      rewrite (proj2 (hex4_iff (h ++ _) r _)) in G by eauto. rewrite Es in G. rewrite H in G. injection G as -> ->. done.
  - left. injection H as <- <-. assert (Hr : scalar r). { unfold scalar. apply between_false in Es. lia. }
    split; [done|]. split; [done|]. by apply encode_scalar.
Qed.
Lemma quote_inside h k t rest : 34 ∉ h -> t ++ 34 :: rest = h ++ k -> exists k', t = h ++ k'.
Proof.
  revert t. induction h as [|x h IH]; intros t Hn E; [by exists t|].
  destruct t as [|y t]; cbn [app] in E; injection E as <- E; [destruct Hn; left|].
  destruct (IH t) as [k' ->]; [|done|by exists k']. intros Hi. apply Hn. by right.
Qed.
Lemma read_string_complete t d : chars t d -> forall rest fuel, (length t < fuel)%nat ->
  read_string fuel (t ++ 34 :: rest) = Some (d, rest).
Proof.
  induction 1 as [|r t d Hs H1 H2 H3 _ IH|b t d Hb Hi _ IH|c x t d Hc _ IH|h r t d Hh Hr _ IH|h r h' r' t d Hh Hr Hh' Hr' _ IH|h r t d Hh Hr Hn _ IH];
    intros rest fuel Hf; (destruct fuel as [|fuel]; [lia|]).
  - done.
  - rewrite <- app_assoc. destruct (utf8_nonempty r) as [n Hn].
    pose proof (utf8_rune_len r (t ++ 34 :: rest) Hs) as Hl. rewrite Hn in Hl.
    assert (Hhd : exists b l, utf8 r = b :: l /\ 32 <= b /\ b <> 34 /\ b <> 92).
    { destruct (N.lt_ge_cases r 128) as [Hr|Hr]; [rewrite utf8_low by done; by exists r, []|].
      pose proof (utf8_high r Hr) as HF. destruct (utf8 r) as [|b l]; [done|]. apply Forall_cons in HF as [HF _].
      exists b, l. repeat split; lia. }
    destruct Hhd as (b & l & E & Hb1 & Hb2 & Hb3). rewrite app_length in Hf. rewrite E in Hl, Hn, Hf |- *. cbn [app] in Hl |- *.
    simpl in Hn. injection Hn as Hn. rewrite (read_plain fuel b _ n d rest); try done.
    + by rewrite take_app_alt.
    + rewrite drop_app_alt by done. apply IH. simpl in Hf. lia.
  - cbn [app read_string]. rewrite (proj2 (N.eqb_neq b 34)), (proj2 (N.eqb_neq b 92)), (proj2 (N.ltb_ge b 32)) by lia.
    apply invalid_iff in Hi. rewrite invalid_quote by done. rewrite IH by (simpl in Hf; lia). done.
  - simpl in Hf. unfold short_escapes in Hc. rewrite !elem_of_cons, elem_of_nil in Hc.
    destruct Hc as [[= -> ->]|[[= -> ->]|[[= -> ->]|[[= -> ->]|[[= -> ->]|[[= -> ->]|[[= -> ->]|[[= -> ->]|[]]]]]]]]];
      cbn [app read_string]; simpl; rewrite IH by lia; done.
  - destruct (four_hex_chars _ _ Hh) as [Hl _]. simpl in Hf. rewrite app_length, Hl in Hf. cbn [app]. rewrite <- app_assoc.
    apply (read_esc_u fuel _ (t ++ 34 :: rest) (utf8 r) d rest); [by apply unicode_scalar|]. apply IH. lia.
  - destruct (four_hex_chars _ _ Hh) as [Hl _]. destruct (four_hex_chars _ _ Hh') as [Hl' _].
    simpl in Hf. rewrite app_length, Hl in Hf. simpl in Hf. rewrite app_length, Hl' in Hf. cbn [app]. rewrite <- app_assoc.
    cbn [app]. rewrite <- app_assoc. eapply read_esc_u; [by apply unicode_pair|]. apply IH. lia.
  - destruct (four_hex_chars _ _ Hh) as [Hl _]. simpl in Hf. rewrite app_length, Hl in Hf. cbn [app]. rewrite <- app_assoc.
    eapply read_esc_u; [|apply IH; lia]. apply (unicode_unpaired h r); [done|done|].
    intros Hr' h' r' k' H1 H2 E. destruct (four_hex_chars _ _ H1) as [_ H34].
    destruct (quote_inside (92 :: 117 :: h') k' t rest) as [k'' ->]; [|done|by apply (Hn Hr' h' r' k'')].
    rewrite !elem_of_cons. intros [?|[?|?]]; done.
Qed.
Lemma read_string_sound fuel : forall l d r, read_string fuel l = Some (d, r) -> exists t, l = t ++ 34 :: r /\ chars t d.
Proof.
  induction fuel as [|fuel IH]; intros l d r H; [done|]. destruct l as [|b l]; [done|]. cbn [read_string] in H.
  destruct (N.eqb_spec b 34) as [->|H34].
  { injection H as <- <-. exists []. split; [done|constructor]. }
  destruct (N.eqb_spec b 92) as [->|H92].
  { destruct l as [|c l]; [done|].
    assert (Hsimple : forall x, (c, x) ∈ short_escapes ->
      match read_string fuel l with Some (s, r) => Some (x :: s, r) | None => None end = Some (d, r) ->
      exists t, 92 :: c :: l = t ++ 34 :: r /\ chars t d).
    { intros x Hx G. destruct (read_string fuel l) as [[s r0]|] eqn:E; [|done]. injection G as <- <-.
      apply IH in E as (t & -> & Ht). exists (92 :: c :: t). split; [done|]. by apply ch_short. }
    destruct ((c =? 34) || (c =? 92) || (c =? 47)) eqn:E1.
    { apply (Hsimple c); [|done]. rewrite !orb_true_iff, !N.eqb_eq in E1. unfold short_escapes. rewrite !elem_of_cons.
      destruct E1 as [[->| ->]| ->]; auto. }
    destruct (N.eqb_spec c 98) as [->|]; [by apply (Hsimple 8); [set_solver|]|].
    destruct (N.eqb_spec c 102) as [->|]; [by apply (Hsimple 12); [set_solver|]|].
    destruct (N.eqb_spec c 110) as [->|]; [by apply (Hsimple 10); [set_solver|]|].
    destruct (N.eqb_spec c 114) as [->|]; [by apply (Hsimple 13); [set_solver|]|].
    destruct (N.eqb_spec c 116) as [->|]; [by apply (Hsimple 9); [set_solver|]|].
    destruct (N.eqb_spec c 117) as [->|]; [|done].
    destruct (unicode_escape l) as [[x l3]|] eqn:E; [|done].
    destruct (read_string fuel l3) as [[s r0]|] eqn:Er; [|done]. injection H as <- <-.
    apply IH in Er as (t & -> & Ht).
    apply unicode_inv in E as (h & r & Hh & [(Hr & -> & ->)|[(Hr & h' & r' & Hh' & Hr' & -> & ->)|(Hr & -> & -> & Hn)]]).
    - exists (92 :: 117 :: h ++ t). split; [cbn [app]; by rewrite <- app_assoc|]. by apply ch_unicode.
    - exists (92 :: 117 :: h ++ 92 :: 117 :: h' ++ t). split; [cbn [app]; rewrite <- app_assoc; cbn [app]; by rewrite <- app_assoc|].
      by apply ch_pair.
    - exists (92 :: 117 :: h ++ t). split; [cbn [app]; by rewrite <- app_assoc|].
      change replacement with (utf8 65533). apply (ch_unpaired h r); [done|done| |done].
      intros Hr' h' r' k Hh' Hl ->. apply (Hn Hr' h' r' (k ++ 34 :: r0) Hh' Hl). cbn [app]. by rewrite <- app_assoc. }
  destruct (N.ltb_spec b 32) as [|Hb]; [done|].
  destruct (rune_len (b :: l)) as [|n] eqn:E.
  - destruct (read_string fuel l) as [[s r0]|] eqn:Er; [|done]. injection H as <- <-. apply IH in Er as (t & -> & Ht).
    exists (b :: t). split; [done|]. change replacement with (utf8 65533).
    destruct (rune_len_0 _ E) as [|(b' & k & [= <- <-] & Hb')]; [done|]. apply ch_invalid; [done| |done].
    intros r k Hr Ek. apply (proj2 (invalid_iff _ _) E r (k ++ 34 :: r0) Hr). rewrite app_assoc, <- Ek. done.
  - destruct (read_string fuel (drop (S n) (b :: l))) as [[s r0]|] eqn:Er; [|done]. injection H as <- <-.
    apply IH in Er as (t & Et & Ht). destruct (rune_len_utf8 _ _ E) as (r & Hr & Eu).
    exists (utf8 r ++ t). change (b :: take n l ++ s) with (take (S n) (b :: l) ++ s). rewrite Eu. split; [rewrite <- app_assoc, <- Et, <- Eu; symmetry; apply take_drop|].
    apply ch_plain; [done| | | |done].
    + destruct (N.lt_ge_cases r 128) as [Hl|]; [|lia]. rewrite utf8_low in Eu by done. cbn [take] in Eu. by injection Eu as -> _.
    + intros ->. rewrite utf8_low in Eu by done. cbn [take] in Eu. by injection Eu as -> _.
    + intros ->. rewrite utf8_low in Eu by done. cbn [take] in Eu. by injection Eu as -> _.
Qed.

(** ** Numbers *)
Definition stops (l : list N) : Prop :=
  match l with [] => True | b :: _ => ~ (48 <= b <= 57) /\ b <> 46 /\ b <> 101 /\ b <> 69 end.
Definition no_digit (l : list N) : Prop := match l with [] => True | b :: _ => ~ (48 <= b <= 57) end.
Lemma digit_false b : ~ (48 <= b <= 57) -> is_digit b = false.
Proof. intros H. apply between_false. lia. Qed.
Lemma digits_app d rest : decimal d -> no_digit rest -> digits (d ++ rest) = (d, rest).
Proof.
  intros Hd Hr. induction Hd as [|b d Hb _ IH].
  - destruct rest as [|b rest]; [done|]. cbn [app digits]. by rewrite digit_false.
  - cbn [app digits]. rewrite (proj2 (between_iff 48 57 b) Hb : is_digit b = true). by rewrite IH.
Qed.
Lemma digits_inv l d r : digits l = (d, r) -> l = d ++ r /\ decimal d.
Proof.
  revert d r. induction l as [|b l IH]; intros d r H; [injection H as <- <-; split; [done|constructor]|].
  cbn [digits] in H. destruct (is_digit b) eqn:E; [|injection H as <- <-; split; [done|constructor]].
  destruct (digits l) as [d' r'] eqn:Ed. injection H as <- <-. destruct (IH _ _ eq_refl) as [-> Hd]. split; [done|].
  constructor; [by apply between_iff|done].
Qed.
Lemma stops_no_digit l : stops l -> no_digit l.
Proof. destruct l; [done|]. by intros [? _]. Qed.
Lemma read_digits1_app d rest : d <> [] -> decimal d -> no_digit rest -> read_digits1 (d ++ rest) = Some (d, rest).
Proof. intros Hn Hd Hr. unfold read_digits1. rewrite digits_app by done. by destruct d. Qed.
Lemma read_digits1_inv l d r : read_digits1 l = Some (d, r) -> l = d ++ r /\ decimal d /\ d <> [].
Proof.
  unfold read_digits1. destruct (digits l) as [d' r'] eqn:E. apply digits_inv in E as [-> Hd].
  destruct d'; [done|]. by intros [= <- <-].
Qed.
Lemma read_int_app i rest : integer i -> no_digit rest -> read_int (i ++ rest) = Some (i, rest).
Proof.
  intros [->|(b & d & -> & Hb & Hd)] Hr; [done|]. unfold read_int. cbn [app].
  assert (E : digits (b :: d ++ rest) = (b :: d, rest)).
  { apply (digits_app (b :: d)); [|done]. constructor; [lia|done]. }
  pose proof (proj2 (between_iff 49 57 b) Hb) as Hb'. rewrite E, Hb'. repeat case_match; done.
Qed.
Lemma read_int_inv l i r : read_int l = Some (i, r) -> l = i ++ r /\ integer i.
Proof.
  unfold read_int. intros H. destruct l as [|b l]; [done|].
  destruct (decide (b = 48)) as [->|Hb]; [injection H as <- <-; split; [done|by left]|].
  assert (H' : (if between 49 57 b then Some (digits (b :: l)) else None) = Some (i, r)).
  { rewrite <- H. repeat case_match; try done; subst; done. }
  clear H. destruct (between 49 57 b) eqn:E; [|done]. apply (inj Some) in H' as H. apply between_iff in E.
  clear H'. pose proof H as H'. apply digits_inv in H as [Hl Hd]. split; [done|]. right. cbn [digits] in H'.
  rewrite (proj2 (between_iff 48 57 b)  ltac:(lia) : is_digit b = true) in H'. destruct (digits l) as [d' r'] eqn:Ed.
  injection H' as <- <-. exists b, d'. split; [done|]. split; [done|]. by apply Forall_cons in Hd as [_ Hd].
Qed.
Definition no_e (l : list N) : Prop := match l with [] => True | b :: _ => b <> 101 /\ b <> 69 end.
Lemma read_exp_app e rest : exponent e -> stops rest -> read_exp (e ++ rest) = Some (e, rest).
Proof.
  intros [->|(x & s & d & -> & Hx & Hs & Hd & Hdec)] Hr.
  - destruct rest as [|b rest]; [done|]. destruct Hr as (_ & _ & H1 & H2). cbn [app read_exp].
    by rewrite (proj2 (N.eqb_neq b 101) H1), (proj2 (N.eqb_neq b 69) H2).
  - assert (Hx' : (x =? 101) || (x =? 69) = true).
    { rewrite orb_true_iff, !N.eqb_eq. rewrite !elem_of_cons, elem_of_nil in Hx. intuition. }
    pose proof (read_digits1_app d rest Hd Hdec (stops_no_digit _ Hr)) as E.
    rewrite !elem_of_cons, elem_of_nil in Hs. destruct Hs as [->|[->|[->|[]]]]; cbn [app read_exp]; rewrite Hx'.
    + destruct d as [|b d]; [done|]. cbn [app] in E |- *. apply Forall_cons in Hdec as [Hb _].
      rewrite (proj2 (N.eqb_neq b 43)), (proj2 (N.eqb_neq b 45)) by lia. cbn [orb]. by rewrite E.
    + simpl orb. cbn iota. by rewrite E.
    + simpl orb. cbn iota. by rewrite E.
Qed.
Lemma read_exp_inv l e r : read_exp l = Some (e, r) -> l = e ++ r /\ exponent e.
Proof.
  unfold read_exp. destruct l as [|x l]; [intros [= <- <-]; split; [done|by left]|].
  destruct ((x =? 101) || (x =? 69)) eqn:Ex; [|intros [= <- <-]; split; [done|by left]].
  assert (Hx : x ∈ [101; 69]). { rewrite orb_true_iff, !N.eqb_eq in Ex. rewrite !elem_of_cons. intuition. }
  destruct l as [|s l]; [done|]. destruct ((s =? 43) || (s =? 45)) eqn:Es.
  - destruct (read_digits1 l) as [[d r']|] eqn:E; [|done]. intros [= <- <-]. apply read_digits1_inv in E as (-> & Hd & Hn).
    split; [done|]. right. exists x, [s], d. split; [done|]. split; [done|]. split; [|done].
    rewrite orb_true_iff, !N.eqb_eq in Es. rewrite !elem_of_cons. destruct Es as [->| ->]; auto.
  - destruct (read_digits1 (s :: l)) as [[d r']|] eqn:E; [|done]. intros [= <- <-]. apply read_digits1_inv in E as (E & Hd & Hn).
    rewrite E. split; [done|]. right. exists x, [], d. split; [done|]. split; [done|]. split; [|done]. left.
Qed.
Lemma read_frac_app f rest : fraction f -> no_digit rest -> (f = [] -> forall k, rest <> 46 :: k) -> read_frac (f ++ rest) = Some (f, rest).
Proof.
  intros [->|(d & -> & Hd & Hdec)] Hr Hp.
  - specialize (Hp eq_refl). cbn [app]. unfold read_frac. destruct rest as [|b rest]; [done|].
    destruct (decide (b = 46)) as [->|]; [by destruct (Hp rest)|]. repeat case_match; done.
  - cbn [app read_frac]. by rewrite read_digits1_app.
Qed.
Lemma read_frac_inv l f r : read_frac l = Some (f, r) -> l = f ++ r /\ fraction f.
Proof.
  unfold read_frac. intros H. destruct l as [|b l]; [injection H as <- <-; split; [done|by left]|].
  destruct (decide (b = 46)) as [->|Hb].
  - destruct (read_digits1 l) as [[d r']|] eqn:E; [|done]. injection H as <- <-. apply read_digits1_inv in E as (-> & Hd & Hn).
    split; [done|]. right. by exists d.
  - assert (H' : Some ([], b :: l) = Some (f, r)) by (rewrite <- H; repeat case_match; done).
    injection H' as <- <-. split; [done|by left].
Qed.
Lemma read_number_complete t rest : number t -> stops rest -> read_number (t ++ rest) = Some (t, rest).
Proof.
  intros (m & i & f & e & -> & Hm & Hi & Hf & He) Hr.
  assert (E1 : read_exp (e ++ rest) = Some (e, rest)) by (by apply read_exp_app).
  assert (Hne : no_digit (e ++ rest) /\ (forall k, e ++ rest <> 46 :: k)).
  { destruct He as [->|(x & s & d & -> & Hx & _)].
    - destruct rest as [|b rest]; [done|]. destruct Hr as (Hr & Hr' & _). split; [done|]. cbn [app]. by intros k [= -> ->].
    - rewrite !elem_of_cons, elem_of_nil in Hx. cbn [app]. split.
      + destruct Hx as [->|[->|[]]]; simpl; lia. + destruct Hx as [->|[->|[]]]; done. }
  destruct Hne as [Hne Hnp].
  assert (E2 : read_frac (f ++ e ++ rest) = Some (f, e ++ rest)) by (apply read_frac_app; auto).
  assert (Hnf : no_digit (f ++ e ++ rest)).
  { destruct Hf as [->|(d & -> & _)]; [done|]. cbn [app no_digit]. lia. }
  assert (E3 : read_int (i ++ f ++ e ++ rest) = Some (i, f ++ e ++ rest)) by (by apply read_int_app).
  unfold read_number. rewrite <- !app_assoc.
  rewrite !elem_of_cons, elem_of_nil in Hm. destruct Hm as [->|[->|[]]].
  - cbn [app]. assert (Hh : exists b k, i ++ f ++ e ++ rest = b :: k /\ b <> 45).
    { destruct Hi as [->|(b & d & -> & Hb & _)]; cbn [app]; [by eexists _, _|]. eexists _, _. split; [done|]. lia. }
    destruct Hh as (b & k & Eb & Hb). rewrite Eb in *.
    assert (E : match b :: k with 45 :: l' => ([45], l') | _ => ([], b :: k) end = ([], b :: k)) by (repeat case_match; try done; congruence).
    rewrite E, E3, E2, E1. done.
  - cbn [app]. by rewrite E3, E2, E1.
Qed.
Lemma read_number_sound l t r : read_number l = Some (t, r) -> l = t ++ r /\ number t.
Proof.
  unfold read_number. intros H.
  assert (G : forall m l', l = m ++ l' -> m ∈ [[]; [45]] ->
    match read_int l' with
    | Some (i, l) => match read_frac l with
        | Some (f, l) => match read_exp l with Some (e, l) => Some (m ++ i ++ f ++ e, l) | None => None end
        | None => None end
    | None => None end = Some (t, r) -> l = t ++ r /\ number t).
  { intros m l' -> Hm G. destruct (read_int l') as [[i l1]|] eqn:E1; [|done]. apply read_int_inv in E1 as [-> Hi].
    destruct (read_frac l1) as [[f l2]|] eqn:E2; [|done]. apply read_frac_inv in E2 as [-> Hf].
    destruct (read_exp l2) as [[e l3]|] eqn:E3; [|done]. apply read_exp_inv in E3 as [-> He]. injection G as <- <-.
    split; [by rewrite <- !app_assoc|]. by exists m, i, f, e. }
  destruct l as [|b l]; [by apply (G [] []); [|left|]|].
  destruct (decide (b = 45)) as [->|Hb]; [by apply (G [45] l); [|right; left|]|].
  apply (G [] (b :: l)); [done|left|].
  assert (E : match b :: l with 45 :: l' => ([45], l') | _ => ([], b :: l) end = ([], b :: l)) by (repeat case_match; try done; congruence).
  by rewrite E in H.
Qed.
Lemma number_head t : number t -> exists b k, t = b :: k /\ (b = 45 \/ 48 <= b <= 57).
Proof.
  intros (m & i & f & e & -> & Hm & Hi & _). rewrite !elem_of_cons, elem_of_nil in Hm.
  destruct Hm as [->|[->|[]]]; [|by eexists _, _; split; [|left]].
  destruct Hi as [->|(b & d & -> & Hb & _)]; eexists _, _; (split; [cbn [app]; done|]); right; lia.
Qed.
