(** The reader accepts the grammar and nothing else: values. *)
From Verif.Model Require Import Marshal Json.
From Verif.Spec Require Import MarshalSpec JsonSpec.
From Verif.Proof Require Import JsonP JsonP2 JsonP3.
Local Open Scope N_scope.

Scheme value_mind := Minimality for value Sort Prop
  with elements_mind := Minimality for elements Sort Prop
  with members_mind := Minimality for members Sort Prop.
Combined Scheme json_mind from value_mind, elements_mind, members_mind.

Lemma strip_inv p l r : strip p l = Some r -> l = p ++ r.
Proof.
  revert l. induction p as [|x p IH]; intros l H; [by injection H as ->|]. destruct l as [|y l]; [done|]. cbn [strip] in H.
  destruct (N.eqb_spec x y) as [->|]; [|done]. cbn [app]. f_equal. by apply IH.
Qed.
(** what may follow a value *)
Lemma blank_stops s l : blank s -> stops l -> stops (s ++ l).
Proof.
  intros Hs Hl. destruct Hs as [|b s Hb _]; [done|]. cbn [app stops]. rewrite !elem_of_cons, elem_of_nil in Hb.
  destruct Hb as [->|[->|[->|[->|[]]]]]; lia.
Qed.
(** a value begins with none of: blank, closing brackets *)
Lemma value_head v j : value v j -> exists b k, v = b :: k /\ is_ws b = false /\ b <> 93 /\ b <> 125.
Proof.
  destruct 1; try (by eexists _, _; repeat split).
  destruct (number_head _ H) as (b & k & -> & Hb). exists b, k. split; [done|].
  assert (is_ws b = false); [|repeat split; [done|lia|lia]].
  destruct (is_ws b) eqn:E; [|done]. apply is_ws_iff in E. rewrite !elem_of_cons, elem_of_nil in E. lia.
Qed.
Lemma blank_value_head s v j rest : blank s -> value v j -> exists b k, skip_ws (s ++ v ++ rest) = b :: k /\ b <> 93 /\ b <> 125.
Proof.
  intros Hs Hv. rewrite skip_blank by done. destruct (value_head _ _ Hv) as (b & k & -> & Hb & H1 & H2). cbn [app].
  rewrite skip_head by done. by exists b, (k ++ rest).
Qed.

Definition vreads (v : list N) (j : json) : Prop := forall s rest fuel, blank s -> stops rest -> (2 * length v <= fuel)%nat ->
  read_value fuel (s ++ v ++ rest) = Some (j, rest).
Definition ereads (t : list N) (l : list json) : Prop :=
  (forall rest fuel, (2 * length t + 1 <= fuel)%nat -> read_elems fuel (t ++ 93 :: rest) = Some (l, rest)) /\
  (forall rest, exists b k, skip_ws (t ++ rest) = b :: k /\ b <> 93).
Definition mreads (t : list N) (l : list (list N * json)) : Prop :=
  (forall rest fuel, (2 * length t + 1 <= fuel)%nat -> read_members fuel (t ++ 125 :: rest) = Some (l, rest)) /\
  (forall rest, exists k, skip_ws (t ++ rest) = 34 :: k).
Lemma read_value_head fuel s b l : blank s -> is_ws b = false -> read_value (S fuel) (s ++ b :: l) =
          (if b =? 123 then
            match skip_ws l with
            | 125 :: r => Some (JObj [], r)
            | _ => match read_members fuel l with Some (m, r) => Some (JObj m, r) | None => None end
            end
          else if b =? 91 then
            match skip_ws l with
            | 93 :: r => Some (JArr [], r)
            | _ => match read_elems fuel l with Some (m, r) => Some (JArr m, r) | None => None end
            end
          else if b =? 34 then
            match read_string (length l) l with Some (s, r) => Some (JStr s, r) | None => None end
          else if b =? 116 then match strip (lit "rue") l with Some r => Some (JBool true, r) | None => None end
          else if b =? 102 then match strip (lit "alse") l with Some r => Some (JBool false, r) | None => None end
          else if b =? 110 then match strip (lit "ull") l with Some r => Some (JNull, r) | None => None end
          else match read_number (b :: l) with Some (s, r) => Some (JNum s, r) | None => None end).
Proof. intros Hs Hb. cbn [read_value]. rewrite skip_blank by done. by rewrite skip_head. Qed.
Lemma read_complete :
  (forall v j, value v j -> vreads v j) /\ (forall t l, elements t l -> ereads t l) /\ (forall t l, members t l -> mreads t l).
Proof.
  apply json_mind.
  - intros s rest [|fuel] Hs Hr Hf; [simpl in Hf; lia|].
    change (bytes_of "null" ++ rest) with (110 :: lit "ull" ++ rest). by rewrite (read_value_head fuel s 110).
  - intros s rest [|fuel] Hs Hr Hf; [simpl in Hf; lia|].
    change (bytes_of "true" ++ rest) with (116 :: lit "rue" ++ rest). by rewrite (read_value_head fuel s 116).
  - intros s rest [|fuel] Hs Hr Hf; [simpl in Hf; lia|].
    change (bytes_of "false" ++ rest) with (102 :: lit "alse" ++ rest). by rewrite (read_value_head fuel s 102).
  - intros t Ht s rest fuel Hs Hr Hf. destruct (number_head _ Ht) as (b & k & E & Hb).
    pose proof (read_number_complete t rest Ht Hr) as Hn. rewrite E in *. destruct fuel as [|fuel]; [simpl in Hf; lia|].
    cbn [app] in Hn |- *. rewrite read_value_head; [|done|].
    + rewrite (proj2 (N.eqb_neq b 123)), (proj2 (N.eqb_neq b 91)), (proj2 (N.eqb_neq b 34)), (proj2 (N.eqb_neq b 116)),
        (proj2 (N.eqb_neq b 102)), (proj2 (N.eqb_neq b 110)) by lia. by rewrite Hn.
    + destruct (is_ws b) eqn:Ew; [|done]. apply is_ws_iff in Ew. rewrite !elem_of_cons, elem_of_nil in Ew. lia.
  - intros t d Ht s rest [|fuel] Hs Hr Hf; [simpl in Hf; lia|]. cbn [app]. rewrite <- app_assoc. rewrite read_value_head by done.
    cbn [app]. change (34 =? 123) with false. change (34 =? 91) with false. change (34 =? 34) with true. cbn iota.
    rewrite (read_string_complete t d Ht rest); [done|]. rewrite app_length. simpl. lia.
  - intros s' Hs' s rest [|fuel] Hs Hr Hf; [simpl in Hf; lia|]. cbn [app]. rewrite <- app_assoc. rewrite read_value_head by done.
    change (91 =? 123) with false. change (91 =? 91) with true. cbn iota. by rewrite skip_blank.
  - intros t l _ [IH Hh] s rest [|fuel] Hs Hr Hf; [simpl in Hf; lia|]. cbn [app]. rewrite <- app_assoc. cbn [app]. rewrite read_value_head by done.
    change (91 =? 123) with false. change (91 =? 91) with true. cbn iota.
    destruct (Hh (93 :: rest)) as (b & k & E & Hb). rewrite E. rewrite IH.
    + repeat case_match; try done; congruence.
    + simpl in Hf. rewrite app_length in Hf. simpl in Hf. lia.
  - intros s' Hs' s rest [|fuel] Hs Hr Hf; [simpl in Hf; lia|]. cbn [app]. rewrite <- app_assoc. rewrite read_value_head by done.
    change (123 =? 123) with true. cbn iota. by rewrite skip_blank.
  - intros t l _ [IH Hh] s rest [|fuel] Hs Hr Hf; [simpl in Hf; lia|]. cbn [app]. rewrite <- app_assoc. cbn [app]. rewrite read_value_head by done.
    change (123 =? 123) with true. cbn iota.
    destruct (Hh (125 :: rest)) as (k & E). rewrite E. cbn iota. rewrite IH; [done|].
    simpl in Hf. rewrite app_length in Hf. simpl in Hf. lia.
  - intros s v s' j Hs Hv IH Hs'. split.
    + intros rest [|fuel] Hf; [lia|]. rewrite !app_length in Hf. rewrite read_elems_unfold. rewrite <- !app_assoc.
      rewrite (IH s (s' ++ 93 :: rest)); [|done|apply blank_stops; [done|simpl; lia]|lia].
      by rewrite skip_blank.
    + intros rest. rewrite <- !app_assoc. destruct (blank_value_head s v j (s' ++ rest) Hs Hv) as (b & k & E & Hb & _). by exists b, k.
  - intros s v s' j t l Hs Hv IH Hs' _ [IHt _]. split.
    + intros rest [|fuel] Hf; [lia|]. rewrite !app_length in Hf. simpl in Hf. rewrite read_elems_unfold. rewrite <- !app_assoc. cbn [app].
      rewrite (IH s (s' ++ 44 :: t ++ 93 :: rest)); [|done|apply blank_stops; [done|simpl; lia]|lia].
      rewrite skip_blank by done. rewrite skip_head by done. cbn iota. rewrite IHt by lia. done.
    + intros rest. rewrite <- !app_assoc. destruct (blank_value_head s v j (s' ++ (44 :: t) ++ rest) Hs Hv) as (b & k & E & Hb & _). exists b, k. split; [exact E|done].
  - intros s1 k key s2 s3 v s4 j H1 Hk H2 H3 Hv IH H4. split.
    + intros rest [|fuel] Hf; [lia|]. rewrite !app_length in Hf. simpl in Hf. rewrite !app_length in Hf. simpl in Hf.
      rewrite !app_length in Hf. simpl in Hf. rewrite !app_length in Hf.
      rewrite read_members_unfold. rewrite <- !app_assoc. cbn [app]. rewrite skip_blank by done. rewrite skip_head by done. cbn iota.
      rewrite <- !app_assoc. cbn [app]. rewrite (read_string_complete k key Hk); [|rewrite app_length; simpl; lia].
      rewrite <- !app_assoc. cbn [app]. rewrite skip_blank by done. rewrite skip_head by done. cbn iota.
      rewrite <- !app_assoc. cbn [app]. rewrite (IH s3 (s4 ++ 125 :: rest)); [|done|apply blank_stops; [done|simpl; lia]|lia].
      rewrite skip_blank by done. by rewrite skip_head.
    + intros rest. rewrite <- !app_assoc. cbn [app]. rewrite skip_blank by done. rewrite skip_head by done. eauto.
  - intros s1 k key s2 s3 v s4 j t l H1 Hk H2 H3 Hv IH H4 _ [IHt _]. split.
    + intros rest [|fuel] Hf; [lia|]. rewrite !app_length in Hf. simpl in Hf. rewrite !app_length in Hf. simpl in Hf.
      rewrite !app_length in Hf. simpl in Hf. rewrite !app_length in Hf. simpl in Hf.
      rewrite read_members_unfold. rewrite <- !app_assoc. cbn [app]. rewrite skip_blank by done. rewrite skip_head by done. cbn iota.
      rewrite <- !app_assoc. cbn [app]. rewrite (read_string_complete k key Hk); [|rewrite app_length; simpl; lia].
      rewrite <- !app_assoc. cbn [app]. rewrite skip_blank by done. rewrite skip_head by done. cbn iota.
      rewrite <- !app_assoc. cbn [app]. rewrite (IH s3 (s4 ++ 44 :: t ++ 125 :: rest)); [|done|apply blank_stops; [done|simpl; lia]|lia].
      rewrite skip_blank by done. rewrite skip_head by done. cbn iota. rewrite IHt by lia. done.
    + intros rest. rewrite <- !app_assoc. cbn [app]. rewrite skip_blank by done. rewrite skip_head by done. eauto.
Qed.

Lemma read_sound fuel :
  (forall l j r, read_value fuel l = Some (j, r) -> exists s v, l = s ++ v ++ r /\ blank s /\ value v j) /\
  (forall l e r, read_elems fuel l = Some (e, r) -> exists t, l = t ++ 93 :: r /\ elements t e) /\
  (forall l e r, read_members fuel l = Some (e, r) -> exists t, l = t ++ 125 :: r /\ members t e).
Proof.
  induction fuel as [|fuel (IHv & IHe & IHm)]; [by repeat split; intros|]. split; [|split].
  - intros l j r H. destruct (skip_ws_split l) as (s & Hs & El). destruct (skip_ws l) as [|b l'] eqn:Esk.
    { cbn [read_value] in H. by rewrite Esk in H. }
    assert (Hb : is_ws b = false).
    { destruct (is_ws b) eqn:Eb; [|done]. pose proof (skip_ws_idem l) as Hi. rewrite Esk in Hi. cbn [skip_ws] in Hi. rewrite Eb in Hi.
      destruct (skip_ws_split l') as (s' & _ & E'). rewrite Hi in E'. apply (f_equal length) in E'. rewrite app_length in E'. simpl in E'. lia. }
    rewrite El in H. rewrite read_value_head in H by done. exists s. rewrite El. clear El Esk.
    assert (HG : forall v, b :: l' = v ++ r -> value v j -> exists v, s ++ b :: l' = s ++ v ++ r /\ blank s /\ value v j).
    { intros v -> Hv. by exists v. }
    destruct (N.eqb_spec b 123) as [->|_].
    { destruct (skip_ws_split l') as (s' & Hs' & El'). destruct (skip_ws l') as [|c k] eqn:Ec; [|destruct (decide (c = 125)) as [->|Hc]].
      - destruct (read_members fuel l') as [[m r0]|] eqn:E; [|done]. injection H as <- <-. apply IHm in E as (t & E & Ht).
        apply (HG (123 :: t ++ [125])); [rewrite E; cbn [app]; by rewrite <- app_assoc|by constructor].
      - injection H as <- <-. apply (HG (123 :: s' ++ [125])); [rewrite El'; cbn [app]; by rewrite <- app_assoc|by constructor].
      - assert (H' : match read_members fuel l' with Some (m, r) => Some (JObj m, r) | None => None end = Some (j, r))
          by (rewrite <- H; repeat case_match; try done; congruence).
        destruct (read_members fuel l') as [[m r0]|] eqn:E; [|done]. injection H' as <- <-. apply IHm in E as (t & E & Ht).
        apply (HG (123 :: t ++ [125])); [rewrite E; cbn [app]; by rewrite <- app_assoc|by constructor]. }
    destruct (N.eqb_spec b 91) as [->|_].
    { destruct (skip_ws_split l') as (s' & Hs' & El'). destruct (skip_ws l') as [|c k] eqn:Ec; [|destruct (decide (c = 93)) as [->|Hc]].
      - destruct (read_elems fuel l') as [[m r0]|] eqn:E; [|done]. injection H as <- <-. apply IHe in E as (t & E & Ht).
        apply (HG (91 :: t ++ [93])); [rewrite E; cbn [app]; by rewrite <- app_assoc|by constructor].
      - injection H as <- <-. apply (HG (91 :: s' ++ [93])); [rewrite El'; cbn [app]; by rewrite <- app_assoc|by constructor].
      - assert (H' : match read_elems fuel l' with Some (m, r) => Some (JArr m, r) | None => None end = Some (j, r))
          by (rewrite <- H; repeat case_match; try done; congruence).
        destruct (read_elems fuel l') as [[m r0]|] eqn:E; [|done]. injection H' as <- <-. apply IHe in E as (t & E & Ht).
        apply (HG (91 :: t ++ [93])); [rewrite E; cbn [app]; by rewrite <- app_assoc|by constructor]. }
    destruct (N.eqb_spec b 34) as [->|_].
    { destruct (read_string (length l') l') as [[d r0]|] eqn:E; [|done]. injection H as <- <-.
      apply read_string_sound in E as (t & -> & Ht). apply (HG (34 :: t ++ [34])); [cbn [app]; by rewrite <- app_assoc|by constructor]. }
    destruct (N.eqb_spec b 116) as [->|_].
    { destruct (strip (lit "rue") l') as [r0|] eqn:E; [|done]. injection H as <- <-. apply strip_inv in E as ->.
      apply (HG (bytes_of "true")); [done|constructor]. }
    destruct (N.eqb_spec b 102) as [->|_].
    { destruct (strip (lit "alse") l') as [r0|] eqn:E; [|done]. injection H as <- <-. apply strip_inv in E as ->.
      apply (HG (bytes_of "false")); [done|constructor]. }
    destruct (N.eqb_spec b 110) as [->|_].
    { destruct (strip (lit "ull") l') as [r0|] eqn:E; [|done]. injection H as <- <-. apply strip_inv in E as ->.
      apply (HG (bytes_of "null")); [done|constructor]. }
    destruct (read_number (b :: l')) as [[t r0]|] eqn:E; [|done]. injection H as <- <-. apply read_number_sound in E as [E Ht].
    apply (HG t); [done|by constructor].
  - intros l e r H. rewrite read_elems_unfold in H. destruct (read_value fuel l) as [[v r1]|] eqn:Ev; [|done].
    apply IHv in Ev as (s & t & -> & Hs & Ht). destruct (skip_ws_split r1) as (s' & Hs' & E1).
    destruct (skip_ws r1) as [|c k] eqn:Ec; [done|].
    destruct (decide (c = 44)) as [->|H44].
    { destruct (read_elems fuel k) as [[m r0]|] eqn:E; [|done]. injection H as <- <-. apply IHe in E as (t' & -> & Ht').
      exists (s ++ t ++ s' ++ 44 :: t'). split; [rewrite E1; by rewrite <- !app_assoc|]. by apply el_more. }
    destruct (decide (c = 93)) as [->|H93]; [|exfalso; clear -H H44 H93; repeat case_match; try done; congruence].
    injection H as <- <-. exists (s ++ t ++ s'). split; [rewrite E1; by rewrite <- !app_assoc|]. by apply el_last.
  - intros l e r H. rewrite read_members_unfold in H. destruct (skip_ws_split l) as (s1 & Hs1 & El).
    destruct (skip_ws l) as [|c l'] eqn:Ec; [done|].
    destruct (decide (c = 34)) as [->|Hc]; [|exfalso; clear -H Hc; repeat case_match; try done; congruence].
    destruct (read_string (length l') l') as [[k r1]|] eqn:Ek; [|done]. apply read_string_sound in Ek as (tk & -> & Hk).
    destruct (skip_ws_split r1) as (s2 & Hs2 & E1). destruct (skip_ws r1) as [|c r2] eqn:Ec1; [done|].
    destruct (decide (c = 58)) as [->|Hc]; [|exfalso; clear -H Hc; repeat case_match; try done; congruence].
    destruct (read_value fuel r2) as [[v r3]|] eqn:Ev; [|done]. apply IHv in Ev as (s3 & tv & -> & Hs3 & Hv).
    destruct (skip_ws_split r3) as (s4 & Hs4 & E3). destruct (skip_ws r3) as [|c r4] eqn:Ec3; [done|].
    destruct (decide (c = 44)) as [->|H44].
    { destruct (read_members fuel r4) as [[m r0]|] eqn:E; [|done]. injection H as <- <-. apply IHm in E as (t' & -> & Ht').
      exists (s1 ++ 34 :: tk ++ 34 :: s2 ++ 58 :: s3 ++ tv ++ s4 ++ 44 :: t').
      split; [|by apply mb_more]. rewrite El, E1, E3. repeat (rewrite <- app_assoc; cbn [app]). done. }
    destruct (decide (c = 125)) as [->|H125]; [|exfalso; clear -H H44 H125; repeat case_match; try done; congruence].
    injection H as <- <-. exists (s1 ++ 34 :: tk ++ 34 :: s2 ++ 58 :: s3 ++ tv ++ s4).
    split; [|by apply mb_last]. rewrite El, E1, E3. repeat (rewrite <- app_assoc; cbn [app]). done.
Qed.
Theorem parse_iff t j : parse t = Some j <-> document t j.
Proof.
  unfold parse. split.
  - destruct (read_value (2 * length t + 2) t) as [[j' r]|] eqn:E; [|done].
    destruct (skip_ws r) as [|c k] eqn:Er; [|done]. intros [= <-].
    destruct (read_sound (2 * length t + 2)) as (H & _ & _). apply H in E as (s & v & -> & Hs & Hv).
    destruct (skip_ws_split r) as (s' & Hs' & E'). rewrite Er, app_nil_r in E'. exists s, v, s'. by rewrite E'.
  - intros (s & v & s' & -> & Hs & Hv & Hs'). destruct read_complete as (H & _ & _).
    rewrite (H v j Hv s s'); [|done| |rewrite !app_length; lia].
    + assert (E : skip_ws s' = []) by (rewrite <- (app_nil_r s'); by rewrite skip_blank). by rewrite E.
    + rewrite <- (app_nil_r s'). by apply blank_stops.
Qed.
