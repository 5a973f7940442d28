(** Which texts Unmarshal accepts and what it makes of them: C92, C93. *)
From Verif.Model Require Import Marshal.
From Verif.Spec Require Import MarshalSpec JsonSpec.
From Verif.Proof Require Import AttrsP JsonP JsonP2 JsonP3 JsonP4 JsonP5 MarshalP MarshalP2 MarshalP3.

Lemma unmarshal_members {S} (fs : fields S) b z s :
  json_unmarshal fs b z = Ok s <-> exists l, text_members b l /\ set_fields fs l z = Some s.
Proof.
  unfold json_unmarshal, text_members. change (bytes_of b) with (to_bytes b). split.
  - destruct (parse (to_bytes b)) as [j|] eqn:E; [|done]. pose proof (proj1 (parse_iff _ _) E) as Hd.
    destruct j as [| | | | |l]; simpl; try done.
    + intros [= <-]. exists []. split; [by right|done].
    + destruct (set_fields fs l z) eqn:Es; [|done]. intros [= <-]. exists l. split; [by left|done].
  - intros (l & [Hd|[Hd ->]] & Hs); apply parse_iff in Hd; rewrite Hd; simpl; [by rewrite Hs|by injection Hs as ->].
Qed.

(** C92.  A text is read as at most one value; the text of every value Marshal
    accepts is a JSON object. *)
Theorem c92_grammar :
  (forall t j j', document t j -> document t j' -> j = j') /\
  (forall t, (exists j, document t j) \/ ~ exists j, document t j) /\
  (forall io n x b, marshal io n x = Ok b -> exists l, document (bytes_of b) (JObj l)).
Proof.
  split; [|split].
  - intros t j j' H H'. apply parse_iff in H, H'. congruence.
  - intros t. destruct (parse t) as [j|] eqn:E; [left; exists j; by apply parse_iff|]. right. intros [j H]. apply parse_iff in H. congruence.
  - intros io n x b H.
    assert (G : forall m, good m -> json_marshal m = b -> exists l, document (bytes_of b) (JObj l)).
    { intros m [H1 H2] <-. exists (clean_members m). apply parse_iff. unfold json_marshal. change bytes_of with to_bytes.
      rewrite parse_marshalled; [by rewrite clean_obj|by apply no_num_obj|by apply jbytes_obj]. }
    unfold marshal in H. destruct (as_resource x) as [r|].
    { destruct (resource_from_space r); cbn [rbind] in H; try done. injection H as H. rewrite resource_members_eq in H. eapply G; [|exact H]. apply good_r. }
    destruct (as_object x) as [r|].
    { destruct (object_from_space r); cbn [rbind] in H; try done. injection H as H. rewrite object_members_eq in H. eapply G; [|exact H]. apply good_o. }
    destruct (as_entity x) as [r|].
    { destruct (entity_from_space r); cbn [rbind] in H; try done. injection H as H. rewrite entity_members_eq in H. eapply G; [|exact H]. apply good_e. }
    destruct (as_link x) as [r|]; [|done].
    destruct (link_from_space r); cbn [rbind] in H; try done. injection H as H. rewrite link_members_eq in H. eapply G; [|exact H]. apply good_l.
Qed.
Print Assumptions c92_grammar.
(** C92.  For each of the four types Unmarshal succeeds exactly on the texts that
    are JSON objects (or null) whose members fit the fields, and fails with the
    error of encoding/json on all others. *)
Definition fits_entity (b : string) : Prop := exists l u t a, text_members b l /\
  has_string l "uid" u /\ has_string l "type" t /\ has_map l "attrs" a.
Definition fits_resource (b : string) : Prop := exists l u t a n g v k x, text_members b l /\ resource_of l u t a n g v k x.
Definition fits_object (b : string) : Prop := exists l u t a n ns vs o, text_members b l /\
  has_string l "uid" u /\ has_string l "type" t /\ has_map l "attrs" a /\ has_string l "name" n /\ has_string l "namespace" ns /\
  given "resource" l vs /\ resource_field vs o /\
  (forall r, o = Some r -> exists u t a n g v k x, resource_of r u t a n g v k x).
Definition fits_link (b : string) : Prop := exists l u f t a, text_members b l /\
  has_string l "uid" u /\ has_string l "from" f /\ has_string l "to" t /\ has_map l "attrs" a.
Definition fits (b : string) (t : target) : Prop :=
  match t with
  | TEntity => fits_entity b | TResource => fits_resource b | TObject => fits_object b | TLink => fits_link b | TOther => False
  end.
Theorem c92_accepts :
  forall io n w b t, t <> TOther ->
    (fits b t <-> exists v w2, unmarshal io n w b t = Ok (v, w2)) /\
    (~ fits b t <-> unmarshal io n w b t = Err ESyntax).
Proof.
  intros io n w b t Ht.
  assert (HJ : forall S (fs : fields S) z, (exists s, json_unmarshal fs b z = Ok s) \/ json_unmarshal fs b z = Err ESyntax).
  { intros S fs z. unfold json_unmarshal. destruct (parse (to_bytes b)); [|by right]. destruct (decode_struct fs j z); eauto. }
  assert (G : (fits b t <-> exists v w2, unmarshal io n w b t = Ok (v, w2)) /\
    ((exists v w2, unmarshal io n w b t = Ok (v, w2)) \/ unmarshal io n w b t = Err ESyntax)).
  { destruct t; [| | | |done]; unfold unmarshal, fits.
    - split.
      2:{ destruct (HJ _ resource_fields resource_zero) as [[s ->]| ->]; [|by right]. left. cbn [rbind]. destruct (resource_to_space io n w s). eauto. }
      split.
      + intros (l & u & t & a & nm & g & v & k & x & Hl & Hr). apply resource_of_iff in Hr as (m & Hr & _).
        rewrite (proj2 (unmarshal_members _ _ _ _)) by eauto. cbn [rbind]. destruct (resource_to_space io n w _). eauto.
      + intros (v & w2 & H). destruct (json_unmarshal resource_fields b resource_zero) as [[[u t m] nm g v' k x]| |] eqn:E; try done.
        apply unmarshal_members in E as (l & Hl & Hs). exists l. do 8 eexists. split; [done|]. apply resource_of_iff. eauto.
    - split.
      2:{ destruct (HJ _ object_fields object_zero) as [[s ->]| ->]; [|by right]. left. cbn [rbind]. destruct (object_to_space io n w s). eauto. }
      split.
      + intros (l & u & t & a & nm & ns & vs & o & Hl & H1 & H2 & H3 & H4 & H5 & H6 & H7 & H8).
        rewrite has_string_iff in H1, H2, H4, H5 by name_small. rewrite has_map_iff in H3 by name_small. destruct H3 as (m & H3 & _).
        apply given_iff in H6 as ->; [|name_small].
        assert (Hr : exists r, rr (hits "resource" l) None = Some r).
        { destruct o as [rl|].
          - destruct (H8 rl eq_refl) as (u' & t' & a' & n' & g' & v' & k' & x' & Hr). apply resource_of_iff in Hr as (m' & Hr & _).
            eexists (Some _). apply resource_field_iff. exists (Some rl). split; [done|exact Hr].
          - exists None. apply resource_field_iff. by exists None. }
        destruct Hr as [r Hr].
        rewrite (proj2 (unmarshal_members object_fields b object_zero (SerObject (SerEntity u t m) nm ns r))).
        * cbn [rbind]. destruct (object_to_space io n w _). eauto.
        * exists l. split; [done|]. rewrite set_object. simpl. by rewrite H1, H2, H3, H4, H5, Hr.
      + intros (v & w2 & H). destruct (json_unmarshal object_fields b object_zero) as [s| |] eqn:E; try done.
        apply unmarshal_members in E as (l & Hl & Hs). rewrite set_object in Hs. simpl in Hs.
        destruct (rs (hits "uid" l) "") as [u|] eqn:E1; [|done]. destruct (rs (hits "type" l) "") as [t|] eqn:E2; [|done].
        destruct (rm (hits "attrs" l) None) as [a|] eqn:E3; [|done]. destruct (rs (hits "name" l) "") as [nm|] eqn:E4; [|done].
        destruct (rs (hits "namespace" l) "") as [ns|] eqn:E5; [|done]. destruct (rr (hits "resource" l) None) as [r|] eqn:E6; [|done].
        apply resource_field_iff in E6 as (o & Ho & Hor).
        exists l, u, t, (default ∅ a), nm, ns, (hits "resource" l), o. split; [done|].
        rewrite !has_string_iff by name_small. rewrite has_map_iff by name_small. do 2 (split; [done|]). split; [eauto|]. do 2 (split; [done|]).
        split; [apply given_iff; [name_small|done]|]. split; [done|]. intros rl ->. destruct r as [[[u' t' m'] n' g' v' k' x']|]; [|done].
        do 8 eexists. apply resource_of_iff. eauto.
    - split.
      2:{ destruct (HJ _ entity_fields entity_zero) as [[s ->]| ->]; [|by right]. left. cbn [rbind]. destruct (entity_to_space io n w s). eauto. }
      split.
      + intros (l & u & t & a & Hl & H1 & H2 & H3). rewrite has_string_iff in H1, H2 by name_small. rewrite has_map_iff in H3 by name_small.
        destruct H3 as (m & H3 & _). rewrite (proj2 (unmarshal_members entity_fields b entity_zero (SerEntity u t m))).
        * cbn [rbind]. destruct (entity_to_space io n w _). eauto.
        * exists l. split; [done|]. rewrite set_entity. simpl. by rewrite H1, H2, H3.
      + intros (v & w2 & H). destruct (json_unmarshal entity_fields b entity_zero) as [s| |] eqn:E; try done.
        apply unmarshal_members in E as (l & Hl & Hs). rewrite set_entity in Hs. simpl in Hs.
        destruct (rs (hits "uid" l) "") as [u|] eqn:E1; [|done]. destruct (rs (hits "type" l) "") as [t|] eqn:E2; [|done].
        destruct (rm (hits "attrs" l) None) as [a|] eqn:E3; [|done].
        exists l, u, t, (default ∅ a). split; [done|]. rewrite !has_string_iff by name_small. rewrite has_map_iff by name_small. eauto.
    - split.
      2:{ destruct (HJ _ link_fields link_zero) as [[s ->]| ->]; [|by right]. left. cbn [rbind]. destruct (link_to_space io n w s). eauto. }
      split.
      + intros (l & u & f & t & a & Hl & H1 & H0 & H2 & H3). rewrite has_string_iff in H1, H0, H2 by name_small. rewrite has_map_iff in H3 by name_small.
        destruct H3 as (m & H3 & _). rewrite (proj2 (unmarshal_members link_fields b link_zero (SerLink u f t m))).
        * cbn [rbind]. destruct (link_to_space io n w _). eauto.
        * exists l. split; [done|]. rewrite set_link. simpl. by rewrite H1, H0, H2, H3.
      + intros (v & w2 & H). destruct (json_unmarshal link_fields b link_zero) as [s| |] eqn:E; try done.
        apply unmarshal_members in E as (l & Hl & Hs). rewrite set_link in Hs. simpl in Hs.
        destruct (rs (hits "uid" l) "") as [u|] eqn:E1; [|done]. destruct (rs (hits "from" l) "") as [f|] eqn:E0; [|done].
        destruct (rs (hits "to" l) "") as [t|] eqn:E2; [|done].
        destruct (rm (hits "attrs" l) None) as [a|] eqn:E3; [|done].
        exists l, u, f, t, (default ∅ a). split; [done|]. rewrite !has_string_iff by name_small. rewrite has_map_iff by name_small.
        do 3 (split; [done|]). eauto. }
  destruct G as [G1 G2]. split; [done|]. rewrite G1. destruct G2 as [(v & w2 & E)|E].
  - split; [intros H; destruct H; eauto|]. congruence.
  - split; [done|]. intros _ (v & w2 & E'). congruence.
Qed.
Print Assumptions c92_accepts.

(** C93.  The stored value holds exactly what the members say. *)
Theorem c93_content :
  forall io n w b w2,
  (forall e, unmarshal io n w b TEntity = Ok (VEntity e, w2) -> exists l, text_members b l /\
     has_string l "uid" (uid_string (e_uid e)) /\ has_string l "type" (e_typ e) /\ has_map l "attrs" (attrs_map w2 (e_attrs e))) /\
  (forall r, unmarshal io n w b TResource = Ok (VResource r, w2) -> exists l, text_members b l /\
     resource_of l (uid_string (r_uid r)) (r_typ r) (attrs_map w2 (r_attrs r)) (r_name r) (r_group r) (r_version r) (r_kind r) (r_namespaced r)) /\
  (forall o, unmarshal io n w b TObject = Ok (VObject o, w2) -> exists l vs ro, text_members b l /\
     has_string l "uid" (uid_string (o_uid o)) /\ has_string l "type" (o_typ o) /\ has_map l "attrs" (attrs_map w2 (o_attrs o)) /\
     has_string l "name" (o_name o) /\ has_string l "namespace" (o_ns o) /\
     given "resource" l vs /\ resource_field vs ro /\
     match ro, o_res o with
     | None, None => True
     | Some rl, Some r => resource_of rl (uid_string (r_uid r)) (r_typ r) (attrs_map w2 (r_attrs r))
         (r_name r) (r_group r) (r_version r) (r_kind r) (r_namespaced r)
     | _, _ => False
     end) /\
  (forall k, unmarshal io n w b TLink = Ok (VLink k, w2) -> exists l, text_members b l /\
     has_string l "uid" (uid_string (l_uid k)) /\ has_string l "from" (uid_string (l_from k)) /\
     has_string l "to" (uid_string (l_to k)) /\ has_map l "attrs" (attrs_map w2 (l_attrs k))).
Proof.
  intros io n w b w2. split; [|split; [|split]]; intros x H; unfold unmarshal in H.
  - destruct (json_unmarshal entity_fields b entity_zero) as [s| |] eqn:E; try done. cbn [rbind] in H.
    destruct (to_entity io n w s) as (e & w' & Es & G1 & G2 & G3 & _). rewrite Es in H. injection H as -> ->.
    apply unmarshal_members in E as (l & Hl & Hs). exists l. split; [done|]. rewrite set_entity in Hs. simpl in Hs.
    rewrite !has_string_iff by name_small. rewrite has_map_iff by name_small. rewrite G1, G2, G3.
    repeat (case_match; [|done]). injection Hs as <-. eauto.
  - destruct (json_unmarshal resource_fields b resource_zero) as [s| |] eqn:E; try done. cbn [rbind] in H.
    destruct (to_resource io n w s) as (e & w' & Es & G1 & G2 & G3 & G4 & G5 & G6 & G7 & G8 & _). rewrite Es in H. injection H as -> ->.
    apply unmarshal_members in E as (l & Hl & Hs). exists l. split; [done|]. rewrite G1, G2, G3, G4, G5, G6, G7, G8.
    apply resource_of_iff. destruct s as [[] ? ? ? ? ?]. eauto.
  - destruct (json_unmarshal object_fields b object_zero) as [s| |] eqn:E; try done. cbn [rbind] in H.
    destruct (to_object io n w s) as (e & w' & Es & G1 & G2 & G3 & G4 & G5 & _ & _ & _ & G6). rewrite Es in H. injection H as -> ->.
    apply unmarshal_members in E as (l & Hl & Hs). rewrite set_object in Hs. simpl in Hs.
    destruct (rs (hits "uid" l) "") as [u|] eqn:E1; [|done]. destruct (rs (hits "type" l) "") as [t|] eqn:E2; [|done].
    destruct (rm (hits "attrs" l) None) as [a|] eqn:E3; [|done]. destruct (rs (hits "name" l) "") as [nm|] eqn:E4; [|done].
    destruct (rs (hits "namespace" l) "") as [ns|] eqn:E5; [|done]. destruct (rr (hits "resource" l) None) as [r|] eqn:E6; [|done].
    injection Hs as <-. apply resource_field_iff in E6 as (ro & Hro & Hor).
    exists l, (hits "resource" l), ro. split; [done|]. rewrite !has_string_iff by name_small. rewrite has_map_iff by name_small.
    rewrite G1, G2, G3, G4, G5. do 2 (split; [done|]). split; [eauto|]. do 2 (split; [done|]).
    split; [apply given_iff; [name_small|done]|]. split; [done|].
    cbn [so_resource] in G6. destruct r as [r|].
    + destruct G6 as (r' & -> & _ & F1 & F2 & F3 & F4 & F5 & F6 & F7 & F8 & _). destruct ro as [rl|]; [|done].
      rewrite F1, F2, F3, F4, F5, F6, F7, F8. apply resource_of_iff. destruct r as [[] ? ? ? ? ?]. eauto.
    + destruct G6 as [-> _]. by destruct ro.
  - destruct (json_unmarshal link_fields b link_zero) as [s| |] eqn:E; try done. cbn [rbind] in H.
    destruct (to_link io n w s) as (e & w' & Es & G1 & G2 & G3 & G4 & _). rewrite Es in H. injection H as -> ->.
    apply unmarshal_members in E as (l & Hl & Hs). exists l. split; [done|]. rewrite set_link in Hs. simpl in Hs.
    rewrite !has_string_iff by name_small. rewrite has_map_iff by name_small. rewrite G1, G2, G3, G4.
    repeat (case_match; [|done]). injection Hs as <-. do 3 (split; [done|]). eauto.
Qed.
Print Assumptions c93_content.
(** the relations give at most one result, so this is the only one *)
Theorem c93_functional :
  (forall b l l', text_members b l -> text_members b l' -> l = l') /\
  (forall l n vs vs', given n l vs -> given n l vs' -> vs = vs') /\
  (forall vs s s', string_field vs s -> string_field vs s' -> s = s') /\
  (forall vs s s', bool_field vs s -> bool_field vs s' -> s = s') /\
  (forall vs s s', map_field vs s -> map_field vs s' -> s = s').
Proof.
  split; [|split; [|split; [|split]]].
  - intros b l l' H H'. destruct c92_grammar as (HG & _). unfold text_members in *.
    destruct H as [H|[H ->]], H' as [H'|[H' ->]]; pose proof (HG _ _ _ H H') as E; congruence.
  - intros l n vs vs' H. revert vs'. induction H as [|k v l vs Hk _ IH|k v l vs Hk _ IH]; intros vs' H'; inversion H'; subst; try done.
    + f_equal. auto. + auto.
  - intros vs s s' H H'. apply string_field_iff in H, H'. congruence.
  - intros vs s s' H H'. apply bool_field_iff in H, H'. congruence.
  - intros vs s s' H H'. apply map_field_iff in H as (a & H & <-), H' as (a' & H' & <-). congruence.
Qed.
Print Assumptions c93_functional.

(** A text with blanks, escapes, a surrogate pair, an unknown member, keys in
    another case and a repeated member. *)
Definition ex_text : string :=
  " { ""UID"" : ""\u0061b\ud83d\ude00"" , ""x"":[1.50e+3,-0,{}], ""Type"":null,""type"":""t"",""uid"":null,""attr" ++
  String (ascii_of_N 197) (String (ascii_of_N 191) """:{""k"":null}}").
Example c92_example :
  json_unmarshal entity_fields ex_text entity_zero =
    Ok (SerEntity (of_bytes (utf8 97 ++ utf8 98 ++ utf8 128512)) "t" (Some {["k" := ""]})) /\
  parse (to_bytes "01") = None /\ parse (to_bytes "1.") = None /\ parse (to_bytes "1e") = None /\
  parse (to_bytes "{} {}") = None /\ parse (to_bytes "[1,]") = None /\ parse (to_bytes """\u12g4""") = None /\
  parse (to_bytes """\ud83d""") = Some (JStr (utf8 65533)) /\ parse (to_bytes """\ud83d\ud83d\ude00""") = Some (JStr (utf8 65533 ++ utf8 128512)).
Proof. repeat split; by vm_compute. Qed.
Example c93_example : names (to_bytes "attr" ++ utf8 383) (to_bytes "attrs") /\ ~ names (to_bytes "attr") (to_bytes "attrs") /\
  names (utf8 8490 ++ to_bytes "InD") (to_bytes "kind").
Proof.
  rewrite !names_fold by name_small. repeat split; try by vm_compute.
Qed.
