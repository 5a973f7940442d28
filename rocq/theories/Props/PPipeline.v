(** Ingester, digester, runner and message types: C61 to C64 and C82 to C88. *)
From Verif.Model Require Import Pipeline.
From Verif.Spec Require Import PipelineSpec.
From Verif.Proof Require Import OptionsP JsonP JsonP2 MarshalP MarshalP2 MarshalP3 BrokerP BrokerP2 BrokerP3 BrokerP4 BrokerP5.
From Verif.Props Require Import PMarshal PMarshal2 PBroker.

(** C41 for the options of the pipeline *)
Theorem c41_pipeline_options :
  (forall l, apply_opts broker_opts_zero (broker_den <$> l) =
     BrokerOpts (default 0%Z (last_set broker_cap_of l)) (default 0%Z (last_set broker_sink_of l))
                (default 0%Z (last_set broker_pub_of l)) (default 0%Z (last_set broker_recv_of l))) /\
  (forall l, apply_opts ing_opts_zero (ing_den <$> l) = IngOpts (default None (last_set ing_marshaler_of l))) /\
  (forall St (l : list (dig_syn St)), apply_opts dig_opts_zero (dig_den <$> l) =
     DigOpts (default None (last_set dig_handler_of l)) (default None (last_set dig_unmarshaler_of l))) /\
  (forall l, apply_opts net_opts_zero (net_den <$> l) =
     NetOpts (default None (last_set net_store_of l)) (default None (last_set net_broker_of l))
             (default None (last_set net_marshaler_of l))).
Proof. split; [opts_tac|]. split; [opts_tac|]. split; [|opts_tac]. intros St. opts_tac. Qed.
Print Assumptions c41_pipeline_options.
Example c41_pipeline_case :
  apply_opts broker_opts_zero (broker_den <$> [BCap 3; BPub 7; BCap 5; BSink 1]) = BrokerOpts 5 1 7 0.
Proof. done. Qed.

(** C61.  For every broker, marshaler and datum: if the marshaler (encoding/json
    when the last marshaler option is nil or there is none) gives a text, Pub is
    called once, with the context, topic, type and text and nothing else set, and
    its result returned; otherwise the broker is not touched and the error is
    returned. *)
Theorem c61_ingest : forall St (pub : pubI St) i ctx t typ d l s,
  let b := match default None (last_set ing_marshaler_of l) with Some m => m d | None => da_json d end in
  let r := ingest_with (Some pub) (ingest i ctx t typ d (ing_den <$> l)) s in
  (forall x, b = Ok x -> r = pub ctx t (Message "" typ x ∅) [] s) /\
  (forall e, b = Err e -> r = (Err e, s)) /\ (forall p, b = Panic p -> r = (Panic p, s)).
Proof.
  intros St pub i ctx t typ d l s b r. subst r b. unfold ingest.
  destruct c41_pipeline_options as (_ & H & _). rewrite H. cbn [io_marshaler].
  destruct (default None (last_set ing_marshaler_of l)) as [m|].
  - destruct (m d); naive_solver.
  - destruct (da_json d); naive_solver.
Qed.
Print Assumptions c61_ingest.
(** a broker that records what is published *)
Definition recorder : pubI (list (nat * string * message)) := fun ctx t m opts s => (Ok tt, s ++ [(ctx, t, m)]).
Example c61_case :
  let d := Datum no_methods (Ok "[1]"%string) in
  let up : marshaler := fun _ => Ok "x"%string in
  let bad : marshaler := fun _ => Err (EForeign 3) in
  ingest_with (Some recorder) (ingest (new_ingester []) 1 "t" 2 d []) [] = (Ok tt, [(1, "t", Message "" 2 "[1]" ∅)])%string /\
  ingest_with (Some recorder) (ingest (new_ingester []) 1 "t" 2 d [ing_with_marshaler (Some up)]) []
    = (Ok tt, [(1, "t", Message "" 2 "x" ∅)])%string /\
  ingest_with (Some recorder) (ingest (new_ingester []) 1 "t" 2 d [ing_with_marshaler (Some bad)]) [] = (Err (EForeign 3), []).
Proof. done. Qed.

(** ** C62 *)
(** options given to the constructor work like options given to the call *)
Definition c62_ingester_claim : Prop := forall l ctx t typ d,
  ingest (new_ingester (ing_den <$> l)) ctx t typ d [] = ingest (new_ingester []) ctx t typ d (ing_den <$> l).
Definition c62_digester_claim : Prop := forall St n short out (l : list (dig_syn St)) ctx sub s,
  digest n short out (new_digester (dig_den <$> l)) ctx sub [] s = digest n short out (new_digester []) ctx sub (dig_den <$> l) s.
Definition c62_runner_claim : Prop := forall St l ctx p (sc : scraperI St) s,
  run (new_runner (net_den <$> l)) ctx p (Some sc) [] s = run (new_runner []) ctx p (Some sc) (net_den <$> l) s.
Definition asked (o : option N) : scraperI (option N) := fun ctx p opts s => (Ok tt, no_broker (apply_opts net_opts_zero opts)).
Theorem c62_constructor_options_refuted : ~ c62_ingester_claim /\ ~ c62_digester_claim /\ ~ c62_runner_claim.
Proof.
  split; [|split].
  - intros H. pose proof (H [IMarshaler (Some (fun _ => Ok "x"%string))] 0 "t"%string 0%Z (Datum no_methods (Ok "y"%string))) as E.
    done.
  - intros H. set (h := (fun _ _ s => (Err (EForeign 1), s)) : handler (list message * string * nat)).
    pose proof (H _ 2 9%N good_stdout [DHandler (Some h)] 0 (listed_sub BrokerErrTimeout)
      ([Message "" 0 "a" ∅], ""%string, 0)) as E. done.
  - intros H. pose proof (H _ [NBroker (Some 5%N)] 0 None (asked None) None) as E. done.
Qed.
Print Assumptions c62_constructor_options_refuted.
(** the constructor options have no effect at all; those of the call do: the last
    one of a kind wins *)
Theorem c62_call_options_partial :
  (forall i i' ctx t typ d l, ingest i ctx t typ d l = ingest i' ctx t typ d l) /\
  (forall St n short out (d d' : digester St) ctx sub l s, digest n short out d ctx sub l s = digest n short out d' ctx sub l s) /\
  (forall St r r' ctx p (sc : option (scraperI St)) l s, run r ctx p sc l s = run r' ctx p sc l s) /\
  (forall i ctx t typ d l m, last_set ing_marshaler_of l = Some (Some m) ->
     ingest i ctx t typ d (ing_den <$> l) = ingest i ctx t typ (Datum (da_dyn d) (m d)) []) /\
  (forall St n short out (d : digester St) ctx sub l s h, last_set dig_handler_of l = Some (Some h) ->
     digest n short out d ctx sub (dig_den <$> l) s = handle_loop n sub ctx h s).
Proof.
  do 3 (split; [done|]). split.
  - intros i ctx t typ d l m E. unfold ingest. destruct c41_pipeline_options as (_ & H & _). by rewrite H, E.
  - intros St n short out d ctx sub l s h E. unfold digest. destruct c41_pipeline_options as (_ & _ & H & _). by rewrite H, E.
Qed.
Print Assumptions c62_call_options_partial.

(** ** C63 *)
(** the scraper gets the options of the runner followed by those of Run *)
Definition c63_claim : Prop := forall St l l' ctx p (sc : scraperI St) s,
  (forall o1 o2, apply_opts net_opts_zero o1 = apply_opts net_opts_zero o2 -> forall s, sc ctx p o1 s = sc ctx p o2 s) ->
  run (new_runner (net_den <$> l)) ctx p (Some sc) (net_den <$> l') s = sc ctx p (net_den <$> (l ++ l')) s.
Definition asks (f : net_opts -> option N) : scraperI (option N) := fun ctx p opts s => (Ok tt, f (apply_opts net_opts_zero opts)).
Theorem c63_forward_refuted : ~ c63_claim /\
  (exists l, run (new_runner []) 0 None (Some (asks no_store)) (net_den <$> l) None <> asks no_store 0 None (net_den <$> l) None) /\
  (exists l, run (new_runner []) 0 None (Some (asks no_marshaler)) (net_den <$> l) None <> asks no_marshaler 0 None (net_den <$> l) None) /\
  (exists l, run (new_runner (net_den <$> l)) 0 None (Some (asks no_broker)) [] None <> asks no_broker 0 None (net_den <$> l) None).
Proof.
  split; [|split; [|split]].
  - intros H. pose proof (H _ [] [NStore (Some 1%N)] 0 None (asks no_store) None) as E.
    assert (run (new_runner []) 0 None (Some (asks no_store)) (net_den <$> [NStore (Some 1%N)]) None
      = asks no_store 0 None (net_den <$> [NStore (Some 1%N)]) None) by (apply E; intros o1 o2 Ho s; unfold asks; by rewrite Ho).
    done.
  - by exists [NStore (Some 1%N)].
  - by exists [NMarshaler (Some 1%N)].
  - by exists [NBroker (Some 1%N)].
Qed.
Print Assumptions c63_forward_refuted.
(** Scrape is called once, with the context and plan, and its result returned.  The
    options it gets set the broker, to that of the last WithBroker of Run or to nil,
    and leave everything else as it is. *)
Theorem c63_forward_partial : forall St r ctx p (sc : scraperI St) l s, exists opts,
  run r ctx p (Some sc) (net_den <$> l) s = sc ctx p opts s /\
  forall o, apply_opts o opts = NetOpts (no_store o) (default None (last_set net_broker_of l)) (no_marshaler o).
Proof.
  intros St r ctx p sc l s. eexists. split; [done|]. intros o. destruct c41_pipeline_options as (_ & _ & _ & H). by rewrite H.
Qed.
Print Assumptions c63_forward_partial.
Example c63_case : run (new_runner []) 4 (Some 2%N) (Some (asks no_broker)) (net_den <$> [NBroker (Some 1%N); NBroker (Some 5%N)]) None
  = (Ok tt, Some 5%N).
Proof. done. Qed.

(** ** C64 *)
Theorem c64_type_names :
  type_string type_entity = "Entity"%string /\ type_string type_object = "Object"%string /\
  type_string type_resource = "Resource"%string /\ type_string type_link = "Link"%string /\
  type_string type_unknown = "Unknown"%string /\
  (forall t, (t < 0 \/ 3 < t)%Z -> type_string t = "Unknown"%string) /\
  (forall t t', type_string t = type_string t' -> t = t' \/ type_string t = "Unknown"%string) /\
  (forall v, type_string (kind_type v) <> "Unknown"%string).
Proof.
  do 5 (split; [done|]). split; [|split].
  - intros t Ht. unfold type_string, type_entity, type_resource, type_link, type_object.
    do 4 (case_match; [lia|]). done.
  - intros t t'. unfold type_string, type_entity, type_resource, type_link, type_object.
    repeat case_match; intros E; try (by right); try discriminate E; left; lia.
  - by intros [].
Qed.
Print Assumptions c64_type_names.
Example c64_case : type_string (-1) = "Unknown"%string /\ type_string 2 = "Resource"%string.
Proof. done. Qed.

(** ** C82: DumpData *)
Theorem c82_dump : forall St short (w : writer St) ctx m s,
  (msg_data m = ""%string -> dump_data short w ctx m s = (Ok tt, s)) /\
  (msg_data m <> ""%string -> forall k e s', w (msg_data m) s = ((k, e), s') ->
     exists r, dump_data short w ctx m s = (r, s') /\
       (r = Ok tt <-> e = None /\ k = String.length (msg_data m)) /\
       (forall n, e = Some n -> r = Err (EForeign n)) /\
       (e = None -> k <> String.length (msg_data m) -> r = Err (EForeign short))).
Proof.
  intros St short w ctx m s. unfold dump_data. split.
  - by intros ->.
  - intros Hn k e s' E. destruct (Nat.eqb_spec (String.length (msg_data m)) 0) as [H0|_].
    { by destruct (msg_data m). }
    rewrite E. destruct e as [n|].
    + eexists. split; [done|]. split; [split; [done|by intros []]|]. split; [by intros n' [= ->]|done].
    + destruct (Nat.eqb_spec k (String.length (msg_data m))) as [->|Hk]; eexists; (split; [done|]).
      * split; [done|]. split; [done|]. by intros _ [].
      * split; [split; [done|by intros [_ ?]]|]. done.
Qed.
Print Assumptions c82_dump.
Lemma string_app_assoc (a b c : string) : ((a ++ b) ++ c = a ++ (b ++ c))%string.
Proof. induction a as [|x a IH]; [done|]. exact (f_equal (String x) IH). Qed.
Lemma string_app_nil (a : string) : (a ++ "" = a)%string.
Proof. induction a as [|x a IH]; [done|]. exact (f_equal (String x) IH). Qed.
(** Digest without handler prints the data of the messages one after the other, with
    one write for each that is not empty, until the subscriber fails *)
Theorem c82_digest_prints : forall short e (d : digester (list message * string * nat)) ctx ms out k n,
  length ms < n ->
  digest n short good_stdout d ctx (listed_sub e) [] (ms, out, k)
  = (Some (Err e), ([], (out ++ printed ms)%string,
       k + length (List.filter (fun m => negb (String.eqb (msg_data m) "")) ms))).
Proof.
  intros short e d ctx ms out k n. unfold digest. cbn [apply_opts fold_left do_handler dig_opts_zero].
  revert out k n. induction ms as [|m ms IH]; intros out k n Hn; (destruct n as [|n]; [simpl in Hn; lia|]).
  - cbn. by rewrite string_app_nil, Nat.add_0_r.
  - cbn [handle_loop]. unfold listed_sub at 1. unfold dump_data at 1.
    destruct (msg_data m) as [|a b] eqn:E.
    + cbn [String.length Nat.eqb]. rewrite IH by (simpl in Hn; lia). cbn [printed foldr List.filter]. rewrite E. done.
    + cbn [String.length Nat.eqb good_stdout]. rewrite Nat.eqb_refl.
      rewrite IH by (simpl in Hn; lia). cbn [printed foldr List.filter]. rewrite E. cbn [String.eqb negb length].
      rewrite string_app_assoc. by rewrite <- plus_n_Sm.
Qed.
Print Assumptions c82_digest_prints.
Example c82_case : digest 9 1 good_stdout (new_digester []) 0 (listed_sub BrokerErrTimeout) []
  ([Message "" 0 "ab" ∅; Message "" 3 "" ∅; Message "" 1 "c" ∅], ""%string, 0)
  = (Some (Err BrokerErrTimeout), ([], "abc"%string, 2)).
Proof. done. Qed.

(** ** C83: the type of a message *)
Definition c83_claim : Prop := forall i ctx t typ io n io' n' w v m o,
  ingest i ctx t typ (datum_of io n w v) [ing_with_marshaler (Some (json_marshaler io' n'))] = IPub ctx t m o ->
  msg_type m = kind_type v.
Theorem c83_type_is_kind_refuted : ~ c83_claim.
Proof.
  intros H. set (w := World ∅ 5 (fun _ => "u"%string) 0).
  pose proof (H (new_ingester []) 0 "t"%string type_link iter_id [] iter_id [] w (VEntity (Entity (UVal "e") "t" "e" 2%N)) _ _ eq_refl) as E.
  done.
Qed.
Print Assumptions c83_type_is_kind_refuted.
Theorem c83_type_as_given_partial : forall i ctx t typ d l ctx' t' m o,
  ingest i ctx t typ d l = IPub ctx' t' m o ->
  ctx' = ctx /\ t' = t /\ o = [] /\ msg_type m = typ /\ msg_uid m = ""%string /\ msg_attrs m = ∅.
Proof.
  intros i ctx t typ d l ctx' t' m o. unfold ingest.
  destruct (match io_marshaler _ with Some _ => _ | None => _ end); intros [= <- <- <- <-]. done.
Qed.
Print Assumptions c83_type_as_given_partial.

(** ** C84: Ingest without marshaler *)
Definition c84_claim : Prop := forall i ctx t io n w v, valid_value w v -> exists m,
  ingest i ctx t (kind_type v) (datum_of io n w v) [] = IPub ctx t m [] /\ decodes (msg_data m) w v.
Theorem c84_default_marshaler_refuted : ~ c84_claim.
Proof.
  intros H. set (w := World ∅ 5 (fun _ => "u"%string) 0).
  destruct (H (new_ingester []) 0 "t"%string iter_id [] w (VEntity (Entity (UVal "e") "t" "e" 2%N))) as (m & E & D).
  { split; [|split].
    - by apply ascii_valid.
    - by apply ascii_valid.
    - intros k x Hk. by vm_compute in Hk. }
  injection E as <-. destruct (D iter_id [] w) as (v' & w2 & E & Hs & _).
  destruct c79_accepted_partial as [_ HA].
  destruct (HA iter_id [] w "{}"%string) as ((e & w3 & E' & Hu & _) & _); [by right; vm_compute|].
  change (unmarshal iter_id [] w "{}" TEntity = Ok (v', w2)) in E. rewrite E' in E. injection E as <- <-.
  destruct Hs as (Hs & _). rewrite Hu in Hs. done.
Qed.
Print Assumptions c84_default_marshaler_refuted.
(** every value of the repository's types is published as {}, which reads as a value
    with empty UID, type and attributes *)
Theorem c84_nothing_published_partial : forall i ctx t typ io n w v,
  ingest i ctx t typ (datum_of io n w v) [] = IPub ctx t (Message "" typ "{}" ∅) [] /\
  forall io n w, exists e w2, unmarshal io n w "{}" TEntity = Ok (VEntity e, w2) /\
    uid_string (e_uid e) = ""%string /\ e_typ e = ""%string /\ attrs_map w2 (e_attrs e) = ∅.
Proof.
  intros i ctx t typ io n w v. split; [by destruct v|]. intros io' n' w'. destruct c79_accepted_partial as [_ HA].
  destruct (HA io' n' w' "{}"%string) as (H & _); [by right; vm_compute|]. done.
Qed.
Print Assumptions c84_nothing_published_partial.

(** ** C85: Run without a plan *)
Definition c85_claim : Prop := forall St r ctx (sc : scraperI St) l s, exists e, run r ctx None (Some sc) l s = (Err e, s).
Theorem c85_missing_plan_refuted : ~ c85_claim /\
  (forall St r ctx (sc : scraperI St) l s, exists opts, run r ctx None (Some sc) l s = sc ctx None opts s).
Proof.
  split.
  - intros H. destruct (H _ (new_runner []) 0 (asks no_store) [] None) as [e E]. done.
  - intros. eexists. done.
Qed.
Print Assumptions c85_missing_plan_refuted.

(** ** C86: from Ingest to a handler *)
Lemma decodes_marshal io n io' n' w v b : valid_value w v ->
  json_marshaler io' n' (datum_of io n w v) = Ok b -> decodes b w v.
Proof.
  intros V E io2 n2 w1. destruct (c43_json_roundtrip io' n' io n io2 n2 w w1) as (He & Hr & Ho & Hl).
  destruct v as [r|o|e|l]; unfold json_marshaler, datum_of in E; cbn [da_dyn datum_of_entity datum_of_resource datum_of_object datum_of_link] in E.
  - destruct (Hr r V) as (b' & x & w2 & E' & H1 & H2 & _ & _ & H3). assert (b' = b) as -> by congruence. exists (VResource x), w2. done.
  - destruct (Ho o V) as (b' & x & w2 & E' & H1 & H2 & _ & _ & H3). assert (b' = b) as -> by congruence. exists (VObject x), w2. done.
  - destruct (He e V) as (b' & x & w2 & E' & H1 & H2 & _ & _ & H3). assert (b' = b) as -> by congruence. exists (VEntity x), w2. done.
  - destruct (Hl l V) as (b' & x & w2 & E' & H1 & H2 & _ & _ & _ & _ & H3). assert (b' = b) as -> by congruence. exists (VLink x), w2. done.
Qed.
(** In every execution of the broker in which all messages are published by Ingest,
    with the JSON marshaler, of values with valid UTF-8 texts: the handlings can be
    assigned to different Ingest calls such that each is on the topic the handling
    subscriber subscribed to and the message decodes to the ingested value, with the
    type given. *)
Theorem c86_end_to_end : forall uuid opts ls cf es,
  bexec (broker_init uuid opts) ls = Some (cf, es) ->
  (forall j ctx t m o, ECall j (CPub ctx t m o) ∈ es -> exists typ w v, ingests es j t typ w v /\ valid_value w v) ->
  exists J, NoDup J /\
    Forall2 (fun h j => exists s ctx t typ w v, receives es h.1 s ctx /\ subscribed es s t /\
       ingests es j t typ w v /\ valid_value w v /\ msg_type h.2 = typ /\ decodes (msg_data h.2) w v)
      (handlings es) J.
Proof.
  intros uuid opts ls cf es H HI. destruct (c46_once _ _ _ _ _ H) as (_ & J & HJ & HF).
  destruct (c46_topics _ _ _ _ _ H) as (T & HT1 & HT2). destruct (exec_all _ _ _ _ _ H) as (B & _).
  exists J. split; [done|]. eapply Forall2_impl; [exact HF|]. intros [i m] j (c & Hs & Ht). simpl in *.
  destruct (HT1 _ _ _ Hs) as (ctx & t & o & Hp & Htc). destruct (HT2 _ _ _ Ht) as (s & ctx' & t' & Hr & Hsub & Htc').
  assert (t' = t) as -> by congruence. destruct (HI _ _ _ _ _ Hp) as (typ & w & v & Hg & V).
  exists s, ctx', t, typ, w, v. do 4 (split; [done|]).
  destruct Hg as (ig & io & n & io' & n' & ctx2 & m2 & o2 & Hp2 & E).
  assert (m2 = m) as ->.
  { apply (base_call _ _ B) in Hp as (_ & p & Hp). apply (base_call _ _ B) in Hp2 as (_ & p' & Hp2). congruence. }
  split; [by apply c83_type_as_given_partial in E as (_ & _ & _ & ? & _)|].
  unfold ingest in E. cbn [apply_opts fold_left ing_with_marshaler io_marshaler] in E.
  destruct (json_marshaler io' n' (datum_of io n w v)) as [b| |] eqn:Eb; [|done..]. injection E as <- _. simpl.
  by eapply decodes_marshal.
Qed.
Print Assumptions c86_end_to_end.
(** an entity and a link are ingested, and a Digest handles them *)
Definition e2e_w : world := World {[2%N := {["a" := "1"]}]} 5 (fun _ => "u"%string) 0.
Definition e2e_1 : stored := VEntity (Entity (UVal "e") "t" "e" 2%N).
Definition e2e_2 : stored := VLink (Link (UVal "l") (UVal "e") (UVal "f") 3%N).
Definition e2e_msg (v : stored) : message :=
  match ingest (new_ingester []) 2 "t" (kind_type v) (datum_of iter_id [] e2e_w v) [ing_with_marshaler (Some (json_marshaler iter_id []))] with
  | IPub _ _ m _ => m
  | IReturn _ => Message "" 9 "" ∅
  end.
Definition e2e_ls : list label :=
  open_steps 0 1 ++ sub_steps 2 "t" ++ pub_steps 3 2 "t" (e2e_msg e2e_1) ChSend ++ pub_steps 4 2 "t" (e2e_msg e2e_2) ChSend ++
  [LCall (CDigest 3 0); LStep 5 ChGo; LStep 5 ChRecv; LStep 5 (ChHandler None); LStep 5 ChGo; LStep 5 ChRecv].
Definition e2e_es : list event :=
  [ECall 0 (COpen 1); EAct 0 AOpened; ERet 0 (Ok None); ECall 2 (CSub "t"); ERet 2 (Ok (Some 0));
   ECall 3 (CPub 2 "t" (e2e_msg e2e_1) []); EAct 3 (ASend 2 (e2e_msg e2e_1)); ERet 3 (Ok None);
   ECall 4 (CPub 2 "t" (e2e_msg e2e_2) []); EAct 4 (ASend 2 (e2e_msg e2e_2)); ERet 4 (Ok None);
   ECall 5 (CDigest 3 0);
   EAct 5 (ATake 2 (e2e_msg e2e_1)); EAct 5 (AHandle (e2e_msg e2e_1)); EAct 5 (AHandled None);
   EAct 5 (ATake 2 (e2e_msg e2e_2)); EAct 5 (AHandle (e2e_msg e2e_2))].
Example c86_case :
  events_of demo_opts e2e_ls = Some e2e_es /\ handlings e2e_es = [(5, e2e_msg e2e_1); (5, e2e_msg e2e_2)] /\
  msg_data (e2e_msg e2e_1) = "{""uid"":""e"",""type"":""t"",""attrs"":{""a"":""1""}}"%string /\
  msg_data (e2e_msg e2e_2) = "{""uid"":""l"",""from"":""e"",""to"":""f""}"%string /\
  valid_value e2e_w e2e_1 /\ valid_value e2e_w e2e_2 /\
  (forall j ctx t m o, ECall j (CPub ctx t m o) ∈ e2e_es ->
     exists typ v, ingests e2e_es j t typ e2e_w v /\ valid_value e2e_w v).
Proof.
  assert (V1 : valid_value e2e_w e2e_1).
  { split; [by apply ascii_valid|]. split; [by apply ascii_valid|].
    change (attrs_map e2e_w 2%N) with ({["a" := "1"]} : amap).
    apply map_Forall_singleton. split; by apply ascii_valid. }
  assert (V2 : valid_value e2e_w e2e_2).
  { do 3 (split; [by apply ascii_valid|]). intros k x Hk. by vm_compute in Hk. }
  split; [vm_compute; reflexivity|]. do 3 (split; [vm_compute; reflexivity|]). split; [done|]. split; [done|].
  intros j ctx t m o Hj. unfold e2e_es in Hj. rewrite !elem_of_cons, elem_of_nil in Hj.
  destruct_or!; try done; injection Hj as -> -> -> -> ->.
  - exists 0%Z, e2e_1. split; [|done]. exists (new_ingester []), iter_id, [], iter_id, [], 2, (e2e_msg e2e_1), [].
    split; [unfold e2e_es; set_solver|done].
  - exists 3%Z, e2e_2. split; [|done]. exists (new_ingester []), iter_id, [], iter_id, [], 2, (e2e_msg e2e_2), [].
    split; [unfold e2e_es; set_solver|done].
Qed.

(** ** C87: Digest on any subscriber *)
Lemma handle_loop_rounds {St} (sub : recvI St) ctx h n s r s' :
  handle_loop n sub ctx h s = (r, s') <->
  match r with
  | None => rounds sub ctx h n s s'
  | Some r => (forall u, r <> Ok u) /\ exists k s1, k < n /\ rounds sub ctx h k s s1 /\ sub ctx h [] s1 = (r, s')
  end.
Proof.
  revert s. induction n as [|n IH]; intros s; cbn [handle_loop].
  - split.
    + intros [= <- <-]. constructor.
    + destruct r as [r|]; [intros (_ & k & s1 & Hk & _); lia|]. by inversion 1.
  - destruct (sub ctx h [] s) as [[u|e|p] s1] eqn:E.
    + rewrite IH. destruct u. destruct r as [r|].
      * split; intros [Hr (k & s2 & Hk & H1 & H2)]; (split; [done|]).
        -- exists (S k), s2. split; [lia|]. split; [by econstructor|done].
        -- destruct H1 as [|k s3 s4 s5 H3 H4]; [destruct (Hr tt); congruence|].
           assert (s4 = s1) as -> by congruence. exists k, s5. split; [lia|]. done.
      * split; [by econstructor|]. inversion 1; congruence.
    + split.
      * intros [= <- <-]. split; [done|]. exists 0, s. split; [lia|]. split; [constructor|done].
      * destruct r as [r|].
        -- intros (Hr & k & s2 & Hk & H1 & H2). destruct H1; congruence.
        -- inversion 1; congruence.
    + split.
      * intros [= <- <-]. split; [done|]. exists 0, s. split; [lia|]. split; [constructor|done].
      * destruct r as [r|].
        -- intros (Hr & k & s2 & Hk & H1 & H2). destruct H1; congruence.
        -- inversion 1; congruence.
Qed.
(** Digest calls Receive, with its context, its handler and no options, until a call
    fails, and returns that error; it never returns nil.  The handler is that of the
    last WithHandler, or DumpData if there is none or it is nil. *)
Theorem c87_digest : forall St n short out (d : digester St) ctx sub l s r s',
  let h := match default None (last_set dig_handler_of l) with Some h => h | None => dump_data short out end in
  digest n short out d ctx sub (dig_den <$> l) s = (r, s') <->
  match r with
  | None => rounds sub ctx h n s s'
  | Some r => (forall u, r <> Ok u) /\ exists k s1, k < n /\ rounds sub ctx h k s s1 /\ sub ctx h [] s1 = (r, s')
  end.
Proof.
  intros St n short out d ctx sub l s r s' h. rewrite <- handle_loop_rounds. unfold digest.
  destruct c41_pipeline_options as (_ & _ & H & _). rewrite H. done.
Qed.
Print Assumptions c87_digest.
(** never nil, whatever the number of rounds *)
Corollary c87_never_nil : forall St n short out (d : digester St) ctx sub opts s u s',
  digest n short out d ctx sub opts s <> (Some (Ok u), s').
Proof. intros St n short out d ctx sub opts s u s' E. unfold digest in E. apply handle_loop_rounds in E as [E _]. by apply (E u). Qed.
Print Assumptions c87_never_nil.
Example c87_case :
  let h : handler (list message * string * nat) := fun _ m s => (if String.eqb (msg_data m) "stop" then Err (EForeign 4) else Ok tt, s) in
  digest 9 1 good_stdout (new_digester []) 0 (listed_sub BrokerErrTimeout) (dig_den <$> [DHandler None; DHandler (Some h)])
    ([Message "" 0 "a" ∅; Message "" 0 "stop" ∅; Message "" 1 "c" ∅], ""%string, 0)
  = (Some (Err (EForeign 4)), ([Message "" 1 "c" ∅], ""%string, 0)).
Proof. done. Qed.

(** ** C88: the unmarshaler of Digest *)
Definition c88_claim : Prop := exists St n short out (d d' : digester St) ctx sub l l' s,
  last_set dig_handler_of l = last_set dig_handler_of l' /\
  digest n short out d ctx sub (dig_den <$> l) s <> digest n short out d' ctx sub (dig_den <$> l') s.
(** no unmarshaler, neither of the constructor nor of the call, changes anything *)
Theorem c88_unmarshaler_used_refuted : ~ c88_claim.
Proof.
  intros (St & n & short & out & d & d' & ctx & sub & l & l' & s & E & Hn). apply Hn. unfold digest.
  destruct c41_pipeline_options as (_ & _ & H & _). by rewrite !H, E.
Qed.
Print Assumptions c88_unmarshaler_used_refuted.
