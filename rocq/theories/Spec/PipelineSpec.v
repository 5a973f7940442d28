(** Options of the pipeline as data, space values with their kind, and what an
    execution of the broker got from Ingest. *)
From Verif.Model Require Import Pipeline.
From Verif.Spec Require Export OptionsSpec BrokerSpec MarshalSpec.

(** ingester.Option, digester.Option, netscrape.Option *)
Inductive ing_syn := IMarshaler (m : option marshaler).
Definition ing_den (s : ing_syn) : ing_option := match s with IMarshaler m => ing_with_marshaler m end.
Definition ing_marshaler_of s := match s with IMarshaler m => Some m end.
Inductive dig_syn (St : Type) := DHandler (h : option (handler St)) | DUnmarshaler (u : option N).
Arguments DHandler {St} _. Arguments DUnmarshaler {St} _.
Definition dig_den {St} (s : dig_syn St) : dig_option St :=
  match s with DHandler h => dig_with_handler h | DUnmarshaler u => dig_with_marshaler u end.
Definition dig_handler_of {St} (s : dig_syn St) := match s with DHandler h => Some h | _ => None end.
Definition dig_unmarshaler_of {St} (s : dig_syn St) := match s with DUnmarshaler u => Some u | _ => None end.
Inductive net_syn := NStore (x : option N) | NBroker (x : option N) | NMarshaler (x : option N).
Definition net_den (s : net_syn) : net_option :=
  match s with NStore x => net_with_store x | NBroker x => net_with_broker x | NMarshaler x => net_with_marshaler x end.
Definition net_store_of s := match s with NStore x => Some x | _ => None end.
Definition net_broker_of s := match s with NBroker x => Some x | _ => None end.
Definition net_marshaler_of s := match s with NMarshaler x => Some x | _ => None end.
Definition broker_sink_of s := match s with BSink c => Some c | _ => None end.

(** Space values of the four kinds: the number of the kind in broker.Type
    (Entity, Object, Resource, Link from 0), the type to unmarshal into, validity
    and equality of content. *)
Definition kind_type (v : stored) : Z :=
  match v with VEntity _ => 0 | VObject _ => 1 | VResource _ => 2 | VLink _ => 3 end.
Definition kind_target (v : stored) : target :=
  match v with VEntity _ => TEntity | VObject _ => TObject | VResource _ => TResource | VLink _ => TLink end.
Definition datum_of (io : iter_order) (n : site) (w : world) (v : stored) : datum :=
  match v with
  | VEntity e => datum_of_entity io n w e
  | VResource r => datum_of_resource io n w r
  | VObject o => datum_of_object io n w o
  | VLink l => datum_of_link io n w l
  end.
Definition valid_value (w : world) (v : stored) : Prop :=
  match v with
  | VEntity e => valid_entity w e | VResource r => valid_resource w r
  | VObject o => valid_object w o | VLink l => valid_link w l
  end.
Definition same_value (w : world) (v : stored) (w' : world) (v' : stored) : Prop :=
  match v, v' with
  | VEntity e, VEntity e' => same_entity w e w' e'
  | VResource e, VResource e' => same_resource w e w' e'
  | VObject e, VObject e' => same_object w e w' e'
  | VLink e, VLink e' => same_link w e w' e'
  | _, _ => False
  end.
(** the text can be read back, anywhere and at any time, as v was in w *)
Definition decodes (b : string) (w : world) (v : stored) : Prop :=
  forall io n w1, exists v' w2, unmarshal io n w1 b (kind_target v) = Ok (v', w2) /\
    same_value w v w2 v' /\ world_grown w1 w2.

(** call j of the execution is the Pub made by an Ingest of v, in world w, with the
    JSON marshaler, on topic t *)
Definition ingests (es : list event) (j : nat) (t : string) (typ : Z) (w : world) (v : stored) : Prop :=
  exists i io n io' n' ctx m o, ECall j (CPub ctx t m o) ∈ es /\
    ingest i ctx t typ (datum_of io n w v) [ing_with_marshaler (Some (json_marshaler io' n'))] = IPub ctx t m o.

(** ** Rounds of Digest *)
(** [rounds sub ctx h n s s']: n calls of Receive one after the other succeed *)
Inductive rounds {St} (sub : recvI St) (ctx : nat) (h : handler St) : nat -> St -> St -> Prop :=
| rounds_none s : rounds sub ctx h 0 s s
| rounds_more n s s1 s2 : sub ctx h [] s = (Ok tt, s1) -> rounds sub ctx h n s1 s2 -> rounds sub ctx h (S n) s s2.

(** a subscriber with the given messages waiting, in state (messages, printed
    text, number of writes); error [e] when there is none left *)
Definition listed_sub (e : goerr) : recvI (list message * string * nat) := fun ctx h opts s =>
  match s with
  | ([], out, k) => (Err e, s)
  | (m :: ms, out, k) => h ctx m (ms, out, k)
  end.
(** a standard output that takes everything *)
Definition good_stdout : writer (list message * string * nat) := fun x s =>
  let '(ms, out, k) := s in ((String.length x, None), (ms, (out ++ x)%string, S k)).
Definition printed (ms : list message) : string := foldr (fun m out => (msg_data m ++ out)%string) ""%string ms.
