(** Ingester, digester, handlers, runner and message types: pkg/broker/ingester,
    pkg/broker/digester, pkg/broker/handlers, pkg/broker/type.go, runner.go.

    Brokers, subscribers, handlers, scrapers and standard output are given by the
    caller: each is a function on a state of any type [S], so that all
    implementations are covered, and one call after the other is visible as the
    order in which the state is passed on.  A context is a number, as in
    Model/Broker.v; the modelled functions only hand it on. *)
From Verif.Model Require Export Marshal Broker.

(** broker.Type, pkg/broker/type.go:6-19, an int *)
Definition type_entity : Z := 0.
Definition type_object : Z := 1.
Definition type_resource : Z := 2.
Definition type_link : Z := 3.
Definition type_unknown : Z := 4.
(** Type.String, pkg/broker/type.go:30-43 *)
Definition type_string (t : Z) : string :=
  if (t =? type_entity)%Z then "Entity"
  else if (t =? type_resource)%Z then "Resource"
  else if (t =? type_link)%Z then "Link"
  else if (t =? type_object)%Z then "Object"
  else "Unknown".

(** ** Interfaces *)
(** broker.Handler, pkg/broker/broker.go:22 *)
Notation handler S := (nat -> message -> S -> res unit * S).
(** Broker.Pub and Subscriber.Receive, broker.go:8, :33 *)
Notation pubI S := (nat -> string -> message -> list broker_option -> S -> res unit * S).
Notation recvI S := (nat -> handler S -> list broker_option -> S -> res unit * S).
(** Write of os.Stdout: number of bytes, error *)
Notation writer S := (string -> S -> (nat * option N) * S).

(** Data to ingest, an interface{}: its methods, and what encoding/json makes of a
    value of its type. *)
Record datum := Datum { da_dyn : dyn; da_json : res string }.
(** broker.Marshaler, pkg/broker/marshal.go:4-7 *)
Notation marshaler := (datum -> res string).
(** broker.Unmarshaler, marshal.go:10-13, is stored in options only: a number *)

(** ** Ingester *)
(** ingester.Options, pkg/broker/ingester/options.go:6-18 *)
Record ing_opts := IngOpts { io_marshaler : option marshaler }.
Definition ing_opts_zero : ing_opts := IngOpts None.
Notation ing_option := (ing_opts -> ing_opts).
Definition ing_with_marshaler (m : option marshaler) : ing_option := fun _ => IngOpts m.
(** Ingester and NewIngester, pkg/broker/ingester/simple/ingester.go:12-26 *)
Record ingester := Ingester { in_opts : ing_opts }.
Definition new_ingester (opts : list ing_option) : ingester := Ingester (apply_opts ing_opts_zero opts).

(** What Ingest does in the end: return, or call Pub of its broker and return what
    that returns. *)
Inductive ingested :=
| IReturn (r : res unit)
| IPub (ctx : nat) (topic : string) (m : message) (opts : list broker_option).
(** Ingest, ingester.go:29-56 *)
Definition ingest (i : ingester) (ctx : nat) (topic : string) (typ : Z) (data : datum)
    (opts : list ing_option) : ingested :=
  let o := apply_opts ing_opts_zero opts in
  let b := match io_marshaler o with None => da_json data | Some m => m data end in
  match b with
  | Ok b => IPub ctx topic (Message "" typ b ∅) []
  | Err e => IReturn (Err e)
  | Panic p => IReturn (Panic p)
  end.
(** with a broker; Pub of a nil Broker panics *)
Definition ingest_with {S} (b : option (pubI S)) (x : ingested) (s : S) : res unit * S :=
  match x, b with
  | IReturn r, _ => (r, s)
  | IPub ctx topic m opts, Some pub => pub ctx topic m opts s
  | IPub _ _ _ _, None => (Panic PNilDeref, s)
  end.

(** json.Marshal of *entity.Entity, *entity.Resource, *entity.Object and *link.Link:
    structs without exported fields and without MarshalJSON or MarshalText
    (entity.go:16-21, resource.go:14-24, object.go:14-22, link.go:12-17), so no
    member is written. *)
Definition struct_json : res string := Ok (json_marshal []).
Definition datum_of_entity (io : iter_order) (n : site) (w : world) (e : entity) : datum :=
  Datum (dyn_of_entity (entity_iface io n w e)) struct_json.
Definition datum_of_resource (io : iter_order) (n : site) (w : world) (r : resource) : datum :=
  Datum (dyn_of_resource (resource_iface io n w r)) struct_json.
Definition datum_of_object (io : iter_order) (n : site) (w : world) (o : object) : datum :=
  Datum (dyn_of_object (object_iface io n w o)) struct_json.
Definition datum_of_link (io : iter_order) (n : site) (w : world) (l : link) : datum :=
  Datum (dyn_of_link (link_iface io n w l)) struct_json.
(** the Marshaler of pkg/space/marshal/json *)
Definition json_marshaler (io : iter_order) (n : site) : marshaler := fun d => marshal io n (da_dyn d).

(** ** Handlers *)
(** DumpData, pkg/broker/handlers/handlers.go:13-18.  io.Copy from a *bytes.Reader
    calls its WriteTo: no Write if there is nothing to write, else one; a count
    other than the length without an error is io.ErrShortWrite (os.File never
    reports more than it was given).  [short] is the code of io.ErrShortWrite. *)
Definition dump_data {S} (short : N) (write : writer S) : handler S := fun ctx m s =>
  if (String.length (msg_data m) =? 0)%nat then (Ok tt, s)
  else
    let '((k, e), s) := write (msg_data m) s in
    match e with
    | Some e => (Err (EForeign e), s)
    | None => if (k =? String.length (msg_data m))%nat then (Ok tt, s) else (Err (EForeign short), s)
    end.

(** ** Digester *)
(** digester.Options, pkg/broker/digester/options.go:6-26 *)
Record dig_opts S := DigOpts { do_handler : option (handler S); do_unmarshaler : option N }.
Arguments DigOpts {S} _ _. Arguments do_handler {S} _. Arguments do_unmarshaler {S} _.
Definition dig_opts_zero {S} : dig_opts S := DigOpts None None.
Notation dig_option S := (dig_opts S -> dig_opts S).
Definition dig_with_handler {S} (h : option (handler S)) : dig_option S := fun o => DigOpts h (do_unmarshaler o).
Definition dig_with_marshaler {S} (u : option N) : dig_option S := fun o => DigOpts (do_handler o) u.
(** Digester and NewDigester, pkg/broker/digester/simple/digester.go:12-26 *)
Record digester S := Digester { dg_opts : dig_opts S }.
Arguments Digester {S} _. Arguments dg_opts {S} _.
Definition new_digester {S} (opts : list (dig_option S)) : digester S := Digester (apply_opts dig_opts_zero opts).
(** handle, digester.go:29-35: the first [n] rounds of the loop; None: not over yet *)
Fixpoint handle_loop {S} (n : nat) (sub : recvI S) (ctx : nat) (h : handler S) (s : S) : option (res unit) * S :=
  match n with
  | 0 => (None, s)
  | Datatypes.S n =>
      match sub ctx h [] s with
      | (Ok _, s) => handle_loop n sub ctx h s
      | (r, s) => (Some r, s)
      end
  end.
(** Digest, digester.go:39-51 *)
Definition digest {S} (n : nat) (short : N) (stdout : writer S) (d : digester S) (ctx : nat) (sub : recvI S)
    (opts : list (dig_option S)) (s : S) : option (res unit) * S :=
  let o := apply_opts dig_opts_zero opts in
  let h := match do_handler o with None => dump_data short stdout | Some h => h end in
  handle_loop n sub ctx h s.

(** ** Runner *)
(** netscrape.Options, options.go:9-37; interface values as numbers, nil as None *)
Record net_opts := NetOpts { no_store : option N; no_broker : option N; no_marshaler : option N }.
Definition net_opts_zero : net_opts := NetOpts None None None.
Notation net_option := (net_opts -> net_opts).
Definition net_with_store (x : option N) : net_option := fun o => NetOpts x (no_broker o) (no_marshaler o).
Definition net_with_broker (x : option N) : net_option := fun o => NetOpts (no_store o) x (no_marshaler o).
Definition net_with_marshaler (x : option N) : net_option := fun o => NetOpts (no_store o) (no_broker o) x.
(** Scraper, scraper.go:10-13; a plan is a number, nil None *)
Notation scraperI S := (nat -> option N -> list net_option -> S -> res unit * S).
(** Runner, NewRunner and Run, runner.go:10-34; Scrape of a nil Scraper panics *)
Record runner := Runner { rn_opts : net_opts }.
Definition new_runner (opts : list net_option) : runner := Runner (apply_opts net_opts_zero opts).
Definition run {S} (r : runner) (ctx : nat) (p : option N) (sc : option (scraperI S)) (opts : list net_option)
    (s : S) : res unit * S :=
  let o := apply_opts net_opts_zero opts in
  match sc with
  | Some scrape => scrape ctx p [net_with_broker (no_broker o)] s
  | None => (Panic PNilDeref, s)
  end.
