# Formal model of netscrape: design

Source: /repo (Go, the pinned commit). Model and proofs: rocq/theories (Coq 8.16.1 with
std++). Nothing in /repo is built or run; what ties the model to the code is the citation
(file and lines) in the comment above every model definition.

Build: `cd rocq && coq_makefile -f _CoqProject -o Makefile && make -j4` (about 10 minutes
on four cores).

## Layout

| directory | content |
|---|---|
| `Model/` | executable Gallina model, no proofs |
| `Spec/`  | small specifications, written without the helpers of the model where possible: finite maps, relations, distance by paths, predicates on traces, syntactic options, the JSON grammar |
| `Proof/` | lemmas and invariants |
| `Props/` | the theorems of the properties (`cNN_…`), each followed by `Print Assumptions` and an `Example` that shows a concrete case meeting the hypotheses |

Naming: a theorem `…_refuted` states that the property as given in properties.jsonl is
false of the code, with a witness; `…_partial` is a weaker statement that holds. A property
with a `_refuted` theorem has the status "partial" in MANIFEST.json, with a note that begins
with REFUTED. A "partial" property is thus not an unfinished one: the full statement is
false, and the `_partial` theorems say what is true instead, mostly the exact behaviour.

seeded/LOG.jsonl lists the wrong programs the theorems were tested with.

## What is modelled

| Model file | code |
|---|---|
| `Go.v` | results (`Ok`, `Err`, `Panic`), errors of all packages, functional options, UIDs (pkg/uuid), map iteration, the uuid stream |
| `Attrs.v` | pkg/attrs, pkg/attrs/memory |
| `Entity.v` | pkg/space, pkg/space/entity, pkg/space/link |
| `Plan.v` | pkg/plan, pkg/plan/simple |
| `Cache.v` | pkg/cache, pkg/cache/memory |
| `Gonum.v` | gonum's simple.WeightedDirectedGraph, WeightedUndirectedGraph, uid.Set, traverse.BreadthFirst; nodes and edges of pkg/graph/memory |
| `Graph.v` | pkg/graph, pkg/graph/memory |
| `Store.v` | pkg/store, pkg/store/memory |
| `Lock.v`, `Conc.v`, `Beside.v` | sync.RWMutex, goroutines; plan, cache, graph and store as programs with their lock calls; store calls beside direct calls on the graph of the store |
| `AttrsConc.v` | attribute calls of several goroutines |
| `Broker.v` | pkg/broker, pkg/broker/memory |
| `Json.v` | encoding/json on bytes |
| `Marshal.v` | pkg/space/marshal, pkg/space/marshal/json |
| `Pipeline.v` | pkg/broker/ingester, pkg/broker/digester, pkg/broker/handlers, message types, runner.go, options.go, scraper.go |

### Decisions and simplifications

* Go strings are Coq `string`s, i.e. byte strings. A `float64` weight is an opaque number
  (`N`), as weights are only copied.
* A Go call gives `Ok v`, `Err e` or `Panic p`. Errors are the sentinel values of the code;
  errors of code outside (`EForeign n`) are numbers. Error texts are not modelled.
* A `uuid.UID` has an identity: a pointer with a text (`UPtr`) or a value (`UVal`). Go compares
  interface values that hold pointers by address, which matters for maps keyed by UIDs.
* A `*memory.Attrs` is a location in a heap of string maps (`world`), so aliasing is visible.
* `uuid.New` reads an arbitrary stream. That it does not repeat is a hypothesis of the theorems
  that need it (C40, C74, C96), not an assumption of the model.
* Iteration over a Go map takes an arbitrary order (`iter_order`, at each place in the program
  possibly another); theorems hold for all of them.
* int and int64 are `Z`; where the code could overflow an id (gonum's allocator) the bound is explicit.
* Locks: programs of `Lock.v` with RLock/RUnlock/Lock/Unlock and atomic steps; reading and
  writing shared data are separate steps. RWMutex as documented: a waiting writer keeps new
  readers out. Schedules are arbitrary.
* Broker: a state machine. A step is a section under the mutex, an access to an unprotected
  field, or one case of a select (see the head of `Broker.v`). Taking a section as one step is
  justified because it does not block inside and its data is only touched under the lock; Open,
  whose fields are read without it, takes two. Timers, cancellation, choices between ready cases
  and answers of handlers are labels: theorems hold for all label sequences. A capacity
  too large for `make(chan, n)` makes Go panic; this is not modelled (a negative one is replaced by New).
* "Can end", "can be removed", "can receive" (C50, C69, C72, C94, C95) say that from every
  reachable state a schedule exists that does it; they assume nothing about the Go scheduler.
* "Returns", "ends", "is forgotten" (C97, C98 and the `_fair` and `c59_digest_ends_partial` parts of
  C59, C72, C95) speak of infinite executions that are fair as defined in `Spec/LiveSpec.v`: a goroutine
  that stays ready is run, a case of a select that is ready whenever the select is reached is taken at some
  time, and timers run out. That Go's scheduler behaves so is not proved.
* encoding/json (Go 1.14/1.15): printing with HTML escaping, the parser, and storing into the
  structs used. Not modelled: the nesting limit of Go 1.15 (10000), line offsets in errors,
  targets of Unmarshal that are nil pointers. json.Marshal of the structs used cannot fail.
* gonum v0.9.1 and encoding/json are not in /repo; their models were written from knowledge of
  their source and belong to the trusted base.
* Ingester, digester, handlers, runner: brokers, subscribers, handlers, scrapers and standard
  output are arbitrary functions on an arbitrary state; C86 connects them to the broker.

### Not modelled

* The text DOT produces (gonum's dot.Marshal): Model/Dot.v gives the statements of the document in order; layout, quoting of ids and the error returned for malformed attributes are left out.
* Memory model effects of unsynchronised accesses: executions are sequentially consistent. That
  such races exist is proved (C66, C73, C107).
* Clocks: time is a number that any label may advance.
* pkg/internal (test helpers), tests, marshal.LinkedObject and LinkedEntity (used nowhere).
* A writer that reports more bytes than it was given.
* SetDOTID on a node or edge that is in a graph: nodes and edges are values (their attributes are
  addresses), so a change of the DOT id through a pointer the caller kept does not reach the graph.

## Trusted base

* Coq's kernel (8.16.1), including its virtual machine (`vm_compute` in examples and witnesses).
* That `Model/` describes the code, as above, and that `Spec/` says what properties.jsonl says.
* Axioms: none. `Print Assumptions` follows every theorem named in MANIFEST.json and prints
  "Closed under the global context" for each of them. The kernel check of the whole development
  lists `Coq.ssr.ssrunder.Under_rel.*`: these come with Coq's ssreflect plugin library, which
  std++ loads; no theorem depends on them.

## Properties

| id | property | status | how | file |
|---|---|---|---|---|
| C01 | Graph adjacency stays sound | proved | invariant of the builder, over all histories of graph operations | PGraph |
| C02 | Fresh node ids | proved | invariant of gonum's id set: an id given out is neither in use nor given before | PGraph |
| C03 | Lookup and enumeration agree | partial | witness history; invariant for histories that add what NewNode returned | PGraph |
| C04 | Duplicate nodes are refused | partial | witness; case analysis of AddNode | PGraph |
| C05 | Graph upsert replaces the node | partial | witness; exact effect of AddNode in every reachable state | PGraph |
| C06 | Link semantics | proved | functional specification on consistent graphs | PGraph |
| C07 | Unlink semantics | proved | as C06 | PGraph |
| C08 | RemoveNode semantics | proved | as C06 | PGraph |
| C09 | From returns exactly the successors | proved | From against the edge relation | PGraph |
| C10 | Edges enumerates every edge once | proved | Edges against the edge relation, without duplicates | PGraph |
| C11 | SubGraph returns the ball of the given radius | proved | loop invariant of the breadth first search; distance is defined by paths | PSub |
| C12 | SubGraph is induced | proved | edges of the copy against edges of the source | PSub |
| C13 | SubGraph preserves edge weights and attributes | partial | witness; a map order that puts a given edge first, and so exactly when the result is right | PSub |
| C14 | SubGraph leaves the source alone | proved | heap frame | PSub |
| C15 | Linking never panics | partial | witness; characterisation of the panic | PGraph |
| C16 | Default edge weight | partial | witness; syntactic options | PGraph |
| C17 | The store refines a map plus a relation | proved | forward simulation to a map of entities and a relation of links | PStore |
| C18 | Store upsert replaces | partial | witness; exact effect | PStore |
| C19 | BulkGet returns the requested entities in order | partial | witness; exact result | PStore |
| C20 | Bulk operations are ordered folds | proved | induction over the list | PStore |
| C21 | Stored entities keep their attributes | partial | witness; exact attributes | PStore |
| C22 | Locked objects are linearizable | proved | generic linearizability theorem for calls under one RWMutex, instantiated for plan, cache and store | PConc |
| C23 | DOT releases the graph lock | partial | invariant over all continuations after DOT | PConc |
| C24 | Graph calls do not deadlock | partial | concrete schedule; progress and termination for all other calls | PConc |
| C25 | Racing Link and RemoveNode leave no ghosts | partial | concrete schedule; through the store by C22 | PConc |
| C26 | Concurrently created nodes are distinct | partial | concrete schedule; through the store by C22 | PConc |
| C27 | Cached links can be found from both ends | partial | witness; when the row is kept | PCache |
| C28 | Exact content of the cache | proved | state of the cache as a function of the history | PCache |
| C29 | Put without upsert does not overwrite | proved | from C28 | PCache |
| C30 | Delete removes all links touching a UID | partial | witness; exact effect | PCache |
| C31 | The two link indexes agree | partial | witness; soundness of each index | PCache |
| C32 | Bulk cache reads and writes match single ones | proved | induction over the list | PCache |
| C33 | UIDs are compared by text | partial | witness with two pointers of equal text; congruence for the rest | PCache |
| C34 | The plan is a map | proved | refinement to a finite map | PPlan |
| C35 | Attributes are a map | proved | refinement to a finite map | PAttrs |
| C36 | Copies are independent | proved | heap reasoning | PAttrs |
| C37 | ToMap and DOT attributes are faithful | proved | for any attribute implementation, errors included | PAttrs |
| C38 | Constructors honour options and defaults | proved | induction over option lists | PEntity |
| C39 | DOT ids identify resources and objects | partial | witness; injectivity of concatenation | PEntity |
| C40 | Generated UIDs are unique | proved | over all histories of the uuid stream | PEntity |
| C41 | Functional options: last one wins | proved | induction over option lists | PEntity, PPipeline |
| C42 | Struct conversion round-trips | proved | round trip both ways, on values | PMarshal |
| C43 | JSON round-trips | proved | round trip through the bytes | PMarshal |
| C44 | Marshal dispatch | partial | witnesses; order of the type switch | PMarshal2 |
| C45 | DOT id survives serialisation | partial | witness; exact DOT id | PMarshal |
| C46 | Messages are delivered at most once, in order, on their topic | proved | invariants of the broker machine over all executions, specified on the trace | PBroker |
| C47 | Queue capacity is respected | proved | as C46 | PBroker |
| C48 | A failed Pub publishes nothing | proved | as C46 | PBroker |
| C49 | A successful Pub published the message | partial | concrete executions; all other cases excluded | PBroker |
| C50 | Accepted messages are not lost while the broker is open | partial | concrete execution; accounting of messages sent, received, dropped and buffered | PBroker |
| C51 | Publishing is refused when not connected | proved | step analysis | PBroker |
| C52 | A session ends only by Close or its context | partial | concrete executions; who can end a session | PBroker2 |
| C53 | Open and Close never crash | proved | invariant: the exit channel of an open session is not closed | PBroker2 |
| C54 | Unsubscribe is idempotent | partial | concrete execution; proved when calls do not overlap | PBroker2 |
| C55 | No delivery after Unsubscribe | proved | invariant on closed exit channels of subscribers | PBroker3 |
| C56 | Closed sessions leave nothing behind | partial | concrete execution; topics subscribed to | PBroker3 |
| C57 | FanOut delivers to all subscribers | partial | over all option lists and executions | PBroker3 |
| C58 | Default capacity | partial | over all option lists and executions | PBroker3 |
| C59 | Digest stops on cancellation | partial | infinite schedule; bound after Unsubscribe | PBroker3, PLive |
| C60 | Digest handles messages in order until the first error | proved | trace of one Digest call | PBroker3 |
| C61 | Ingest publishes the marshaled data | proved | Ingest for all brokers and marshalers | PPipeline |
| C62 | Constructor options take effect | partial | witnesses; exact options used | PPipeline |
| C63 | Run forwards its configuration | partial | witnesses; exact arguments of Scrape | PPipeline |
| C64 | Message types print distinctly | proved | case analysis over all integers | PPipeline |
| C65 | Plan, cache and store are free of data races | proved | lock discipline: a step that accesses the object holds the lock | PConc |
| C66 | Graph calls are free of data races | partial | concrete schedule; as C65 | PConc |
| C67 | Timeouts are respected | proved | invariant on deadlines of waiting calls | PBroker4 |
| C68 | Calls take boundedly many steps | proved | rank of the program counter | PBroker4 |
| C69 | No call can be blocked for good | proved | a schedule for every call in every state | PBroker4 |
| C70 | Receive succeeds without a message only when it is told to stop | proved | step analysis with trace | PBroker4 |
| C71 | An unsubscribed subscriber is silent | partial | concrete execution; bound per call | PBroker4 |
| C72 | Close ends the broker's goroutines | partial | invariant over all continuations; schedule of at most five steps | PBroker4, PBroker5, PLive |
| C73 | Broker fields are free of data races | partial | concrete schedules; single Open | PBroker4 |
| C74 | The broker lists its active subscribers | partial | concrete execution; invariants of the table | PBroker4, PBroker5 |
| C75 | Receive hands over at most one message and its handler's answer | proved | trace of one Receive call | PBroker4 |
| C76 | Marshal is deterministic and injective | proved | independence from map order; injectivity of the printer | PMarshal |
| C77 | JSON loses nothing | partial | witness; exact replacement | PMarshal |
| C78 | A stored node keeps its kind | partial | witness; exact content | PMarshal2 |
| C79 | Unmarshal requires a UID | partial | witnesses; which texts | PMarshal2 |
| C80 | Marshal never panics | partial | witnesses; proved without nil | PMarshal2 |
| C81 | A resource or object can be read as an entity | proved | fields of the reader | PMarshal2 |
| C82 | The default handler prints the payloads | proved | for all writers | PPipeline |
| C83 | The type of a message names the kind of its payload | partial | witness; exact message | PPipeline |
| C84 | Ingest works without a marshaler | partial | over all data | PPipeline |
| C85 | Run requires a plan | partial | over all scrapers | PPipeline |
| C86 | What is ingested is what handlers get | proved | composition of C61, C43 and C60 | PPipeline |
| C87 | Digest runs until the first failure | proved | for all subscribers | PPipeline |
| C88 | Digest uses its unmarshaler | partial | over all unmarshalers | PPipeline |
| C89 | SetDOTID changes only the DOT id | proved | frame on attribute objects | PMisc |
| C90 | Nodes of entities | proved | exact node | PMisc |
| C91 | The graph of a store | proved | over all histories of the store | PMisc |
| C92 | Unmarshal accepts exactly the JSON texts that fit | proved | separate grammar of JSON texts (Spec/JsonSpec.v); equivalence with the parser | PJson |
| C93 | Unmarshal stores what the text says | proved | relation between text and value; functional | PJson |
| C94 | Cancelling the context of Open ends the session | proved | invariant and schedule of at most six steps | PBroker5 |
| C95 | An unsubscribed subscriber is forgotten | partial | concrete execution; schedule that removes, then invariance | PBroker5, PLive |
| C96 | Only Unsubscribe and Close take a subscriber out of the table | partial | concrete execution; step analysis with identifiers | PBroker5 |
| C97 | Every call returns | proved | Spec/LiveSpec.v defines infinite traces and fairness. Every program point of a call has a rank that its own steps lower; at every point the goroutine is ready once the lock is free and its timer has run out, and the lock is freed by an Open that is always ready. | PLive |
| C98 | A cancelled session ends | proved | The goroutine of run returns to its select after at most three own steps; there the case of the cancelled context is ready at every visit, so select fairness takes it. What holds when it returns is C94. | PLive |
| C99 | Graph calls are linearizable | partial | A general theorem (Proof/LinG.v) for calls that are one section of the RWMutex, or look under the read lock and then change under the write lock: the call takes effect when it enters its last section, provided what it saw stays true enough in all later states. For RemoveNode and Unlink: a node found earlier is still there or entirely gone. For Link, which takes the read lock twice: both nodes are still there and there is still no edge, because the other goroutines leave the pair alone. The counterexamples are concrete schedules with final states or results that no order of the calls gives. | PConc2 |
| C100 | DOT describes the graph | proved | Model/Dot.v follows gonum dot.Marshal at the level of statements, including the set of visited pairs. Invariant: when the nodes with smaller ids are done, that set has every pair with one of them, so a successor is skipped exactly if the graph is undirected and its id is smaller. | PDot |
| C101 | DOT carries the graph's DOT id and options | partial | The type of the marshaled value has neither method; the model passes None for both. The witness is a graph made with a DOT id and DOT options. | PDot |
| C102 | DOT is deterministic | partial | By C100 nodes and edges of both documents are the strictly sorted lists with the same members, hence equal; attribute lists show the same map. | PDot |
| C103 | DOT names tell nodes apart | partial | The witness is a graph of two resources with different UIDs. The partial theorem combines C100 with the agreement of lookup and enumeration (C03). | PDot |
| C104 | The id-based methods agree with the edges | proved | These methods are promoted from the embedded gonum graph. The stored adjacency is exactly the listed edges; no call touches the self and absent weights. | PWeight |
| C105 | Node ids stay compact | proved | Invariant: the used and the released ids of the gonum id set together are exactly the numbers from 0 to its maximum, and that maximum is the peak number of nodes minus one. A new id above the maximum is only handed out when nothing is released, and then every number below is in use. | PIds |
| C106 | The graph of a store can be used beside the store | partial | A discipline for both mutexes together (Proof/BesideP.v): the write lock of the graph is only asked for under the write lock of the store, and nested read locks of the graph only under a lock of the store. It gives progress and race freedom. A simulation removes the reading calls from an execution: every step of a store call is also possible without the readers. Without bulk changes (Proof/BesideP2.v) a store call enters the log when it gets the last write lock of the graph that it asks for; before that it does not change the graph. | PBeside |
| C107 | Attributes can be used by several goroutines | partial | Model/AttrsConc.v: the calls as programs of Lock.v without locks, maps read and written in separate steps. A call of the owned part only reads before its last step and is entered in the log there; no other goroutine can change what it reads. The refutations are schedules, most of them for every map. | PAttrsConc |
| C108 | A failed call changes nothing | partial | By cases over the calls; Props/PFail.v defines the reasons with Node, Get and Edge only. | PFail |
| C109 | Stored values have attributes of their own | partial | Spec/OwnSpec.v: places (entities and links) and histories in which other code may allocate and set anything in between. Invariant: addresses at places are below the allocator and differ; one lemma for calls that add a place, one for calls that add none. | POwn |
| C110 | SubGraph is a snapshot | partial | Weakest preconditions under interference: Proof/SnapP.v proves of each program that it keeps the graph and ends in the stated result if between its steps others only allocate; the invariant of SubP.v is stable under allocation. The refutation shows that the result is the ball of no graph. Proof/SnapP2.v does the same with a history of states for executions with Link and Unlink. Proof/AnyP.v, with the lock-aware preconditions of Proof/PanicP.v, says what the result can contain beside any calls. | PSnap |
| C111 | A call panics beside other calls only if it would alone | partial | Proof/PanicP.v: weakest preconditions as for C110 that also know what part of g.mu the goroutine holds. While it holds any, the graph stays the same, which Proof/GraphLockP.v (ginv_next) justifies for executions: only the holder of the write lock changes the graph. With it the two lookups of Link and the two accesses of AddNode see one graph; the invariant is gbase (gonum graph well formed, keys match). The refutation runs the schedule and evaluates SubGraph alone after each of its prefixes. For SubGraph, Proof/AnyP.v shows that ids in the walk are distinct, so a self edge means that both ends of an edge have one UID. | PSnap |
| C112 | SubGraph fails only without a root | proved | Proof/AnyP.v, preconditions of Proof/PanicP.v: the walk ends on every well-formed graph, also from a node that is gone; its ids are distinct, so AddNode on the new graph never finds a duplicate; every node that is linked has its key in the new graph, which Link keeps. | PSnap |
