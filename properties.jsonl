{"id": "C01", "title": "Graph adjacency stays sound", "statement": "After any history of calls on an in-memory graph (directed or undirected), every edge the graph reports joins two different nodes that the graph also reports, the edge found by asking for a pair is stored under exactly that pair, and an undirected graph answers the same for (a,b) and (b,a).", "quantifier": "every finite history of NewNode/AddNode/RemoveNode/Link/Unlink calls with arbitrary arguments, including hand made nodes with arbitrary ids, on both graph kinds", "why_tests_cant": "A test runs one history; dangling or one sided edges appear only after particular add/link/remove/id-reuse interleavings.", "anchors": ["pkg/graph/memory/wg.go:AddNode", "pkg/graph/memory/wg.go:RemoveNode", "pkg/graph/memory/wg.go:Link", "pkg/graph/memory/wg.go:Unlink"]}
{"id": "C02", "title": "Fresh node ids", "statement": "The id of a node returned by the graph's NewNode for an entity not yet stored is not the id of any node in the graph, whatever ids were added, removed and reused before.", "quantifier": "every history of graph calls, every id", "why_tests_cant": "Id reuse depends on the full add/remove history and on the iteration order of a Go map.", "anchors": ["pkg/graph/memory/wg.go:NewNode"]}
{"id": "C03", "title": "Lookup and enumeration agree", "statement": "Node(uid) returns n exactly when n is among Nodes() and has that uid.", "quantifier": "every history of graph calls", "why_tests_cant": "Only some histories make the two indexes diverge.", "anchors": ["pkg/graph/memory/wg.go:Node", "pkg/graph/memory/wg.go:Nodes", "pkg/graph/memory/wg.go:AddNode"]}
{"id": "C04", "title": "Duplicate nodes are refused", "statement": "AddNode without upsert of a node whose UID is already in the graph returns ErrDuplicateNode and leaves the graph unchanged.", "quantifier": "every graph state and every node", "why_tests_cant": "The outcome depends on whether the node's numeric id is also taken.", "anchors": ["pkg/graph/memory/wg.go:AddNode"]}
{"id": "C05", "title": "Graph upsert replaces the node", "statement": "AddNode with upsert makes the given node the one both Node and Nodes return for its UID.", "quantifier": "every graph state and node", "why_tests_cant": "Needs all combinations of UID present/absent and id present/absent.", "anchors": ["pkg/graph/memory/wg.go:AddNode"]}
{"id": "C06", "title": "Link semantics", "statement": "Link(a,b) fails with ErrNodeNotFound when an end is missing; otherwise it returns the edge already joining them, or creates one with the requested attributes and weight that Edge(a,b) then returns; no other edge and no node changes.", "quantifier": "every well formed graph, pair of UIDs and option list", "why_tests_cant": "Frame conditions range over all other pairs of nodes.", "anchors": ["pkg/graph/memory/wg.go:Link", "pkg/graph/memory/wg.go:Edge"]}
{"id": "C07", "title": "Unlink semantics", "statement": "Unlink(a,b) never fails; afterwards a and b are not joined (in an undirected graph, in neither direction) and every other edge and every node is unchanged.", "quantifier": "every well formed graph and pair of UIDs", "why_tests_cant": "Frame conditions range over all other pairs of nodes.", "anchors": ["pkg/graph/memory/wg.go:Unlink"]}
{"id": "C08", "title": "RemoveNode semantics", "statement": "RemoveNode(u) never fails; afterwards u cannot be found, no edge touches it, and every other node and every edge between other nodes is unchanged.", "quantifier": "every well formed graph and UID", "why_tests_cant": "Frame conditions range over all other nodes and edges.", "anchors": ["pkg/graph/memory/wg.go:RemoveNode"]}
{"id": "C09", "title": "From returns exactly the successors", "statement": "From(u) lists, each once, exactly the nodes v for which Edge(u,v) exists; for an unknown u it is empty without error.", "quantifier": "every reachable graph, every UID, every map iteration order", "why_tests_cant": "Completeness of an enumeration over arbitrary graphs and orders.", "anchors": ["pkg/graph/memory/wg.go:From", "pkg/graph/memory/wg.go:Edge"]}
{"id": "C10", "title": "Edges enumerates every edge once", "statement": "Edges() lists each stored edge exactly once: one per ordered pair in a directed graph, one per unordered pair in an undirected one.", "quantifier": "every reachable graph and map iteration order", "why_tests_cant": "Duplicates show only for particular shapes and orders.", "anchors": ["pkg/graph/memory/wg.go:Edges"]}
{"id": "C11", "title": "SubGraph returns the ball of the given radius", "statement": "SubGraph(u,d) contains exactly the nodes at distance at most d from u (all reachable nodes when d is negative) and fails with ErrNodeNotFound when u is unknown.", "quantifier": "every graph, root, depth and iteration order", "why_tests_cant": "Distances in arbitrary graphs under arbitrary traversal orders.", "anchors": ["pkg/graph/memory/wg.go:SubGraph"]}
{"id": "C12", "title": "SubGraph is induced", "statement": "Two nodes of the subgraph are joined in it exactly when they are joined, in that direction, in the original graph.", "quantifier": "every graph, root, depth and iteration order", "why_tests_cant": "Same.", "anchors": ["pkg/graph/memory/wg.go:SubGraph"]}
{"id": "C13", "title": "SubGraph preserves edge weights and attributes", "statement": "Every edge of the subgraph has the weight and attributes of the original edge between the same nodes.", "quantifier": "every graph, root, depth and iteration order", "why_tests_cant": "The existing tests only count nodes; the loss depends on map iteration order.", "anchors": ["pkg/graph/memory/wg.go:SubGraph"]}
{"id": "C14", "title": "SubGraph leaves the source alone", "statement": "SubGraph changes neither the nodes nor the edges nor any attribute of the graph it reads, and writing attributes of a subgraph edge never changes attributes visible in the original graph.", "quantifier": "every graph, root, depth, order and later attribute write", "why_tests_cant": "Aliasing must be excluded for every object.", "anchors": ["pkg/graph/memory/wg.go:SubGraph", "pkg/attrs/memory/memory.go:NewCopyFrom"]}
{"id": "C15", "title": "Linking never panics", "statement": "Link on a graph or store returns normally for every pair of UIDs.", "quantifier": "every state and pair of UIDs", "why_tests_cant": "One particular pair (equal ends) is enough to break it.", "anchors": ["pkg/graph/memory/wg.go:Link", "pkg/store/memory/store.go:Link"]}
{"id": "C16", "title": "Default edge weight", "statement": "An edge created without an explicit weight has weight graph.DefaultWeight.", "quantifier": "every link created with options that do not set the weight", "why_tests_cant": "Depends on the option list.", "anchors": ["pkg/graph/options.go:DefaultWeight", "pkg/graph/memory/edge.go:NewEdge"]}
{"id": "C17", "title": "The store refines a map plus a relation", "statement": "Any history of Add, Get, Delete, Link and Unlink on a store observes exactly what a plain map from UID text to stored entity plus a symmetric (or directed, by graph kind) relation of links would show, including every returned error.", "quantifier": "every history of store calls, both graph kinds, every id choice", "why_tests_cant": "Refinement over unbounded histories with deletion and re-addition.", "anchors": ["pkg/store/memory/store.go:add", "pkg/store/memory/store.go:get", "pkg/store/memory/store.go:delete", "pkg/store/memory/store.go:link", "pkg/store/memory/store.go:unlink"]}
{"id": "C18", "title": "Store upsert replaces", "statement": "After Add(e, WithUpsert) returns nil, Get(e.UID()) returns e with the attributes just given.", "quantifier": "every store state and entity", "why_tests_cant": "The existing test uses a different UID by accident, so it never upserts.", "anchors": ["pkg/store/memory/store.go:add", "pkg/graph/memory/wg.go:NewNode"]}
{"id": "C19", "title": "BulkGet returns the requested entities in order", "statement": "BulkGet(uids) returns a list whose i-th element is what Get(uids[i]) returns.", "quantifier": "every store state and list of UIDs", "why_tests_cant": "The existing test checks only the length.", "anchors": ["pkg/store/memory/store.go:BulkGet"]}
{"id": "C20", "title": "Bulk operations are ordered folds", "statement": "BulkAdd, BulkDelete, BulkLink and BulkUnlink act as the single operation applied left to right, stopping at the first error and keeping the effect of the items before it.", "quantifier": "every store state and list", "why_tests_cant": "All lists and all failure positions.", "anchors": ["pkg/store/memory/store.go:BulkAdd", "pkg/store/memory/store.go:BulkDelete", "pkg/store/memory/store.go:BulkLink", "pkg/store/memory/store.go:BulkUnlink"]}
{"id": "C21", "title": "Stored entities keep their attributes", "statement": "Get(e.UID()) after Add(e) returns an entity with e's type, UID and attributes.", "quantifier": "every entity and store state", "why_tests_cant": "Needs the attribute value for every key.", "anchors": ["pkg/store/memory/store.go:add", "pkg/graph/memory/node.go:NewNode"]}
{"id": "C22", "title": "Locked objects are linearizable", "statement": "Concurrent calls on a plan, a link cache or a store behave as if executed one at a time in some order that respects lock acquisition: results and final state are those of that sequential execution.", "quantifier": "every number of goroutines, every schedule, every operation mix", "why_tests_cant": "Schedules cannot be enumerated by tests.", "anchors": ["pkg/plan/simple/simple.go", "pkg/cache/memory/links.go", "pkg/store/memory/store.go"]}
{"id": "C23", "title": "DOT releases the graph lock", "statement": "After DOT() returns, later mutating calls on the graph can still run.", "quantifier": "every schedule after a DOT call", "why_tests_cant": "A blocked goroutine is a liveness fact about all continuations.", "anchors": ["pkg/graph/memory/wg.go:DOT"]}
{"id": "C24", "title": "Graph calls do not deadlock", "statement": "Every set of concurrent graph calls can always make progress until all have returned.", "quantifier": "every schedule of concurrent calls", "why_tests_cant": "Deadlock needs one particular interleaving of a writer between two nested read locks.", "anchors": ["pkg/graph/memory/wg.go:Link", "pkg/graph/memory/wg.go:Edge"]}
{"id": "C25", "title": "Racing Link and RemoveNode leave no ghosts", "statement": "After concurrent calls have returned, every node in Nodes() can be found with Node.", "quantifier": "every schedule of concurrent graph calls", "why_tests_cant": "A window between two critical sections.", "anchors": ["pkg/graph/memory/wg.go:Link", "pkg/graph/memory/wg.go:RemoveNode"]}
{"id": "C26", "title": "Concurrently created nodes are distinct", "statement": "Two goroutines that each create a node with NewNode for different entities and add it both find their node in Nodes().", "quantifier": "every schedule", "why_tests_cant": "A window between NewNode and AddNode.", "anchors": ["pkg/graph/memory/wg.go:NewNode", "pkg/graph/memory/wg.go:AddNode"]}
{"id": "C27", "title": "Cached links can be found from both ends", "statement": "After Put(l) every later GetFrom(l.From()) and GetTo(l.To()) contains a link between those ends until it is deleted or cleared.", "quantifier": "every history of cache calls", "why_tests_cant": "Loss happens when a second link shares an end; tests use disjoint links.", "anchors": ["pkg/cache/memory/links.go:put", "pkg/cache/memory/links.go:GetFrom", "pkg/cache/memory/links.go:GetTo"]}
{"id": "C28", "title": "Exact content of the cache", "statement": "For every history, GetFrom(u) returns exactly: nothing if no Put from u happened since the last Delete(u) or Clear, else the single link determined by the puts from u (the first put of the current run of puts to the same target, or its last upsert); GetTo is symmetric.", "quantifier": "every history of Put/Delete/Clear/Bulk calls", "why_tests_cant": "Characterises all unbounded histories.", "anchors": ["pkg/cache/memory/links.go:put", "pkg/cache/memory/links.go:delete", "pkg/cache/memory/links.go:Clear"]}
{"id": "C29", "title": "Put without upsert does not overwrite", "statement": "Putting a link between ends that are already linked keeps the stored link unless WithUpsert is given, in which case both directions return the new link.", "quantifier": "every reachable cache state and link", "why_tests_cant": "All states.", "anchors": ["pkg/cache/memory/links.go:put"]}
{"id": "C30", "title": "Delete removes all links touching a UID", "statement": "After Delete(u) no GetFrom or GetTo of any UID returns a link to or from u.", "quantifier": "every reachable cache state and UID", "why_tests_cant": "Links are indexed twice, so the other index must be checked for every UID.", "anchors": ["pkg/cache/memory/links.go:delete"]}
{"id": "C31", "title": "The two link indexes agree", "statement": "A link is returned by GetFrom of its origin exactly when it is returned by GetTo of its end.", "quantifier": "every history of cache calls", "why_tests_cant": "All histories.", "anchors": ["pkg/cache/memory/links.go:put", "pkg/cache/memory/links.go:delete"]}
{"id": "C32", "title": "Bulk cache reads and writes match single ones", "statement": "BulkPut and BulkDelete equal the fold of the single operations; BulkGetFrom/BulkGetTo map exactly the known UIDs among those requested to what GetFrom/GetTo return; reads never change the cache.", "quantifier": "every cache state, list and iteration order", "why_tests_cant": "All lists.", "anchors": ["pkg/cache/memory/links.go:BulkPut", "pkg/cache/memory/links.go:BulkGetFrom", "pkg/cache/memory/links.go:BulkGetTo", "pkg/cache/memory/links.go:BulkDelete"]}
{"id": "C33", "title": "UIDs are compared by text", "statement": "Two UIDs with the same text address the same cache, plan and store entries.", "quantifier": "every pair of UIDs with equal text", "why_tests_cant": "Tests reuse the same UID object.", "anchors": ["pkg/cache/memory/links.go:put", "pkg/plan/simple/simple.go:get", "pkg/uuid/memory/default.go:UID"]}
{"id": "C34", "title": "The plan is a map", "statement": "Any history of Add, Get, GetAll and Delete on a plan observes exactly what a map from UID text to resource shows: last Add wins, Get of an absent UID fails with ErrResourceNotFound, GetAll lists each resource once.", "quantifier": "every history and iteration order", "why_tests_cant": "Unbounded histories.", "anchors": ["pkg/plan/simple/simple.go"]}
{"id": "C35", "title": "Attributes are a map", "statement": "Any history of Set and Get on attributes observes a map from key to value with missing keys reading as the empty string; Keys lists each set key exactly once.", "quantifier": "every history, key and iteration order", "why_tests_cant": "Unbounded histories.", "anchors": ["pkg/attrs/memory/memory.go:Set", "pkg/attrs/memory/memory.go:Get", "pkg/attrs/memory/memory.go:Keys"]}
{"id": "C36", "title": "Copies are independent", "statement": "NewCopyFrom and NewFromMap give attributes equal to their source at that moment, and later writes to either side are not visible on the other.", "quantifier": "every source and every later sequence of writes", "why_tests_cant": "Aliasing over all histories.", "anchors": ["pkg/attrs/memory/memory.go:NewCopyFrom", "pkg/attrs/memory/memory.go:NewFromMap"]}
{"id": "C37", "title": "ToMap and DOT attributes are faithful", "statement": "ToMap returns exactly the key/value pairs, DOTAttrs lists each pair once, and any error from Keys or Get is reported (ToMap, NewCopyFrom) or yields nil (DOTAttrs).", "quantifier": "every attribute implementation and iteration order", "why_tests_cant": "Error position and order range over all implementations.", "anchors": ["pkg/attrs/attrs.go:ToMap", "pkg/attrs/memory/dot.go:DOTAttrs", "pkg/attrs/memory/memory.go:NewCopyFrom"]}
{"id": "C38", "title": "Constructors honour options and defaults", "statement": "A constructed entity, resource, object, link, node, edge or graph reports exactly the given fields; a missing UID, attribute set or DOT id gets the documented default.", "quantifier": "every field value and option list", "why_tests_cant": "All option lists.", "anchors": ["pkg/space/entity/entity.go:New", "pkg/space/entity/resource.go:NewResource", "pkg/space/entity/object.go:NewObject", "pkg/space/link/link.go:New", "pkg/graph/memory/edge.go:NewEdge", "pkg/graph/memory/node.go:NewNode"]}
{"id": "C39", "title": "DOT ids identify resources and objects", "statement": "Default DOT ids of resources (objects) with different group/version/kind (and namespace/name) are different.", "quantifier": "every pair of resources or objects", "why_tests_cant": "Needs all strings, including ones holding the separator.", "anchors": ["pkg/space/entity/resource.go:NewResource", "pkg/space/entity/object.go:NewObject"]}
{"id": "C40", "title": "Generated UIDs are unique", "statement": "If the UUID source never repeats, the UIDs of all entities, links, edges and graphs created without an explicit UID are pairwise different.", "quantifier": "every number and order of constructions", "why_tests_cant": "Unbounded number of constructions.", "anchors": ["pkg/uuid/memory/default.go:New"]}
{"id": "C41", "title": "Functional options: last one wins", "statement": "For every configurable call the effective value of each setting is that of the last option setting it, or the zero value; options for different settings do not interfere.", "quantifier": "every option list of every option family", "why_tests_cant": "All lists and orders.", "anchors": ["pkg/graph/options.go", "pkg/broker/options.go", "pkg/store/options.go", "pkg/cache/options.go", "pkg/space/entity/options.go", "pkg/space/link/options.go", "options.go"]}
{"id": "C42", "title": "Struct conversion round-trips", "statement": "Converting a space value to its serialisable form and back preserves UID text, type, attributes and all declared fields; converting a serialisable form to space and back returns it (up to nil versus empty attributes).", "quantifier": "every entity, resource, object and link", "why_tests_cant": "All field values and attribute maps.", "anchors": ["pkg/space/marshal/marshal.go:EntityToSpace", "pkg/space/marshal/marshal.go:EntityFromSpace", "pkg/space/marshal/marshal.go:ObjectFromSpace", "pkg/space/marshal/marshal.go:ResourceToSpace", "pkg/space/marshal/marshal.go:LinkToSpace"]}
{"id": "C43", "title": "JSON round-trips", "statement": "Unmarshal(Marshal(x)) succeeds and yields a value with the same UID text, type, attributes and declared fields, provided all strings are valid UTF-8.", "quantifier": "every entity, resource, object and link", "why_tests_cant": "All byte strings and maps.", "anchors": ["pkg/space/marshal/json/json.go:Marshal", "pkg/space/marshal/json/json.go:Unmarshal", "pkg/space/marshal/types.go"]}
{"id": "C44", "title": "Marshal dispatch", "statement": "Marshal encodes a resource as resource, an object as object, a link as link, anything else that has UID, Type and Attrs as entity, and returns ErrUnsuportedType otherwise; Unmarshal accepts exactly pointers to the four interfaces.", "quantifier": "every dynamic type", "why_tests_cant": "The type switch order matters for types implementing several interfaces.", "anchors": ["pkg/space/marshal/json/json.go:Marshal"]}
{"id": "C45", "title": "DOT id survives serialisation", "statement": "A value with a custom DOT id keeps it through Marshal and Unmarshal.", "quantifier": "every entity, resource, object", "why_tests_cant": "All values.", "anchors": ["pkg/space/marshal/marshal.go:EntityFromSpace", "pkg/space/marshal/types.go"]}
{"id": "C46", "title": "Messages are delivered at most once, in order, on their topic", "statement": "Every message handed to a handler was published on the subscriber's topic; in each topic queue messages are taken in the order they were accepted and each accepted message is taken at most once.", "quantifier": "every number of publishers and subscribers, every schedule, timeout and cancellation", "why_tests_cant": "Schedules and timeouts cannot be enumerated.", "anchors": ["pkg/broker/memory/memory.go:Pub", "pkg/broker/memory/memory.go:publishMsg", "pkg/broker/memory/subscriber.go:Receive"]}
{"id": "C47", "title": "Queue capacity is respected", "statement": "A topic queue never holds more than the configured capacity; a publisher on a full queue waits.", "quantifier": "every schedule", "why_tests_cant": "All schedules.", "anchors": ["pkg/broker/memory/memory.go:New", "pkg/broker/memory/memory.go:Pub"]}
{"id": "C48", "title": "A failed Pub publishes nothing", "statement": "If Pub returns an error its message is never delivered.", "quantifier": "every schedule", "why_tests_cant": "All schedules.", "anchors": ["pkg/broker/memory/memory.go:publishMsg"]}
{"id": "C49", "title": "A successful Pub published the message", "statement": "If Pub returns nil its message was accepted by the topic queue.", "quantifier": "every schedule", "why_tests_cant": "The silent exit is taken only in a race with Close.", "anchors": ["pkg/broker/memory/memory.go:publishMsg"]}
{"id": "C50", "title": "Accepted messages are not lost while the broker is open", "statement": "A message accepted by a queue stays available until a handler gets it or the broker is closed.", "quantifier": "every schedule with receive timeouts", "why_tests_cant": "Needs a timeout racing with an arrival.", "anchors": ["pkg/broker/memory/subscriber.go:Receive"]}
{"id": "C51", "title": "Publishing is refused when not connected", "statement": "Pub and Sub on a broker that has never been opened, or that is closed and not reopened, return ErrNotConnected and create nothing.", "quantifier": "every schedule", "why_tests_cant": "All schedules.", "anchors": ["pkg/broker/memory/memory.go:Pub", "pkg/broker/memory/memory.go:Sub"]}
{"id": "C52", "title": "A session ends only by Close or its context", "statement": "After Open returned, the broker stays connected until somebody calls Close or cancels the context given to that Open.", "quantifier": "every schedule", "why_tests_cant": "Needs a leftover goroutine of an earlier session, or a cancelled publisher.", "anchors": ["pkg/broker/memory/memory.go:run", "pkg/broker/memory/memory.go:publishMsg"]}
{"id": "C53", "title": "Open and Close never crash", "statement": "No schedule of Open, Close, Pub, Sub and Receive calls panics (for instance by closing the session channel twice).", "quantifier": "every schedule", "why_tests_cant": "All schedules.", "anchors": ["pkg/broker/memory/memory.go:Close", "pkg/broker/memory/memory.go:Open"]}
{"id": "C54", "title": "Unsubscribe is idempotent", "statement": "Any number of Unsubscribe calls, also concurrent ones, return nil without panicking.", "quantifier": "every schedule", "why_tests_cant": "Only overlapping calls break it.", "anchors": ["pkg/broker/memory/subscriber.go:Unsubscribe"]}
{"id": "C55", "title": "No delivery after Unsubscribe", "statement": "A Receive started after Unsubscribe returned gives ErrSubscriptionInactive and calls no handler.", "quantifier": "every schedule", "why_tests_cant": "All schedules.", "anchors": ["pkg/broker/memory/subscriber.go:Receive", "pkg/broker/memory/subscriber.go:Unsubscribe"]}
{"id": "C56", "title": "Closed sessions leave nothing behind", "statement": "After Close and a new Open, topics start empty and a new subscriber's Receive waits for messages published in the new session.", "quantifier": "every history of sessions", "why_tests_cant": "Only topics without subscribers survive.", "anchors": ["pkg/broker/memory/memory.go:Close"]}
{"id": "C57", "title": "FanOut delivers to all subscribers", "statement": "With the FanOut sink every subscriber of a topic gets every message.", "quantifier": "every schedule and option list", "why_tests_cant": "All schedules.", "anchors": ["pkg/broker/options.go:WithSink", "pkg/broker/memory/memory.go:Pub"]}
{"id": "C58", "title": "Default capacity", "statement": "A broker created without WithCap has capacity DefaultSize.", "quantifier": "every option list without WithCap", "why_tests_cant": "All option lists.", "anchors": ["pkg/broker/memory/memory.go:New"]}
{"id": "C59", "title": "Digest stops on cancellation", "statement": "Digest returns once its context is cancelled or the broker is closed.", "quantifier": "every schedule", "why_tests_cant": "Non termination cannot be observed by a finite test.", "anchors": ["pkg/broker/digester/simple/digester.go:handle", "pkg/broker/memory/subscriber.go:Receive"]}
{"id": "C60", "title": "Digest handles messages in order until the first error", "statement": "Digest calls the handler once per received message, in order, stops at the first error of handler or subscription, and returns that error.", "quantifier": "every message sequence and handler", "why_tests_cant": "Unbounded sequences.", "anchors": ["pkg/broker/digester/simple/digester.go:handle"]}
{"id": "C61", "title": "Ingest publishes the marshaled data", "statement": "Ingest publishes exactly one message of the given type with the marshaled data on the topic, or returns the marshal error and publishes nothing.", "quantifier": "every datum, marshaler and topic", "why_tests_cant": "All data and marshalers.", "anchors": ["pkg/broker/ingester/simple/ingester.go:Ingest"]}
{"id": "C62", "title": "Constructor options take effect", "statement": "Options given to NewIngester, NewDigester and NewRunner are used by the calls on the result.", "quantifier": "every option list", "why_tests_cant": "All option lists.", "anchors": ["pkg/broker/ingester/simple/ingester.go", "pkg/broker/digester/simple/digester.go", "runner.go"]}
{"id": "C63", "title": "Run forwards its configuration", "statement": "Run gives the scraper the store, broker and marshaler it was configured with and returns the scraper's result.", "quantifier": "every option list and scraper", "why_tests_cant": "All option lists.", "anchors": ["runner.go:Run"]}
{"id": "C64", "title": "Message types print distinctly", "statement": "The five message types have pairwise different names and any other value prints as Unknown.", "quantifier": "every integer", "why_tests_cant": "All integers.", "anchors": ["pkg/broker/type.go:String"]}
{"id": "C65", "title": "Plan, cache and store are free of data races", "statement": "No two goroutines using the same plan, link cache or store ever access its data at the same time, one of them writing.", "quantifier": "every number of goroutines, every schedule, every operation mix", "why_tests_cant": "The race detector only sees schedules that happen.", "anchors": ["pkg/plan/simple/simple.go", "pkg/cache/memory/links.go", "pkg/store/memory/store.go"]}
{"id": "C66", "title": "Graph calls are free of data races", "statement": "No two concurrent calls on the same graph access its maps at the same time, one of them writing.", "quantifier": "every schedule of concurrent graph calls", "why_tests_cant": "The race needs SubGraph's second phase to overlap a mutation.", "anchors": ["pkg/graph/memory/wg.go:SubGraph", "pkg/graph/memory/wg.go:RemoveNode"]}
{"id": "C67", "title": "Timeouts are respected", "statement": "Pub, Receive and Digest never report a timeout before the time their options ask for has passed, and can do so as soon as it has passed since the call began to wait. Zero means the broker's timeout for Pub and five seconds otherwise.", "quantifier": "all option lists, all executions, all moments", "why_tests_cant": "Tests wait real time and check one duration.", "anchors": ["pkg/broker/memory/memory.go:publishMsg", "pkg/broker/memory/subscriber.go:Receive", "pkg/broker/options.go"]}
{"id": "C68", "title": "Calls take boundedly many steps", "statement": "Every broker and subscriber call other than Digest ends after at most five steps of its own, whatever other goroutines do.", "quantifier": "all executions, all interleavings", "why_tests_cant": "A bound over all schedules is not observable from finitely many runs.", "anchors": ["pkg/broker/memory/memory.go", "pkg/broker/memory/subscriber.go"]}
{"id": "C69", "title": "No call can be blocked for good", "statement": "From every reachable state every pending call can be brought to its end by letting goroutines run and time pass, without a new call, a cancellation or a receiver.", "quantifier": "all reachable states", "why_tests_cant": "Absence of deadlock is a statement about all schedules.", "anchors": ["pkg/broker/memory/memory.go", "pkg/broker/memory/subscriber.go"]}
{"id": "C70", "title": "Receive succeeds without a message only when it is told to stop", "statement": "A Receive that returns nil without having called its handler had its context cancelled, the broker closed or its subscriber unsubscribed.", "quantifier": "all executions", "why_tests_cant": "Depends on which select case fires.", "anchors": ["pkg/broker/memory/subscriber.go:Receive"]}
{"id": "C71", "title": "An unsubscribed subscriber is silent", "statement": "After Unsubscribe has returned no handler of that subscriber is called any more.", "quantifier": "all executions, Receive calls already under way included", "why_tests_cant": "Needs a message to arrive at a waiting Receive after Unsubscribe.", "anchors": ["pkg/broker/memory/subscriber.go:Unsubscribe", "pkg/broker/memory/subscriber.go:Receive"]}
{"id": "C72", "title": "Close ends the broker's goroutines", "statement": "After Close the goroutines started by Open come to an end.", "quantifier": "all executions, overlapping Open calls included", "why_tests_cant": "Needs two Opens to pass the connected check together, and a leak shows only in the goroutine count.", "anchors": ["pkg/broker/memory/memory.go:Open", "pkg/broker/memory/memory.go:run"]}
{"id": "C73", "title": "Broker fields are free of data races", "statement": "No two goroutines access Memory.exit, Memory.ctl or Subscriber.active at the same time, one of them writing.", "quantifier": "all executions", "why_tests_cant": "Needs specific overlaps of Open with Pub or run, and of Unsubscribe with Receive.", "anchors": ["pkg/broker/memory/memory.go:Open", "pkg/broker/memory/memory.go:publishMsg", "pkg/broker/memory/subscriber.go:Unsubscribe"]}
{"id": "C74", "title": "The broker lists its active subscribers", "statement": "During a session every active subscriber is in the broker's table of subscribers under its topic.", "quantifier": "all executions", "why_tests_cant": "The table is private and nothing reads it back.", "anchors": ["pkg/broker/memory/memory.go:Sub"]}
{"id": "C75", "title": "Receive hands over at most one message and its handler's answer", "statement": "A Receive calls its handler at most once, with the message it took from the queue, and returns what the handler returned; without a handler call it returns nil, timeout or inactive.", "quantifier": "all executions", "why_tests_cant": "All select outcomes and handler errors have to be covered.", "anchors": ["pkg/broker/memory/subscriber.go:Receive"]}
{"id": "C76", "title": "Marshal is deterministic and injective", "statement": "The text made by Marshal does not depend on Go's map iteration order, and two values of the same kind with valid UTF-8 strings have the same text only if they have the same content.", "quantifier": "every value, every iteration order", "why_tests_cant": "Iteration order is random and pairs of values cannot be enumerated.", "anchors": ["pkg/space/marshal/json/json.go:Marshal", "pkg/space/marshal/marshal.go:EntityFromSpace"]}
{"id": "C77", "title": "JSON loses nothing", "statement": "Unmarshal(Marshal(x)) has the same content as x for arbitrary Go strings.", "quantifier": "every value, all byte strings", "why_tests_cant": "Only strings that are no valid UTF-8 break it.", "anchors": ["pkg/space/marshal/json/json.go:Marshal", "pkg/space/marshal/json/json.go:Unmarshal"]}
{"id": "C78", "title": "A stored node keeps its kind", "statement": "Marshaling a graph node made of a resource gives the text of that resource.", "quantifier": "every node", "why_tests_cant": "Needs the method sets of embedded interfaces.", "anchors": ["pkg/graph/memory/node.go:NewNode", "pkg/space/marshal/json/json.go:Marshal"]}
{"id": "C79", "title": "Unmarshal requires a UID", "statement": "Unmarshal accepts a text only if it has a UID member.", "quantifier": "every byte string", "why_tests_cant": "All byte strings.", "anchors": ["pkg/space/marshal/json/json.go:Unmarshal", "pkg/space/marshal/marshal.go:EntityToSpace"]}
{"id": "C80", "title": "Marshal never panics", "statement": "Marshal returns text or an error for every argument.", "quantifier": "every dynamic type and value", "why_tests_cant": "All implementations of the interfaces.", "anchors": ["pkg/space/marshal/json/json.go:Marshal", "pkg/space/marshal/marshal.go:EntityFromSpace", "pkg/attrs/attrs.go:ToMap"]}
{"id": "C81", "title": "A resource or object can be read as an entity", "statement": "Unmarshal into an entity of the text of a resource or object gives an entity with its UID, type and attributes.", "quantifier": "every resource and object", "why_tests_cant": "All values.", "anchors": ["pkg/space/marshal/json/json.go:Unmarshal", "pkg/space/marshal/types.go"]}
{"id": "C82", "title": "The default handler prints the payloads", "statement": "Digest without a handler writes the data of each message to standard output unchanged, in the order received, and stops at the first write error.", "quantifier": "every message sequence, every writer", "why_tests_cant": "Unbounded sequences and failing writers.", "anchors": ["pkg/broker/handlers/handlers.go:DumpData", "pkg/broker/digester/simple/digester.go:Digest"]}
{"id": "C83", "title": "The type of a message names the kind of its payload", "statement": "A message published by Ingest has the type of the value in it.", "quantifier": "every value and type", "why_tests_cant": "All pairs of value and type.", "anchors": ["pkg/broker/ingester/simple/ingester.go:Ingest", "pkg/broker/type.go"]}
{"id": "C84", "title": "Ingest works without a marshaler", "statement": "A value ingested without a marshaler can be restored from the published message.", "quantifier": "every space value", "why_tests_cant": "All values.", "anchors": ["pkg/broker/ingester/simple/ingester.go:Ingest", "pkg/space/entity/entity.go"]}
{"id": "C85", "title": "Run requires a plan", "statement": "Run without a plan returns an error and does not scrape.", "quantifier": "every scraper and option list", "why_tests_cant": "All scrapers.", "anchors": ["runner.go:Run", "errors.go"]}
{"id": "C86", "title": "What is ingested is what handlers get", "statement": "If all messages are published by Ingest with the JSON marshaler, every handler call can be assigned to a different Ingest on the subscriber's topic, and its message decodes to the ingested value and has the given type.", "quantifier": "every execution of the broker, every ingested value with valid UTF-8 strings", "why_tests_cant": "Combines all schedules of the broker with all values.", "anchors": ["pkg/broker/ingester/simple/ingester.go:Ingest", "pkg/broker/memory/memory.go:Pub", "pkg/broker/memory/subscriber.go:Receive", "pkg/space/marshal/json/json.go:Unmarshal"]}
{"id": "C87", "title": "Digest runs until the first failure", "statement": "On any subscriber Digest calls Receive with its context and handler until a call fails and returns that error; it never returns nil.", "quantifier": "every subscriber, handler and option list", "why_tests_cant": "All subscribers and unbounded loops.", "anchors": ["pkg/broker/digester/simple/digester.go:Digest", "pkg/broker/digester/simple/digester.go:handle"]}
{"id": "C88", "title": "Digest uses its unmarshaler", "statement": "The unmarshaler given to Digest or NewDigester has an effect.", "quantifier": "every option list, subscriber and unmarshaler", "why_tests_cant": "Absence of any effect is a statement about all inputs.", "anchors": ["pkg/broker/digester/options.go:WithMarshaler", "pkg/broker/digester/simple/digester.go:Digest"]}
{"id": "C89", "title": "SetDOTID changes only the DOT id", "statement": "After SetDOTID on an entity, resource, object, node or edge DOTID returns the new id, every other accessor returns what it did before, and a second call wins. ReversedEdge swaps the ends of an edge and nothing else.", "quantifier": "every value of the five kinds, every string", "why_tests_cant": "All strings and all values; tests set one id and look at one accessor.", "anchors": ["pkg/space/entity/entity.go:SetDOTID", "pkg/space/entity/resource.go:SetDOTID", "pkg/space/entity/object.go:SetDOTID", "pkg/graph/memory/node.go:SetDOTID", "pkg/graph/memory/edge.go:SetDOTID", "pkg/graph/memory/edge.go:ReversedEdge"]}
{"id": "C90", "title": "Nodes of entities", "statement": "A node made of a new entity, resource or object, or of another node, has its UID and type, and its DOT id is the first of: node option, entity option, default of the entity kind.", "quantifier": "every constructor call followed by NewNode, every option list", "why_tests_cant": "The two constructors are only tested apart.", "anchors": ["pkg/graph/memory/node.go:NewNode", "pkg/space/entity/entity.go:New", "pkg/space/entity/resource.go:NewResource", "pkg/space/entity/object.go:NewObject"]}
{"id": "C91", "title": "The graph of a store", "statement": "Memory.Graph of a new store is the configured graph, or an empty undirected one, and after any history of store calls it holds a node for every stored entity and an edge for every link.", "quantifier": "every option list, every history of store calls", "why_tests_cant": "All histories; tests only check that Graph does not return nil.", "anchors": ["pkg/store/memory/store.go:Graph", "pkg/store/memory/store.go:NewStore"]}
{"id": "C92", "title": "Unmarshal accepts exactly the JSON texts that fit", "statement": "Unmarshal succeeds exactly on texts that are a document of the JSON grammar, an object or null, whose members with a known name have values of the right kind (or null); on all other texts it fails with the error of the decoder.", "quantifier": "every byte string, every target kind", "why_tests_cant": "All byte strings; tests only decode what Marshal wrote.", "anchors": ["pkg/space/marshal/json/json.go:Unmarshal", "pkg/space/marshal/marshal.go"]}
{"id": "C93", "title": "Unmarshal stores what the text says", "statement": "Every field of an unmarshaled value is the last member of the text with its name (letter case ignored), absent ones are zero, attribute objects are merged, and the result does not depend on anything else.", "quantifier": "every byte string, every target kind", "why_tests_cant": "All byte strings, repeated and case-variant member names.", "anchors": ["pkg/space/marshal/json/json.go:Unmarshal", "pkg/space/marshal/marshal.go"]}
{"id": "C94", "title": "Cancelling the context of Open ends the session", "statement": "When the goroutine started by Open returns, the session is closed and its context was cancelled or the broker closed; once the context is cancelled that goroutine can close the session within six steps from every state.", "quantifier": "all executions, all reachable states", "why_tests_cant": "Needs every state the goroutine can be in when the context is cancelled.", "anchors": ["pkg/broker/memory/memory.go:run", "pkg/broker/memory/memory.go:Open"]}
{"id": "C95", "title": "An unsubscribed subscriber is forgotten", "statement": "After Unsubscribe has returned the broker's goroutines remove the subscriber from the table of subscribers, for good.", "quantifier": "all executions", "why_tests_cant": "The table is private and the removal is asynchronous.", "anchors": ["pkg/broker/memory/subscriber.go:Unsubscribe", "pkg/broker/memory/memory.go:run"]}
{"id": "C96", "title": "Only Unsubscribe and Close take a subscriber out of the table", "statement": "A subscriber leaves the table of subscribers only when it was unsubscribed or the broker is closed.", "quantifier": "all executions", "why_tests_cant": "The table is private.", "anchors": ["pkg/broker/memory/memory.go:Sub", "pkg/broker/memory/memory.go:run", "pkg/broker/memory/memory.go:Close"]}
{"id": "C97", "title": "Every call returns", "statement": "In every execution that goes on for ever, in which every goroutine that can go on again and again does and time passes, every call of Open, Close, Pub, Sub, Unsubscribe and Receive returns.", "quantifier": "all infinite fair executions, any number of goroutines, any handlers that return", "why_tests_cant": "Absence of deadlock and starvation over all infinite schedules.", "anchors": ["pkg/broker/memory/memory.go:Open", "pkg/broker/memory/memory.go:Pub", "pkg/broker/memory/memory.go:Sub", "pkg/broker/memory/memory.go:Close", "pkg/broker/memory/subscriber.go:Receive", "pkg/broker/memory/subscriber.go:Unsubscribe"]}
{"id": "C98", "title": "A cancelled session ends", "statement": "In every infinite fair execution in which the context of the Open that opened a session is cancelled at some time, the goroutine of that Open returns and the session ends.", "quantifier": "all infinite fair executions", "why_tests_cant": "A statement about all infinite schedules, including those in which the goroutine is kept busy with other work.", "anchors": ["pkg/broker/memory/memory.go:run", "pkg/broker/memory/memory.go:Open"]}
{"id": "C99", "title": "Graph calls are linearizable", "statement": "Concurrent calls on an in-memory graph behave as if executed one at a time: results and final state are those of a sequential execution that keeps the order of calls that do not overlap.", "quantifier": "every graph, every set of calls, every schedule", "why_tests_cant": "A violation needs another call between the two critical sections of one call.", "anchors": ["pkg/graph/memory/wg.go:Link", "pkg/graph/memory/wg.go:RemoveNode", "pkg/graph/memory/wg.go:Unlink", "pkg/graph/memory/wg.go:AddNode", "pkg/graph/memory/wg.go:Nodes"]}
{"id": "C100", "title": "DOT describes the graph", "statement": "The Graphviz document DOT returns has exactly one statement for every node and one for every edge, by increasing node id, each with the DOT id and the attributes of the node or edge.", "quantifier": "every history of graph calls, every map order", "why_tests_cant": "All graphs and iteration orders.", "anchors": ["pkg/graph/memory/wg.go:DOT", "pkg/graph/memory/node.go:Attributes", "pkg/graph/memory/edge.go:Attributes"]}
{"id": "C101", "title": "DOT carries the graph's DOT id and options", "statement": "The document has the DOT id of the graph as its name and the attributes given by WithDOTOptions as its defaults.", "quantifier": "every graph and option list", "why_tests_cant": "The embedded value marshaled has other methods than the graph; absence is a statement about all graphs.", "anchors": ["pkg/graph/memory/wg.go:DOT", "pkg/graph/memory/wg.go:DOTID", "pkg/graph/memory/wg.go:DOTAttributers"]}
{"id": "C102", "title": "DOT is deterministic", "statement": "Two calls of DOT on an unchanged graph return the same document.", "quantifier": "every graph, every map order", "why_tests_cant": "Iteration order is random.", "anchors": ["pkg/graph/memory/wg.go:DOT", "pkg/graph/memory/node.go:Attributes", "pkg/attrs/memory/attrs.go:Keys"]}
{"id": "C103", "title": "DOT names tell nodes apart", "statement": "Different nodes of a graph have different names in the document, so its edges can be attributed to pairs of nodes.", "quantifier": "every graph", "why_tests_cant": "All graphs.", "anchors": ["pkg/graph/memory/wg.go:DOT", "pkg/graph/memory/node.go:NewNode", "pkg/space/entity/resource.go:NewResource"]}
{"id": "C104", "title": "The id-based methods agree with the edges", "statement": "Weight, WeightedEdge and HasEdgeBetween of a graph, which take node ids, answer according to the edges Edges lists; without an edge Weight is the weight given to the constructor.", "quantifier": "every history of graph calls, every pair of ids", "why_tests_cant": "All histories and ids.", "anchors": ["pkg/graph/memory/wg.go:WG", "pkg/graph/memory/memory.go:WeightedGraphBuilder", "pkg/graph/memory/wdg.go:NewWDG"]}
{"id": "C105", "title": "Node ids stay compact", "statement": "If nodes enter a graph through NewNode, all ids are non-negative and less than the largest number of nodes the graph has had at one time; NewNode keeps it so, and cannot fail while that number is below 2^63-1.", "quantifier": "every history of graph calls, every map order", "why_tests_cant": "Ids depend on the whole history of additions and removals and on map iteration order.", "anchors": ["pkg/graph/memory/wg.go:NewNode", "pkg/graph/memory/wg.go:AddNode", "pkg/graph/memory/wg.go:RemoveNode"]}
{"id": "C106", "title": "The graph of a store can be used beside the store", "statement": "Goroutines may call the graph returned by Memory.Graph while others call the store: all calls together are linearizable, never deadlock and do not race.", "quantifier": "every set of goroutines making store calls and direct graph calls, every interleaving", "why_tests_cant": "Needs interleavings inside the critical sections of two mutexes.", "anchors": ["pkg/store/memory/store.go:Graph", "pkg/graph/memory/wg.go:Link", "pkg/store/memory/store.go:BulkAdd"]}
{"id": "C107", "title": "Attributes can be used by several goroutines", "statement": "Goroutines may call the methods of attributes that they share, for example those of a node that each got from a store: the calls are linearizable, do not race and do not panic.", "quantifier": "every set of goroutines making attribute calls, every map order, every interleaving", "why_tests_cant": "Needs a Set between two accesses of another call.", "anchors": ["pkg/attrs/memory/memory.go:Set", "pkg/attrs/memory/memory.go:Keys", "pkg/attrs/memory/memory.go:NewCopyFrom", "pkg/attrs/attrs.go:ToMap", "pkg/graph/memory/node.go:Attrs"]}
{"id": "C108", "title": "A failed call changes nothing", "statement": "A graph or store call that returns an error or panics leaves the graph or store as it was, and it fails only for the documented reasons.", "quantifier": "every state, every call, every option list", "why_tests_cant": "Every way to fail in every state; a test that gets an error rarely compares the whole state.", "anchors": ["pkg/graph/memory/wg.go:AddNode", "pkg/graph/memory/wg.go:Link", "pkg/store/memory/store.go:Add", "pkg/store/memory/store.go:Link", "pkg/store/memory/store.go:BulkAdd"]}
{"id": "C109", "title": "Stored values have attributes of their own", "statement": "Different entities and different links of a store have different attributes: setting an attribute of one changes no other, whatever calls were made before.", "quantifier": "every history of store calls mixed with other code, every option list", "why_tests_cant": "Sharing shows only when attributes are set after both values were stored.", "anchors": ["pkg/store/memory/store.go:Add", "pkg/store/memory/store.go:Link", "pkg/store/memory/store.go:BulkAdd", "pkg/store/memory/store.go:BulkLink", "pkg/graph/memory/node.go:NewNode", "pkg/graph/memory/edge.go:NewEdge"]}
{"id": "C110", "title": "SubGraph is a snapshot", "statement": "A SubGraph call made while other goroutines use the graph returns the part of the graph within the given distance as it was at one moment: the nodes of the ball, and the edges between them.", "quantifier": "every graph, every set of goroutines making graph calls, every map order, every interleaving", "why_tests_cant": "A violation needs another call between the walk and the copying of the edges.", "anchors": ["pkg/graph/memory/wg.go:SubGraph", "pkg/graph/memory/wg.go:Unlink", "pkg/graph/memory/wg.go:RemoveNode"]}
{"id": "C111", "title": "A call panics beside other calls only if it would alone", "statement": "A graph call made while other goroutines use the graph panics only if the same call, made alone on the graph as it is at some moment of the execution, panics.", "quantifier": "every history of graph calls before, every set of goroutines making graph calls, every map order, every interleaving", "why_tests_cant": "A panic that needs two other calls between two critical sections of one call does not show in sequential tests.", "anchors": ["pkg/graph/memory/wg.go:SubGraph", "pkg/graph/memory/wg.go:AddNode", "pkg/graph/memory/wg.go:Link", "pkg/graph/memory/wg.go:NewNode", "pkg/graph/memory/wg.go:RemoveNode"]}
{"id": "C112", "title": "SubGraph fails only without a root", "statement": "A SubGraph call made while other goroutines use the graph ends, and it returns an error only if its root is not in the graph at some moment of the execution; the error is then ErrNodeNotFound.", "quantifier": "every history of graph calls before, every set of goroutines making graph calls, every map order, every interleaving", "why_tests_cant": "Nodes and edges that vanish or change their id during the walk and the copy must not make the copy fail.", "anchors": ["pkg/graph/memory/wg.go:SubGraph", "pkg/graph/memory/wg.go:AddNode", "pkg/graph/memory/wg.go:Link", "pkg/graph/memory/wg.go:RemoveNode"]}
