{
 "claims": [
  {
   "property": "C01",
   "status": "proved",
   "theorems": [
    "c01_adjacency_sound",
    "c01_edge_ends_are_stored_nodes"
   ],
   "note": ""
  },
  {
   "property": "C02",
   "status": "proved",
   "theorems": [
    "c02_fresh_ids"
   ],
   "note": "The only failure is the panic of the id allocator when all int64 ids are used."
  },
  {
   "property": "C03",
   "status": "partial",
   "theorems": [
    "c03_lookup_enumeration_refuted",
    "c03_lookup_enumeration_partial",
    "c03_tidy_consistent"
   ],
   "note": "REFUTED: a node added with an id that is taken can be looked up but is not listed. Proved for all histories in which AddNode is given what NewNode returned."
  },
  {
   "property": "C04",
   "status": "partial",
   "theorems": [
    "c04_duplicate_refused_refuted",
    "c04_duplicate_refused_partial",
    "c04_adding_a_known_entity_again_partial"
   ],
   "note": "REFUTED: a node with a known UID and a fresh id is accepted. Proved when the id is taken too, which is the case for what NewNode returns."
  },
  {
   "property": "C05",
   "status": "partial",
   "theorems": [
    "c05_upsert_replaces_refuted",
    "c05_upsert_replaces_partial",
    "c05_add_node_exact"
   ],
   "note": "REFUTED: upsert leaves the old node in Nodes(). Proved: the exact effect of AddNode in every reachable state."
  },
  {
   "property": "C06",
   "status": "proved",
   "theorems": [
    "c06_link"
   ],
   "note": "On consistent graphs; linking a node with itself is C15."
  },
  {
   "property": "C07",
   "status": "proved",
   "theorems": [
    "c07_unlink"
   ],
   "note": ""
  },
  {
   "property": "C08",
   "status": "proved",
   "theorems": [
    "c08_remove_node"
   ],
   "note": ""
  },
  {
   "property": "C09",
   "status": "proved",
   "theorems": [
    "c09_from_exact"
   ],
   "note": ""
  },
  {
   "property": "C10",
   "status": "proved",
   "theorems": [
    "c10_edges_once"
   ],
   "note": ""
  },
  {
   "property": "C100",
   "status": "proved",
   "theorems": [
    "c100_dot_describes_graph",
    "c100_every_edge_written"
   ],
   "note": "At the level of statements; layout and quoting of gonum are not modelled."
  },
  {
   "property": "C101",
   "status": "partial",
   "theorems": [
    "c101_dot_carries_options_refuted",
    "c101_never_carried",
    "c101_attributes_refuted",
    "c101_dot_carries_options_partial",
    "c101_marshal_self_partial"
   ],
   "note": "REFUTED: DOT marshals the embedded gonum graph with an empty name, so the document has no name and no default attributes, for every graph. Proved: DOTID and DOTAttributers keep what the graph was made with, and marshaling with them would carry both."
  },
  {
   "property": "C102",
   "status": "partial",
   "theorems": [
    "c102_dot_deterministic_refuted",
    "c102_dot_deterministic_partial"
   ],
   "note": "REFUTED: the attributes of a node or edge come in map order. Proved: two documents differ only in the order inside attribute lists."
  },
  {
   "property": "C103",
   "status": "partial",
   "theorems": [
    "c103_names_tell_nodes_apart_refuted",
    "c103_uid_names_partial"
   ],
   "note": "REFUTED: two resources of one group, version and kind have one DOT id by default, and the document has one name for both. Proved: if DOT ids are the UIDs, names and nodes match one to one and a statement joins two names exactly when Edge finds an edge."
  },
  {
   "property": "C104",
   "status": "proved",
   "theorems": [
    "c104_weight",
    "c104_default_kept",
    "c104_edges_by_id"
   ],
   "note": ""
  },
  {
   "property": "C105",
   "status": "proved",
   "theorems": [
    "c105_ids_compact"
   ],
   "note": ""
  },
  {
   "property": "C106",
   "status": "partial",
   "theorems": [
    "c106_readers_partial",
    "c106_no_bulk_partial",
    "c106_no_deadlock_partial",
    "c106_alone",
    "c106_beside_refuted",
    "c106_bulk_add_refuted",
    "c106_link_and_writer_refuted",
    "c106_add_and_create_refuted"
   ],
   "note": "REFUTED: a direct Nodes sees half of a BulkAdd; a store Link and any direct call that takes the write lock of the graph can block each other for ever, on every store; a store Add and a direct Create can give two entities the same id.  Shown: if the direct calls only read (Node, Nodes, Edge, Edges, From), the store calls behave as if the readers were not there, every read is a sequential read of a state the store passes through, after exactly the earlier store calls of its goroutine, nothing deadlocks and nothing races.  If moreover no goroutine calls BulkAdd, BulkDelete, BulkLink or BulkUnlink, all calls together are linearizable."
  },
  {
   "property": "C107",
   "status": "partial",
   "theorems": [
    "c107_owned_partial",
    "c107_attributes_shared_refuted",
    "c107_race_refuted",
    "c107_stored_refuted",
    "c107_keys_panic_refuted",
    "c107_lost_set_refuted",
    "c107_torn_copy_refuted"
   ],
   "note": "REFUTED: attributes have no mutex. On every map a Set races with every other call, also when both goroutines got the same entity from a store; Keys (so also ToMap, copies and DOT) panics with an index out of range when a Set adds a key while it runs; one of two Sets can be lost; ToMap can return content the map never had.  Proved: if a map that one goroutine sets is used by no other, in particular if nobody calls Set, all calls are linearizable, race free and do not panic."
  },
  {
   "property": "C108",
   "status": "partial",
   "theorems": [
    "c108_graph",
    "c108_graph_fails",
    "c108_failed_call_changes_nothing_refuted",
    "c108_store_partial"
   ],
   "note": "REFUTED: a BulkAdd or BulkLink that fails keeps what it did before the failing item (C20 says exactly what).  Proved: every failing call on a graph, and every failing call on a store other than these two, changes nothing, and the theorems list for each call the only reasons to fail; Delete, Unlink, RemoveNode and the bulk versions never fail."
  },
  {
   "property": "C109",
   "status": "partial",
   "theorems": [
    "c109_own_attributes_refuted",
    "c109_bulk_add_shares",
    "c109_own_attributes_partial",
    "c109_new_attributes",
    "c109_caller_keeps_access"
   ],
   "note": "REFUTED: WithAttrs does not copy, so a BulkAdd with WithAttrs gives all its entities one set of attributes, on every store, and the caller keeps access to it.  Proved: if no call brings attributes that are in the store already, and bulk calls bring none, all entities and links have attributes of their own after every history."
  },
  {
   "property": "C11",
   "status": "proved",
   "theorems": [
    "c11_ball"
   ],
   "note": ""
  },
  {
   "property": "C110",
   "status": "partial",
   "theorems": [
    "c110_snapshot_refuted",
    "c110_edges_refuted",
    "c110_snapshot_partial",
    "c110_links_partial",
    "c110_any_partial"
   ],
   "note": "REFUTED: SubGraph copies the edges after it released the lock; an Unlink in between gives a result with two nodes at distance one and no edge, which no graph at all has as its ball.  If nodes are removed and added, it can even return an edge that was in the graph at no moment, because ids are reused.  Proved: while no goroutine makes a call that changes the graph, every SubGraph, beside any number of other SubGraph, NewNode and read calls, returns exactly the ball with its edges, weights and attributes.  If the only changing calls are Link and Unlink, the nodes are the ball at one moment, every edge was there at some moment, and edges that are there all the time are returned.  Beside any calls the result has no other nodes than the root of one moment and nodes of one moment, and its edges join them with weights of edges of some moments."
  },
  {
   "property": "C111",
   "status": "partial",
   "theorems": [
    "c111_subgraph_refuted",
    "c111_panics_partial",
    "c111_which_partial",
    "c111_twins_partial",
    "c111_root_partial",
    "c110_links_partial"
   ],
   "note": "REFUTED: SubGraph looks up its root and walks in two critical sections; if the root is removed, another node takes its id and the root is added again and linked from that node in between, SubGraph panics with a self edge, although it panics at no moment alone.  Proved: every other call panics only if it would alone at some moment, beside any calls, SubGraph included.  Hence Node, Nodes, Edge, Edges, From, AddNode, RemoveNode, Unlink and DOT never panic, NewNode only if no id is free, Link only if both UIDs belong to nodes with one id at one moment.  SubGraph does not panic beside calls that keep the nodes (c110_links_partial).  It panics only if two nodes of its walk have one UID and different ids; if no graph of the execution has two nodes with one UID, only if a node with the UID asked for has another id than the root found."
  },
  {
   "property": "C112",
   "status": "proved",
   "theorems": [
    "c112_subgraph_errors",
    "c112_subgraph_found"
   ],
   "note": "From every reachable graph, beside any calls. That SubGraph can panic is C111."
  },
  {
   "property": "C12",
   "status": "proved",
   "theorems": [
    "c12_induced"
   ],
   "note": ""
  },
  {
   "property": "C13",
   "status": "partial",
   "theorems": [
    "c13_weights_and_attributes_refuted",
    "c13_any_edge_refuted",
    "c13_weights_and_attributes_partial",
    "c13_exact_partial"
   ],
   "note": "REFUTED: the innermost loop runs over all edges of the source graph, so a link gets the weight and attributes of whichever edge comes first; on every graph, for every edge there is a map order in which all links of the result are like that edge. Proved: the content always comes from one edge, and it is right in every order exactly when the edges inside the ball are like all edges of the graph."
  },
  {
   "property": "C14",
   "status": "proved",
   "theorems": [
    "c14_source_untouched"
   ],
   "note": ""
  },
  {
   "property": "C15",
   "status": "partial",
   "theorems": [
    "c15_linking_never_panics_refuted",
    "c15_linking_never_panics_partial"
   ],
   "note": "REFUTED: linking a node with itself panics. Proved: exactly when Link panics."
  },
  {
   "property": "C16",
   "status": "partial",
   "theorems": [
    "c16_default_weight_refuted",
    "c16_default_weight_partial"
   ],
   "note": "REFUTED: the default is 0, not DefaultWeight. Proved: the weight is the last WithWeight, else 0."
  },
  {
   "property": "C17",
   "status": "proved",
   "theorems": [
    "c17_refinement",
    "c17_step"
   ],
   "note": "Histories of up to 2^63-1 calls on a new store over a new graph of either kind; c17_step has no bound and allows only the panic of the exhausted id allocator besides. An upsert of a known entity is specified as a no-op (see C18); linking an entity with itself panics (see C15)."
  },
  {
   "property": "C18",
   "status": "partial",
   "theorems": [
    "c18_upsert_replaces_refuted",
    "c18_upsert_replaces_partial"
   ],
   "note": "REFUTED: upserting a known entity changes nothing. Proved: the exact effect for known and unknown entities."
  },
  {
   "property": "C19",
   "status": "partial",
   "theorems": [
    "c19_bulk_get_refuted",
    "c19_bulk_get_partial",
    "c19_bulk_get_one_partial"
   ],
   "note": "REFUTED: the slot index is never incremented. Proved: the exact result; the full statement for at most one UID."
  },
  {
   "property": "C20",
   "status": "proved",
   "theorems": [
    "c20_bulk_add",
    "c20_bulk_delete",
    "c20_bulk_link",
    "c20_bulk_unlink"
   ],
   "note": ""
  },
  {
   "property": "C21",
   "status": "partial",
   "theorems": [
    "c21_stored_attributes_refuted",
    "c21_stored_attributes_partial"
   ],
   "note": "REFUTED: Get returns the graph node, whose attributes hide the entity's. Proved: UID, type, DOT id kept, attributes are those of WithAttrs or a new empty set."
  },
  {
   "property": "C22",
   "status": "proved",
   "theorems": [
    "c22_plan_linearizable",
    "c22_cache_linearizable",
    "c22_store_linearizable",
    "c22_store_abstract",
    "c22_graph_programs_sequential"
   ],
   "note": "Every number of goroutines, schedule and call mix. c22_store_abstract is against the map of C17, for single calls on a new store and fewer Adds than int64 ids."
  },
  {
   "property": "C23",
   "status": "partial",
   "theorems": [
    "c23_dot_freezes_graph_refuted",
    "c23_dot_releases_refuted",
    "c23_lock_released_partial"
   ],
   "note": "REFUTED: the deferred call is RLock; after any DOT call the graph never changes again, over all continuations. Proved: without DOT the lock is free whenever no call is in progress."
  },
  {
   "property": "C24",
   "status": "partial",
   "theorems": [
    "c24_graph_deadlock_refuted",
    "c24_graph_deadlock_partial",
    "c24_link_alone_partial",
    "c24_link_and_writer_refuted",
    "c24_plan_never_deadlocks",
    "c24_cache_never_deadlocks",
    "c24_store_never_deadlocks",
    "c24_every_execution_ends"
   ],
   "note": "REFUTED: two concurrent Link calls can deadlock (nested read lock), and on every graph so can a Link and any other call that takes the write lock. Proved: Link is safe when the other goroutines only read; graph calls other than Link and DOT, and all plan, cache and store calls never deadlock, and every execution ends."
  },
  {
   "property": "C25",
   "status": "partial",
   "theorems": [
    "c25_ghosts_refuted",
    "c25_ghosts_partial"
   ],
   "note": "REFUTED: RemoveNode between the lookup and the insertion of Link leaves a listed node that cannot be found. Proved: impossible through the store."
  },
  {
   "property": "C26",
   "status": "partial",
   "theorems": [
    "c26_distinct_nodes_refuted",
    "c26_distinct_nodes_partial"
   ],
   "note": "REFUTED: two NewNode calls before the first AddNode give the same id, and Nodes lists only one node. Proved: concurrent Adds on a store all end up listed with distinct ids."
  },
  {
   "property": "C27",
   "status": "partial",
   "theorems": [
    "c27_links_found_from_both_ends_refuted",
    "c27_links_found_from_both_ends_partial"
   ],
   "note": "REFUTED: the full statement is false of the code (Links.put recreates the row of an end whenever the pair is new, so a second link from the same origin evicts the first). Proved instead: the link stays reachable from an end as long as no link with that end and a different peer is put."
  },
  {
   "property": "C28",
   "status": "proved",
   "theorems": [
    "c28_exact_content"
   ],
   "note": ""
  },
  {
   "property": "C29",
   "status": "proved",
   "theorems": [
    "c29_put_without_upsert_keeps",
    "c29_put_with_upsert_replaces"
   ],
   "note": ""
  },
  {
   "property": "C30",
   "status": "partial",
   "theorems": [
    "c30_delete_removes_all_refuted",
    "c30_delete_removes_all_partial"
   ],
   "note": "REFUTED: Delete(u) leaves the links touching u in the rows of their other ends. Proved instead: GetFrom(u) and GetTo(u) become empty and nothing else changes."
  },
  {
   "property": "C31",
   "status": "partial",
   "theorems": [
    "c31_indexes_agree_refuted",
    "c31_indexes_agree_partial"
   ],
   "note": "REFUTED: the two indexes disagree after two puts with a common origin. Proved instead: each index only returns links that were put, under their own end."
  },
  {
   "property": "C32",
   "status": "proved",
   "theorems": [
    "c32_bulk_writes_are_folds",
    "c32_bulk_reads_match"
   ],
   "note": ""
  },
  {
   "property": "C33",
   "status": "partial",
   "theorems": [
    "c33_uids_compared_by_text_refuted",
    "c33_uids_compared_by_text_partial"
   ],
   "note": "REFUTED for the cache, whose keys are uuid.UID interface values (pointer identity). Proved for plan, store and graph calls."
  },
  {
   "property": "C34",
   "status": "proved",
   "theorems": [
    "c34_plan_is_a_map"
   ],
   "note": ""
  },
  {
   "property": "C35",
   "status": "proved",
   "theorems": [
    "c35_attributes_are_a_map"
   ],
   "note": ""
  },
  {
   "property": "C36",
   "status": "proved",
   "theorems": [
    "c36_copies_are_independent",
    "c36_from_map_is_independent"
   ],
   "note": ""
  },
  {
   "property": "C37",
   "status": "proved",
   "theorems": [
    "c37_to_map_faithful",
    "c37_new_copy_from_errors",
    "c37_dot_attrs_faithful",
    "c37_memory_attrs_faithful"
   ],
   "note": ""
  },
  {
   "property": "C38",
   "status": "proved",
   "theorems": [
    "c38_entity",
    "c38_resource",
    "c38_object",
    "c38_link",
    "c38_node",
    "c38_edge",
    "c38_graph"
   ],
   "note": ""
  },
  {
   "property": "C39",
   "status": "partial",
   "theorems": [
    "c39_resource_dot_ids_refuted",
    "c39_resource_dot_ids_partial",
    "c39_object_dot_ids_partial"
   ],
   "note": "REFUTED: DOT ids are joined with '/', so components containing '/' collide. Proved instead: injective when the components contain no '/'."
  },
  {
   "property": "C40",
   "status": "proved",
   "theorems": [
    "c40_generated_uids_unique"
   ],
   "note": "Assumes the random generator behind uuid.New never repeats a value (the world model)."
  },
  {
   "property": "C41",
   "status": "proved",
   "theorems": [
    "c41_last_option_wins",
    "c41_pipeline_options"
   ],
   "note": ""
  },
  {
   "property": "C42",
   "status": "proved",
   "theorems": [
    "c42_from_to",
    "c42_to_from",
    "c42_errors"
   ],
   "note": ""
  },
  {
   "property": "C43",
   "status": "proved",
   "theorems": [
    "c43_json_roundtrip"
   ],
   "note": "encoding/json is modelled on bytes (Model/Json.v)."
  },
  {
   "property": "C44",
   "status": "partial",
   "theorems": [
    "c44_dispatch_refuted",
    "c44_object_refuted",
    "c44_order_partial",
    "c44_content_partial",
    "c44_unmarshal_targets_partial"
   ],
   "note": "REFUTED: a link that also has Type is encoded as entity without its ends; a value with the methods of resource and object as resource. Proved: the exact order of the cases and the content."
  },
  {
   "property": "C45",
   "status": "partial",
   "theorems": [
    "c45_dotid_survives_refuted",
    "c45_dotid_becomes_default_partial"
   ],
   "note": "REFUTED: a custom DOT id is not serialised. Proved: it becomes the default one."
  },
  {
   "property": "C46",
   "status": "proved",
   "theorems": [
    "c46_fifo",
    "c46_topics",
    "c46_once",
    "c46_receiver_order"
   ],
   "note": "Every execution of the broker machine."
  },
  {
   "property": "C47",
   "status": "proved",
   "theorems": [
    "c47_capacity",
    "c47_full_waits"
   ],
   "note": ""
  },
  {
   "property": "C48",
   "status": "proved",
   "theorems": [
    "c48_failed_pub"
   ],
   "note": ""
  },
  {
   "property": "C49",
   "status": "partial",
   "theorems": [
    "c49_successful_pub_refuted",
    "c49_successful_pub_partial"
   ],
   "note": "REFUTED: Pub returns nil when its context is cancelled and when the broker is closed. Proved: these are the only ways."
  },
  {
   "property": "C50",
   "status": "partial",
   "theorems": [
    "c50_no_loss_refuted",
    "c50_no_loss_partial",
    "c50_available_partial"
   ],
   "note": "REFUTED: a timed out Receive takes a message and drops it. Proved: nothing else is lost, and the rest of the queue can be received in order."
  },
  {
   "property": "C51",
   "status": "proved",
   "theorems": [
    "c51_refused"
   ],
   "note": ""
  },
  {
   "property": "C52",
   "status": "partial",
   "theorems": [
    "c52_session_refuted",
    "c52_session_pub_refuted",
    "c52_session_partial",
    "c52_first_session_partial"
   ],
   "note": "REFUTED: the goroutine of an earlier Open, woken by Close, closes the next session; a Pub with a cancelled context closes the broker. Proved: exactly who can end a session."
  },
  {
   "property": "C53",
   "status": "proved",
   "theorems": [
    "c53_no_crash",
    "c53_only_unsubscribe_panics"
   ],
   "note": ""
  },
  {
   "property": "C54",
   "status": "partial",
   "theorems": [
    "c54_unsubscribe_refuted",
    "c54_unsubscribe_partial"
   ],
   "note": "REFUTED: two concurrent Unsubscribe calls close a channel twice. Proved when calls on one subscriber do not overlap."
  },
  {
   "property": "C55",
   "status": "proved",
   "theorems": [
    "c55_no_delivery"
   ],
   "note": ""
  },
  {
   "property": "C56",
   "status": "partial",
   "theorems": [
    "c56_new_session_refuted",
    "c56_new_session_partial"
   ],
   "note": "REFUTED: Close forgets only topics with subscribers, messages on others survive. Proved for topics subscribed to in the session."
  },
  {
   "property": "C57",
   "status": "partial",
   "theorems": [
    "c57_fanout_refuted"
   ],
   "note": "REFUTED: the sink is ignored; for every option list each message is handled at most once."
  },
  {
   "property": "C58",
   "status": "partial",
   "theorems": [
    "c58_default_capacity_refuted",
    "c58_capacity_partial"
   ],
   "note": "REFUTED: without WithCap nothing is ever buffered, in all executions. Proved: the exact capacity for every option list."
  },
  {
   "property": "C59",
   "status": "partial",
   "theorems": [
    "c59_digest_stops_refuted",
    "c59_digest_stops_closed_refuted",
    "c59_digest_result_partial",
    "c59_digest_stops_partial",
    "c59_digest_ends_partial"
   ],
   "note": "REFUTED: from every state with a cancelled context Digest can spin for ever, also after Close, and it never returns nil. Proved: after Unsubscribe returned it takes at most three more steps, and in every infinite fair execution it returns."
  },
  {
   "property": "C60",
   "status": "proved",
   "theorems": [
    "c60_digest"
   ],
   "note": "Digest as used by digester/simple: Receive in a loop."
  },
  {
   "property": "C61",
   "status": "proved",
   "theorems": [
    "c61_ingest"
   ],
   "note": ""
  },
  {
   "property": "C62",
   "status": "partial",
   "theorems": [
    "c62_constructor_options_refuted",
    "c62_call_options_partial"
   ],
   "note": "REFUTED: constructor options of all three are ignored. Proved: options of the call take effect."
  },
  {
   "property": "C63",
   "status": "partial",
   "theorems": [
    "c63_forward_refuted",
    "c63_forward_partial"
   ],
   "note": "REFUTED: store and marshaler are dropped, and the broker of the runner. Proved: exactly what Scrape is called with."
  },
  {
   "property": "C64",
   "status": "proved",
   "theorems": [
    "c64_type_names"
   ],
   "note": ""
  },
  {
   "property": "C65",
   "status": "proved",
   "theorems": [
    "c65_plan_race_free",
    "c65_cache_race_free",
    "c65_store_race_free"
   ],
   "note": ""
  },
  {
   "property": "C66",
   "status": "partial",
   "theorems": [
    "c66_graph_race_refuted",
    "c66_graph_race_partial",
    "c66_only_subgraph_partial"
   ],
   "note": "REFUTED: SubGraph copies edges without holding the lock. Proved: in every race one side is such a read in SubGraph and the other a call that changes the graph, so there is no race when no goroutine changes the graph while another calls SubGraph."
  },
  {
   "property": "C67",
   "status": "proved",
   "theorems": [
    "c67_no_early_timeout",
    "c67_pub_timeout",
    "c67_recv_timeout"
   ],
   "note": ""
  },
  {
   "property": "C68",
   "status": "proved",
   "theorems": [
    "c68_bounded"
   ],
   "note": ""
  },
  {
   "property": "C69",
   "status": "proved",
   "theorems": [
    "c69_no_deadlock"
   ],
   "note": "Unsubscribe may end by the panic of C54 instead."
  },
  {
   "property": "C70",
   "status": "proved",
   "theorems": [
    "c70_empty_receive"
   ],
   "note": ""
  },
  {
   "property": "C71",
   "status": "partial",
   "theorems": [
    "c71_unsubscribed_is_silent_refuted",
    "c71_unsubscribed_is_silent_partial"
   ],
   "note": "REFUTED: a Receive that waits while Unsubscribe runs can take a message published afterwards. Proved: every call under way delivers at most one more message. Calls started afterwards: C55."
  },
  {
   "property": "C72",
   "status": "partial",
   "theorems": [
    "c72_goroutines_end_refuted",
    "c72_goroutines_end_partial",
    "c72_goroutines_end_fair_partial"
   ],
   "note": "REFUTED: of two overlapping Opens the goroutine of the first is never woken, over all continuations that do not cancel its context. Proved: with a single Open every goroutine can end within five steps of its own once the broker was closed, and in every infinite fair execution it does."
  },
  {
   "property": "C73",
   "status": "partial",
   "theorems": [
    "c73_fields_race_refuted",
    "c73_fields_race_partial"
   ],
   "note": "REFUTED: Open against Pub and against the goroutine of an earlier session, Unsubscribe against Receive. Proved: no race on exit and ctl when Open is called once."
  },
  {
   "property": "C74",
   "status": "partial",
   "theorems": [
    "c74_registry_refuted",
    "c74_registry_partial",
    "c74_latest_partial"
   ],
   "note": "REFUTED: a second Sub on a topic replaces the table of the first. Proved: the topic stays listed while the session lasts, and the subscriber of the latest Sub on a topic stays listed until it is unsubscribed or the broker closed (UUIDs not repeating)."
  },
  {
   "property": "C75",
   "status": "proved",
   "theorems": [
    "c75_receive"
   ],
   "note": ""
  },
  {
   "property": "C76",
   "status": "proved",
   "theorems": [
    "c76_marshal_deterministic",
    "c76_marshal_injective"
   ],
   "note": ""
  },
  {
   "property": "C77",
   "status": "partial",
   "theorems": [
    "c77_lossless_refuted",
    "c77_exact_loss_partial",
    "c77_cleaned_functional"
   ],
   "note": "REFUTED: invalid UTF-8 is replaced by U+FFFD. Proved: exactly that replacement happens, and which of several attributes with the same replaced key survives."
  },
  {
   "property": "C78",
   "status": "partial",
   "theorems": [
    "c78_node_keeps_kind_refuted",
    "c78_node_as_entity_partial"
   ],
   "note": "REFUTED: a node is encoded as entity. Proved: with the UID and type of its entity and the attributes of the node."
  },
  {
   "property": "C79",
   "status": "partial",
   "theorems": [
    "c79_requires_uid_refuted",
    "c79_accepted_partial"
   ],
   "note": "REFUTED: null and {} are accepted. Proved: only objects and null are, and the values null and {} give."
  },
  {
   "property": "C80",
   "status": "partial",
   "theorems": [
    "c80_no_panic_refuted",
    "c80_no_panic_partial"
   ],
   "note": "REFUTED: nil attributes panic. Proved: no panic without nil UIDs or attributes."
  },
  {
   "property": "C81",
   "status": "proved",
   "theorems": [
    "c81_read_as_entity"
   ],
   "note": ""
  },
  {
   "property": "C82",
   "status": "proved",
   "theorems": [
    "c82_dump",
    "c82_digest_prints"
   ],
   "note": ""
  },
  {
   "property": "C83",
   "status": "partial",
   "theorems": [
    "c83_type_is_kind_refuted",
    "c83_type_as_given_partial"
   ],
   "note": "REFUTED: the type is not checked against the value. Proved: the message is exactly what was given."
  },
  {
   "property": "C84",
   "status": "partial",
   "theorems": [
    "c84_default_marshaler_refuted",
    "c84_nothing_published_partial"
   ],
   "note": "REFUTED: encoding/json writes {} for every value of the repository, its fields are not exported."
  },
  {
   "property": "C85",
   "status": "partial",
   "theorems": [
    "c85_missing_plan_refuted"
   ],
   "note": "REFUTED: a nil plan is handed to the scraper, for all scrapers; ErrMissingPlan is never returned."
  },
  {
   "property": "C86",
   "status": "proved",
   "theorems": [
    "c86_end_to_end"
   ],
   "note": ""
  },
  {
   "property": "C87",
   "status": "proved",
   "theorems": [
    "c87_digest",
    "c87_never_nil"
   ],
   "note": ""
  },
  {
   "property": "C88",
   "status": "partial",
   "theorems": [
    "c88_unmarshaler_used_refuted"
   ],
   "note": "REFUTED: no unmarshaler has any effect."
  },
  {
   "property": "C89",
   "status": "proved",
   "theorems": [
    "c89_entity",
    "c89_resource",
    "c89_object",
    "c89_node",
    "c89_edge",
    "c89_reversed"
   ],
   "note": ""
  },
  {
   "property": "C90",
   "status": "proved",
   "theorems": [
    "c90_entity",
    "c90_resource",
    "c90_object",
    "c90_node"
   ],
   "note": ""
  },
  {
   "property": "C91",
   "status": "proved",
   "theorems": [
    "c91_new",
    "c91_history"
   ],
   "note": ""
  },
  {
   "property": "C92",
   "status": "proved",
   "theorems": [
    "c92_grammar",
    "c92_accepts"
   ],
   "note": ""
  },
  {
   "property": "C93",
   "status": "proved",
   "theorems": [
    "c93_content",
    "c93_functional"
   ],
   "note": ""
  },
  {
   "property": "C94",
   "status": "proved",
   "theorems": [
    "c94_run_closes",
    "c94_can_end"
   ],
   "note": ""
  },
  {
   "property": "C95",
   "status": "partial",
   "theorems": [
    "c95_forgotten_refuted",
    "c95_forgotten_partial",
    "c95_forgotten_fair_partial"
   ],
   "note": "REFUTED: a Sub that Close overtakes enters a subscriber that no goroutine removes. Proved: with a single Open, during the session, the removal can always be completed and is final, and in every infinite fair execution it happens."
  },
  {
   "property": "C96",
   "status": "partial",
   "theorems": [
    "c96_leaving_refuted",
    "c96_leaving_partial"
   ],
   "note": "REFUTED: a second Sub on the topic removes the first subscriber. Proved: that, Unsubscribe and Close are the only causes (UUIDs not repeating)."
  },
  {
   "property": "C97",
   "status": "proved",
   "theorems": [
    "c97_calls_return"
   ],
   "note": "Fairness: a goroutine that is ready again and again goes on again and again. Handlers are assumed to return."
  },
  {
   "property": "C98",
   "status": "proved",
   "theorems": [
    "c98_goroutine_ends",
    "c98_session_ends"
   ],
   "note": "Also needs that a select statement does not pass over the ready case of the context for ever."
  },
  {
   "property": "C99",
   "status": "partial",
   "theorems": [
    "c99_calls_linearizable_refuted",
    "c99_remove_add_refuted",
    "c99_link_link_refuted",
    "c99_adds_partial",
    "c99_removes_partial",
    "c99_links_partial"
   ],
   "note": "REFUTED: Link and RemoveNode overlapping leave a node that no sequential execution leaves, and so do two RemoveNode and an AddNode; two Links of the same pair may both make an edge and return different ones. Proved: AddNode with the reading calls (Node, Nodes, Edge, Edges, From) is linearizable from every graph, and so are RemoveNode and Unlink with the reading calls, also together with Link as long as no other goroutine links the same pair of UIDs or removes one of them."
  }
 ]
}