(** pkg/store/options.go and pkg/store/memory/store.go. *)
From Verif.Model Require Export Graph.

(** store.Options, pkg/store/options.go:9-13; the Graph field is never read by
    the store and is left out. *)
Record store_opts := StoreOpts { so_upsert : bool; so_attrs : option aref }.
Definition store_opts_zero : store_opts := StoreOpts false None.
Notation store_option := (store_opts -> store_opts).
(** pkg/store/options.go:19-23 *)
Definition store_with_upsert : store_option := fun o => StoreOpts true (so_attrs o).
(** pkg/store/options.go:33-37 *)
Definition store_with_attrs (a : option aref) : store_option := fun o => StoreOpts (so_upsert o) a.

(** memory.Options of the store, pkg/store/memory/options.go:9-29.  The graph of
    a WithGraph option is one of the repository's implementations. *)
Record mstore_opts := MStoreOpts { mo_uid : option UID; mo_graph : option wg }.
Definition mstore_opts_zero : mstore_opts := MStoreOpts None None.
Notation mstore_option := (mstore_opts -> mstore_opts).
Definition mstore_with_uid (u : option UID) : mstore_option := fun o => MStoreOpts u (mo_graph o).
Definition mstore_with_graph (g : option wg) : mstore_option := fun o => MStoreOpts (mo_uid o) g.

(** memory.Memory, pkg/store/memory/store.go:17-24 *)
Record store := Store { s_uid : UID; s_g : wg }.

(** NewStore, pkg/store/memory/store.go:28-53 *)
Definition new_store (w : world) (opts : list mstore_option) : store * world :=
  let sopts := apply_opts mstore_opts_zero opts in
  let '(uid, w1) := uid_or_new (mo_uid sopts) w in
  match mo_graph sopts with
  | Some g => (Store uid g, w1)
  | None => let '(g, w2) := new_wug w1 [] in (Store uid g, w2)
  end.

(** Memory.Graph, pkg/store/memory/store.go:61-66 *)
Definition store_graph (s : store) : wg := s_g s.

(** [if err != nil && errors.Is(err, from) { return to }] *)
Definition map_err {A} (from to : goerr) (r : res A) : res A :=
  match r with
  | Err e => if bool_decide (e = from) then Err to else Err e
  | _ => r
  end.

(** Memory.add, pkg/store/memory/store.go:68-90 *)
Definition store_add (o : iter_order) (st : site) (w : world) (s : store) (e : gent)
    (opts : list store_option) : res unit * (world * store) :=
  let aopts := apply_opts store_opts_zero opts in
  match wg_new_node o st w (s_g s) e [graph_with_attrs (so_attrs aopts)] with
  | Err x => (Err x, (w, s))
  | Panic p => (Panic p, (w, s))
  | Ok (n, w1) =>
      if so_upsert aopts then
        let '(r, g1) := wg_add_node (s_g s) (MemNode n) [graph_with_upsert] in
        (r, (w1, Store (s_uid s) g1))
      else
        let '(r, g1) := wg_add_node (s_g s) (MemNode n) [] in
        (map_err GraphErrDuplicateNode StoreErrAlreadyExists r, (w1, Store (s_uid s) g1))
  end.

(** Memory.get, pkg/store/memory/store.go:100-115: the node object itself is
    returned as the store.Entity. *)
Definition store_get (s : store) (u : UID) : res node :=
  map_err GraphErrNodeNotFound StoreErrEntityNotFound (wg_node (s_g s) u).

(** Memory.delete, pkg/store/memory/store.go:125-132 *)
Definition store_delete (s : store) (u : UID) : res unit * store :=
  let '(r, g1) := wg_remove_node (s_g s) u in (r, Store (s_uid s) g1).

(** Memory.link, pkg/store/memory/store.go:142-153 *)
Definition store_link (w : world) (s : store) (u v : UID) (opts : list store_option)
    : res unit * (world * store) :=
  let lopts := apply_opts store_opts_zero opts in
  let '(r, (w1, g1)) := wg_link w (s_g s) u v [graph_with_attrs (so_attrs lopts)] in
  (map_err GraphErrNodeNotFound StoreErrEntityNotFound (rmap (fun _ => ()) r),
   (w1, Store (s_uid s) g1)).

(** Memory.unlink, pkg/store/memory/store.go:163-173 *)
Definition store_unlink (s : store) (u v : UID) : res unit * store :=
  let '(r, g1) := wg_unlink (s_g s) u v in (r, Store (s_uid s) g1).

(** Memory.BulkAdd, pkg/store/memory/store.go:184-194 *)
Fixpoint store_bulk_add (o : iter_order) (st : site) (w : world) (s : store) (es : list gent)
    (opts : list store_option) : res unit * (world * store) :=
  match es with
  | [] => (Ok (), (w, s))
  | e :: es' =>
      match store_add o (st ++ [length es']) w s e opts with
      | (Ok _, (w1, s1)) => store_bulk_add o st w1 s1 es' opts
      | r => r
      end
  end.

(** Memory.BulkGet, pkg/store/memory/store.go:197-212.  The slice has len(uids)
    nil slots; every found entity is written to slot i and i is never
    incremented.  None is a nil slot. *)
Fixpoint bulk_get_loop (s : store) (i : nat) (ents : list (option node)) (us : list UID)
    : res (list (option node)) :=
  match us with
  | [] => Ok ents
  | u :: us' =>
      match store_get s u with
      | Ok n => bulk_get_loop s i (<[i := Some n]> ents) us'
      | Err e => Err e
      | Panic p => Panic p
      end
  end.
Definition store_bulk_get (s : store) (us : list UID) : res (list (option node)) :=
  bulk_get_loop s 0 (replicate (length us) None) us.

(** Memory.BulkDelete, pkg/store/memory/store.go:215-225 *)
Fixpoint store_bulk_delete (s : store) (us : list UID) : res unit * store :=
  match us with
  | [] => (Ok (), s)
  | u :: us' =>
      match store_delete s u with
      | (Ok _, s1) => store_bulk_delete s1 us'
      | r => r
      end
  end.

(** Memory.BulkLink, pkg/store/memory/store.go:228-238 *)
Fixpoint store_bulk_link (w : world) (s : store) (u : UID) (vs : list UID)
    (opts : list store_option) : res unit * (world * store) :=
  match vs with
  | [] => (Ok (), (w, s))
  | v :: vs' =>
      match store_link w s u v opts with
      | (Ok _, (w1, s1)) => store_bulk_link w1 s1 u vs' opts
      | r => r
      end
  end.

(** Memory.BulkUnlink, pkg/store/memory/store.go:241-251 *)
Fixpoint store_bulk_unlink (s : store) (u : UID) (vs : list UID) : res unit * store :=
  match vs with
  | [] => (Ok (), s)
  | v :: vs' =>
      match store_unlink s u v with
      | (Ok _, s1) => store_bulk_unlink s1 u vs'
      | r => r
      end
  end.

(** The store API as one step function. *)
Inductive sop :=
| SAdd (e : gent) (opts : list store_option)
| SGet (u : UID)
| SDelete (u : UID)
| SLink (u v : UID) (opts : list store_option)
| SUnlink (u v : UID)
| SBulkAdd (es : list gent) (opts : list store_option)
| SBulkGet (us : list UID)
| SBulkDelete (us : list UID)
| SBulkLink (u : UID) (vs : list UID) (opts : list store_option)
| SBulkUnlink (u : UID) (vs : list UID).
Inductive sret :=
| SRUnit (r : res unit) | SRNode (r : res node) | SRNodes (r : res (list (option node))).
Definition sstep (o : iter_order) (st : site) (x : world * store) (op : sop) : sret * (world * store) :=
  let '(w, s) := x in
  match op with
  | SAdd e opts => let '(r, x1) := store_add o st w s e opts in (SRUnit r, x1)
  | SGet u => (SRNode (store_get s u), (w, s))
  | SDelete u => let '(r, s1) := store_delete s u in (SRUnit r, (w, s1))
  | SLink u v opts => let '(r, x1) := store_link w s u v opts in (SRUnit r, x1)
  | SUnlink u v => let '(r, s1) := store_unlink s u v in (SRUnit r, (w, s1))
  | SBulkAdd es opts => let '(r, x1) := store_bulk_add o st w s es opts in (SRUnit r, x1)
  | SBulkGet us => (SRNodes (store_bulk_get s us), (w, s))
  | SBulkDelete us => let '(r, s1) := store_bulk_delete s us in (SRUnit r, (w, s1))
  | SBulkLink u vs opts => let '(r, x1) := store_bulk_link w s u vs opts in (SRUnit r, x1)
  | SBulkUnlink u vs => let '(r, s1) := store_bulk_unlink s u vs in (SRUnit r, (w, s1))
  end.
Fixpoint srun (o : iter_order) (i : nat) (x : world * store) (ops : list sop) : world * store :=
  match ops with
  | [] => x
  | op :: ops' => srun o (S i) (sstep o [i] x op).2 ops'
  end.
