(** pkg/cache/options.go and pkg/cache/memory/links.go. *)
From Verif.Model Require Export Plan.

(** cache.Options, pkg/cache/options.go:4-17 *)
Record cache_opts := CacheOpts { co_upsert : bool }.
Definition cache_opts_zero : cache_opts := CacheOpts false.
Notation cache_option := (cache_opts -> cache_opts).
Definition cache_with_upsert : cache_option := fun _ => CacheOpts true.

(** one index: map[uuid.UID]map[uuid.UID]cache.Link, keyed by interface value *)
Notation link_index := (gmap UID (gmap UID link)).

(** memory.Links, pkg/cache/memory/links.go:12-19 *)
Record cache := Cache { c_from : link_index; c_to : link_index }.

(** NewLinks, pkg/cache/memory/links.go:22-28 *)
Definition new_cache : cache := Cache ∅ ∅.

(** c.from[f][t] read through possibly missing rows *)
Definition idx_get (m : link_index) (a b : UID) : option link := m !! a ≫= (.!! b).
(** [if m[a][b] == nil { m[a] = make(…) }], lines 38-44 *)
Definition idx_make (m : link_index) (a b : UID) : link_index :=
  match idx_get m a b with None => <[a := ∅]> m | Some _ => m end.
(** [m[a][b] = l]; the row exists at every use *)
Definition idx_set (m : link_index) (a b : UID) (l : link) : link_index :=
  <[a := <[b := l]> (default ∅ (m !! a))]> m.

(** Links.put, pkg/cache/memory/links.go:30-60 *)
Definition cache_put (c : cache) (l : link) (opts : list cache_option) : res unit * cache :=
  let copts := apply_opts cache_opts_zero opts in
  let f := l_from l in
  let t := l_to l in
  let from1 := idx_make (c_from c) f t in
  let to1 := idx_make (c_to c) t f in
  if co_upsert copts then (Ok (), Cache (idx_set from1 f t l) (idx_set to1 t f l))
  else
    let from2 := match idx_get from1 f t with None => idx_set from1 f t l | Some _ => from1 end in
    let to2 := match idx_get to1 t f with None => idx_set to1 t f l | Some _ => to1 end in
    (Ok (), Cache from2 to2).

(** Links.get, pkg/cache/memory/links.go:69-79 *)
Definition cache_get (o : iter_order) (st : site) (row : gmap UID link) : res (list (option link)) :=
  Ok (fill_slots (replicate (size row) None) 0 (map_range o st row).*2).

(** Links.GetFrom, pkg/cache/memory/links.go:82-91 *)
Definition cache_get_from (o : iter_order) (st : site) (c : cache) (u : UID) : res (list (option link)) :=
  match c_from c !! u with
  | Some row => cache_get o st row
  | None => Ok []
  end.

(** Links.GetTo, pkg/cache/memory/links.go:94-103 *)
Definition cache_get_to (o : iter_order) (st : site) (c : cache) (u : UID) : res (list (option link)) :=
  match c_to c !! u with
  | Some row => cache_get o st row
  | None => Ok []
  end.

(** Links.delete, pkg/cache/memory/links.go:105-109 *)
Definition cache_delete (c : cache) (u : UID) : res unit * cache :=
  (Ok (), Cache (delete u (c_from c)) (delete u (c_to c))).

(** Links.Clear, pkg/cache/memory/links.go:119-127 *)
Definition cache_clear (c : cache) : res unit * cache := (Ok (), Cache ∅ ∅).

(** Links.BulkPut, pkg/cache/memory/links.go:130-140 *)
Fixpoint cache_bulk_put (c : cache) (ls : list link) (opts : list cache_option) : res unit * cache :=
  match ls with
  | [] => (Ok (), c)
  | l :: ls' =>
      match cache_put c l opts with
      | (Ok _, c1) => cache_bulk_put c1 ls' opts
      | r => r
      end
  end.

(** the loop of BulkGetFrom (lines 149-161) and BulkGetTo (lines 172-184) *)
Fixpoint bulk_get_index (o : iter_order) (st : site) (m : link_index) (us : list UID)
    (acc : gmap UID (list (option link))) : res (gmap UID (list (option link))) :=
  match us with
  | [] => Ok acc
  | u :: us' =>
      match m !! u with
      | None => bulk_get_index o st m us' acc
      | Some row =>
          rbind (cache_get o (st ++ [length us']) row) (fun lx =>
          bulk_get_index o st m us' (<[u := [] ++ lx]> acc))
      end
  end.
(** Links.BulkGetFrom, pkg/cache/memory/links.go:143-163 *)
Definition cache_bulk_get_from (o : iter_order) (st : site) (c : cache) (us : list UID) :=
  bulk_get_index o st (c_from c) us ∅.
(** Links.BulkGetTo, pkg/cache/memory/links.go:166-186 *)
Definition cache_bulk_get_to (o : iter_order) (st : site) (c : cache) (us : list UID) :=
  bulk_get_index o st (c_to c) us ∅.

(** Links.BulkDelete, pkg/cache/memory/links.go:189-199 *)
Fixpoint cache_bulk_delete (c : cache) (us : list UID) : res unit * cache :=
  match us with
  | [] => (Ok (), c)
  | u :: us' =>
      match cache_delete c u with
      | (Ok _, c1) => cache_bulk_delete c1 us'
      | r => r
      end
  end.

(** The mutating API as one step function. *)
Inductive cop :=
| CPut (l : link) (opts : list cache_option)
| CDelete (u : UID)
| CClear
| CBulkPut (ls : list link) (opts : list cache_option)
| CBulkDelete (us : list UID).
Definition cstep (c : cache) (op : cop) : res unit * cache :=
  match op with
  | CPut l opts => cache_put c l opts
  | CDelete u => cache_delete c u
  | CClear => cache_clear c
  | CBulkPut ls opts => cache_bulk_put c ls opts
  | CBulkDelete us => cache_bulk_delete c us
  end.
Definition crun (c : cache) (ops : list cop) : cache := fold_left (fun c op => (cstep c op).2) ops c.
