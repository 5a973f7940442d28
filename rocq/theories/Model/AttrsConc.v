(** Attributes used by several goroutines: pkg/attrs/memory has no mutex, and the
    values handed out by Attrs() of nodes, edges and entities are shared.  Maps are
    accessed one read or write at a time. *)
From Verif.Model Require Export Attrs Lock.

(** the map assignment m[k] = v once the map has been found *)
Definition attrs_put (w : world) (a : aref) (m : amap) : world :=
  World (<[a := m]> (w_attrs w)) (w_next w) (w_uuid w) (w_cnt w).
(** Attrs.Set, pkg/attrs/memory/memory.go:72-75 *)
Definition aset_prog (a : aref) (k v : string) : prog world unit :=
  pbind load (fun w => save (fun w' => attrs_put w' a (<[k := v]> (attrs_map w a)))).
(** Attrs.Get, pkg/attrs/memory/memory.go:67-69 *)
Definition aget_prog (a : aref) (k : string) : prog world (res string) :=
  pbind load (fun w => Ret (attrs_get w a k)).
(** Attrs.Keys, pkg/attrs/memory/memory.go:53-63: len(a), then the range loop, here
    in one step, which panics when it finds more keys than the slice has room for. *)
Definition fill_keys (n : nat) (ks : list string) : res (list string) :=
  if bool_decide (length ks <= n) then Ok (ks ++ replicate (n - length ks) ""%string) else Panic PIndex.
Definition akeys_prog (o : iter_order) (st : site) (a : aref) : prog world (res (list string)) :=
  pbind load (fun w1 => pbind load (fun w2 =>
    Ret (fill_keys (size (attrs_map w1 a)) (map_range o st (attrs_map w2 a)).*1))).
(** the loop of attrs.ToMap, pkg/attrs/attrs.go:48-53, and of NewCopyFrom,
    pkg/attrs/memory/memory.go:30-35: one Get for each key *)
Fixpoint acopy_loop (a : aref) (ks : list string) (m : amap) : prog world (res amap) :=
  match ks with
  | [] => Ret (Ok m)
  | k :: ks' => pbind (aget_prog a k) (fun r =>
      match r with
      | Ok v => acopy_loop a ks' (<[k := v]> m)
      | Err e => Ret (Err e)
      | Panic p => Ret (Panic p)
      end)
  end.
(** attrs.ToMap, pkg/attrs/attrs.go:40-55 *)
Definition atomap_prog (o : iter_order) (st : site) (a : aref) : prog world (res amap) :=
  pbind (akeys_prog o st a) (fun r =>
  match r with Ok ks => acopy_loop a ks ∅ | Err e => Ret (Err e) | Panic p => Ret (Panic p) end).
(** the loop of memory.DOTAttrs, pkg/attrs/memory/dot.go:11-32 *)
Fixpoint adot_loop (a : aref) (ks : list string) (acc : list (string * string)) : prog world (option (list (string * string))) :=
  match ks with
  | [] => Ret (Some acc)
  | k :: ks' => pbind (aget_prog a k) (fun r =>
      match r with Ok v => adot_loop a ks' (acc ++ [(k, v)]) | _ => Ret None end)
  end.
(** allocation: one step *)
Definition walloc {A} (f : world -> A * world) : prog world A := Act (fun w => (f w).2) (fun w => Ret (f w).1).

(** The calls: those of [aop], ToMap and Attributes, the latter also on the nodes
    and edges that share the map.  A call carries the site of its map iterations. *)
Inductive acop := AOne (op : aop) | AToMap (a : aref) | AAttributes (a : aref).
Inductive acret :=
| AROne (r : aret) | ARMap (r : res amap)
| ARDot (r : res (option (list (string * string)))).   (* a panic of Keys passes through *)
Notation acall := (site * acop)%type.
Definition attrs_prog (o : iter_order) (c : acall) : prog world acret :=
  match c.2 with
  | AOne (ASet a k v) => pmap (fun _ => AROne ARUnit) (aset_prog a k v)
  | AOne (AGet a k) => pmap (fun r => AROne (ARStr r)) (aget_prog a k)
  | AOne (AKeys a) => pmap (fun r => AROne (ARKeys r)) (akeys_prog o c.1 a)
  | AOne ANew => pmap (fun a => AROne (ARRef (Ok a))) (walloc attrs_new)
  | AOne (ACopy a) =>
      pbind (atomap_prog o c.1 a) (fun r =>
      match r with
      | Ok m => pmap (fun b => AROne (ARRef (Ok b))) (walloc (fun w => attrs_alloc w m))
      | Err e => Ret (AROne (ARRef (Err e)))
      | Panic p => Ret (AROne (ARRef (Panic p)))
      end)
  | AOne (AFromMap m) => pmap (fun a => AROne (ARRef (Ok a))) (walloc (fun w => new_from_map o c.1 w m))
  | AToMap a => pmap ARMap (atomap_prog o c.1 a)
  | AAttributes a =>
      pbind (akeys_prog o c.1 a) (fun r =>
      match r with
      | Ok ks => pmap (fun x => ARDot (Ok x)) (adot_loop a ks [])
      | Err _ => Ret (ARDot (Ok None))
      | Panic p => Ret (ARDot (Panic p))
      end)
  end.
(** the same calls made by one goroutine *)
Definition attrs_call (o : iter_order) (c : acall) (w : world) : acret * world :=
  match c.2 with
  | AOne op => let '(r, w1) := astep o c.1 w op in (AROne r, w1)
  | AToMap a => (ARMap (to_map (Some (mem_iface o c.1 w a))), w)
  | AAttributes a => (ARDot (Ok (attrs_attributes o c.1 w a)), w)
  end.
