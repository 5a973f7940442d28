(** pkg/attrs and pkg/attrs/memory. *)
From Verif.Model Require Export Go.

(** attrs.Attrs (pkg/attrs/attrs.go:24-31) seen through its two read methods, so
    that implementations other than memory.Attrs, which may fail, are covered. *)
Record attrsI := AttrsI {
  ai_keys : res (list string);
  ai_get : string -> res string;
}.

(** attrs/memory.New, pkg/attrs/memory/memory.go:14-18 *)
Definition attrs_new (w : world) : aref * world :=
  (w_next w, World (<[w_next w := ∅]> (w_attrs w)) (w_next w + 1) (w_uuid w) (w_cnt w)).

(** Allocation of a map with given content: the [make(Attrs)] of
    pkg/attrs/memory/memory.go:22 and :43 together with the writes that follow it
    before the address escapes. *)
Definition attrs_alloc (w : world) (m : amap) : aref * world :=
  (w_next w, World (<[w_next w := m]> (w_attrs w)) (w_next w + 1) (w_uuid w) (w_cnt w)).

(** The map an address holds.  Addresses come from the allocator, so the default
    is never used on reachable worlds. *)
Definition attrs_map (w : world) (a : aref) : amap := default ∅ (w_attrs w !! a).

(** Attrs.Keys, pkg/attrs/memory/memory.go:53-63: the keys in iteration order,
    copied one by one into a slice of length len(a). *)
Definition attrs_keys (o : iter_order) (n : site) (w : world) (a : aref) : res (list string) :=
  Ok (map_range o n (attrs_map w a)).*1.

(** Attrs.Get, pkg/attrs/memory/memory.go:67-69: zero value for a missing key. *)
Definition attrs_get (w : world) (a : aref) (k : string) : res string :=
  Ok (default ""%string (attrs_map w a !! k)).

(** Attrs.Set, pkg/attrs/memory/memory.go:72-75 *)
Definition attrs_set (w : world) (a : aref) (k v : string) : world :=
  World (<[a := <[k := v]> (attrs_map w a)]> (w_attrs w)) (w_next w) (w_uuid w) (w_cnt w).

(** memory.Attrs as an attrs.Attrs interface value in world [w]. *)
Definition mem_iface (o : iter_order) (n : site) (w : world) (a : aref) : attrsI :=
  AttrsI (attrs_keys o n w a) (attrs_get w a).

(** The loop shared by attrs.ToMap (pkg/attrs/attrs.go:48-53) and NewCopyFrom
    (pkg/attrs/memory/memory.go:30-35): m[k], err = a.Get(ctx, k); stop on error. *)
Fixpoint copy_loop (get : string -> res string) (ks : list string) (m : amap) : res amap :=
  match ks with
  | [] => Ok m
  | k :: ks' =>
      match get k with
      | Ok v => copy_loop get ks' (<[k := v]> m)
      | Err e => Err e
      | Panic p => Panic p
      end
  end.

(** attrs.ToMap, pkg/attrs/attrs.go:40-55; a nil interface panics on a.Keys. *)
Definition to_map (a : option attrsI) : res amap :=
  match a with
  | None => Panic PNilDeref
  | Some a => rbind (ai_keys a) (fun ks => copy_loop (ai_get a) ks ∅)
  end.

(** attrs/memory.NewCopyFrom, pkg/attrs/memory/memory.go:21-39.  The nil test at
    line 29 comes after a.Keys at line 24, so a nil argument panics. *)
Definition new_copy_from (w : world) (a : option attrsI) : res (aref * world) :=
  match a with
  | None => Panic PNilDeref
  | Some a =>
      rbind (ai_keys a) (fun ks =>
      rbind (copy_loop (ai_get a) ks ∅) (fun m => Ok (attrs_alloc w m)))
  end.

(** attrs/memory.NewFromMap, pkg/attrs/memory/memory.go:42-50.  A nil Go map
    ranges over nothing, so it is the empty map here. The loop over the source in
    iteration order is kept explicit. *)
Definition new_from_map (o : iter_order) (n : site) (w : world) (m : amap) : aref * world :=
  attrs_alloc w (foldl (fun acc kv => <[kv.1 := kv.2]> acc) (∅ : amap) (map_range o n m)).

(** memory.DOTAttrs, pkg/attrs/memory/dot.go:11-32, also the bodies of
    Node.Attributes (pkg/graph/memory/node.go:74-96) and Edge.Attributes
    (pkg/graph/memory/edge.go:121-143), which are the same code.
    encoding.Attribute is a key/value pair; None is the nil slice returned when
    Keys or Get fails. *)
Fixpoint dot_loop (get : string -> res string) (ks : list string) : option (list (string * string)) :=
  match ks with
  | [] => Some []
  | k :: ks' =>
      match get k with
      | Ok v => match dot_loop get ks' with Some l => Some ((k, v) :: l) | None => None end
      | _ => None
      end
  end.
Definition dot_attrs (a : attrsI) : option (list (string * string)) :=
  match ai_keys a with
  | Ok ks => dot_loop (ai_get a) ks
  | _ => None
  end.

(** Attrs.Attributes, pkg/attrs/memory/memory.go:79-81 *)
Definition attrs_attributes (o : iter_order) (n : site) (w : world) (a : aref) :=
  dot_attrs (mem_iface o n w a).

(** The attribute API as one step function: Set, Get, Keys on an existing value,
    and the three constructors. *)
Inductive aop :=
| ASet (a : aref) (k v : string)
| AGet (a : aref) (k : string)
| AKeys (a : aref)
| ANew
| ACopy (a : aref)
| AFromMap (m : amap).
Inductive aret := ARUnit | ARStr (r : res string) | ARKeys (r : res (list string)) | ARRef (r : res aref).
Definition astep (o : iter_order) (st : site) (w : world) (op : aop) : aret * world :=
  match op with
  | ASet a k v => (ARUnit, attrs_set w a k v)
  | AGet a k => (ARStr (attrs_get w a k), w)
  | AKeys a => (ARKeys (attrs_keys o st w a), w)
  | ANew => let '(a, w1) := attrs_new w in (ARRef (Ok a), w1)
  | ACopy b =>
      match new_copy_from w (Some (mem_iface o st w b)) with
      | Ok (a, w1) => (ARRef (Ok a), w1)
      | Err e => (ARRef (Err e), w)
      | Panic p => (ARRef (Panic p), w)
      end
  | AFromMap m => let '(a, w1) := new_from_map o st w m in (ARRef (Ok a), w1)
  end.
(** A history, newest event first, and the world it leads to. *)
Fixpoint arun (o : iter_order) (i : nat) (w : world) (h : list (aop * aret)) (ops : list aop)
    : list (aop * aret) * world :=
  match ops with
  | [] => (h, w)
  | op :: ops' => let '(r, w1) := astep o [i] w op in arun o (S i) w1 ((op, r) :: h) ops'
  end.
