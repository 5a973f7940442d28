(** Common vocabulary of the model: results of Go calls, sentinel errors, UIDs,
    the heap of attribute maps, the UUID source, Go map iteration order. *)
From stdpp Require Export base gmap strings list sets.
From Coq Require Export NArith ZArith Lia.
Local Set Default Proof Using "Type".

(** Sentinel errors.  One constructor per error variable that some modelled
    function can return; the prefix names the package.
    pkg/graph/errors.go:5-28, pkg/store/errors.go:5-16, pkg/plan/errors.go:5-10,
    pkg/broker/errors.go:5-16, pkg/space/marshal/errors.go:5-10.
    [EForeign] stands for any error produced by caller supplied code
    (handlers, marshalers, attribute stores, scrapers), [ESyntax] for the errors
    of encoding/json. *)
Inductive goerr :=
| GraphErrSubGraph   (* the fmt.Errorf wrapped link error of pkg/graph/memory/wg.go:386 *)
| GraphErrInvalidNode | GraphErrNodeNotFound | GraphErrEdgeNotExist | GraphErrDuplicateNode
| StoreErrEntityNotFound | StoreErrAlreadyExists
| PlanErrResourceNotFound
| BrokerErrNotConnected | BrokerErrSubscriptionInactive | BrokerErrTimeout
| MarshalErrUnsuportedType
| ESyntax
| EForeign (code : N).
Global Instance goerr_eq_dec : EqDecision goerr.
Proof. solve_decision. Defined.

(** Run time panics the modelled code can raise. *)
Inductive gopanic :=
| PSelfEdge        (* gonum simple: SetWeightedEdge on equal ids *)
| PIDCollision     (* gonum simple: AddNode of a used id *)
| PNoSlot          (* gonum uid.Set: no id left *)
| PNilDeref        (* method call on a nil interface value *)
| PCloseClosed     (* close of a closed channel *)
| PIndex.          (* index out of range *)
Global Instance gopanic_eq_dec : EqDecision gopanic.
Proof. solve_decision. Defined.

(** Result of a Go call of type (T, error): every modelled function returns
    either a value and a nil error, or an error, or panics. *)
Inductive res (A : Type) :=
| Ok (a : A)
| Err (e : goerr)
| Panic (p : gopanic).
Arguments Ok {_} _. Arguments Err {_} _. Arguments Panic {_} _.

(** Functional options: [opts ...Option] is a list of functions on the options
    struct, applied left to right to the zero value by
    [for _, apply := range opts { apply(&o) }] at the top of every configurable
    function of the repository. *)
Definition apply_opts {O : Type} (zero : O) (opts : list (O -> O)) : O :=
  fold_left (fun o f => f o) opts zero.

Definition is_ok {A} (r : res A) : bool := match r with Ok _ => true | _ => false end.

Definition rbind {A B} (r : res A) (f : A -> res B) : res B :=
  match r with Ok a => f a | Err e => Err e | Panic p => Panic p end.
Definition rmap {A B} (f : A -> B) (r : res A) : res B :=
  match r with Ok a => Ok (f a) | Err e => Err e | Panic p => Panic p end.

(** uuid.UID (pkg/uuid/uuid.go:4-7) as a Go interface value.  The only
    implementation in the repository is memory.UID (pkg/uuid/memory/default.go:8-10);
    constructors hand out *UID, and UID itself also satisfies the interface.
    [UPtr p s] is a *UID at address [p] holding text [s]; [UVal s] is a UID value.
    Go's == and map lookup on interface values compare dynamic type and then the
    pointer (for *UID) or the string (for UID), which is Leibniz equality here as
    long as an address holds one text. *)
Inductive UID :=
| UPtr (p : N) (s : string)
| UVal (s : string).
Global Instance UID_eq_dec : EqDecision UID.
Proof. solve_decision. Defined.
Global Instance UID_countable : Countable UID.
Proof.
  refine (inj_countable'
    (fun u => match u with UPtr p s => inl (p, s) | UVal s => inr s end)
    (fun x => match x with inl (p, s) => UPtr p s | inr s => UVal s end) _).
  by intros [].
Defined.

(** UID.String, pkg/uuid/memory/default.go:27-29 *)
Definition uid_string (u : UID) : string :=
  match u with UPtr _ s => s | UVal s => s end.

(** *memattrs.Attrs: address of a map[string]string (pkg/attrs/memory/memory.go:11). *)
Definition aref := N.
Notation amap := (gmap string string).

(** The mutable world shared by all constructors: heap of attribute maps, the
    allocator, and the stream of google/uuid strings (an input, arbitrary). *)
Record world := World {
  w_attrs : gmap aref amap;
  w_next : N;
  w_uuid : nat -> string;
  w_cnt : nat;
}.

(** Every allocated address is below the allocator. *)
Definition world_wf (w : world) : Prop :=
  forall a m, w_attrs w !! a = Some m -> (a < w_next w)%N.

(** memuid.NewFromString, pkg/uuid/memory/default.go:13-17: a new pointer. *)
Definition uid_from_string (w : world) (s : string) : UID * world :=
  (UPtr (w_next w) s,
   World (w_attrs w) (w_next w + 1) (w_uuid w) (w_cnt w)).

(** memuid.New, pkg/uuid/memory/default.go:20-24: a new pointer holding the next
    string of the UUID source. *)
Definition uid_new (w : world) : UID * world :=
  (UPtr (w_next w) (w_uuid w (w_cnt w)),
   World (w_attrs w) (w_next w + 1) (w_uuid w) (S (w_cnt w))).

(** Go map iteration order: every execution of a range loop over a map (named by
    its site, a path of numbers) sees an arbitrary permutation of the entries. *)
Definition site := list nat.
Record iter_order := IterOrder {
  shuffle : forall A : Type, site -> list A -> list A;
  shuffle_perm : forall A n (l : list A), shuffle A n l ≡ₚ l;
}.
Arguments shuffle _ {_} _ _.

Program Definition iter_id : iter_order := IterOrder (fun _ _ l => l) _.
Next Obligation. done. Qed.
Program Definition iter_rev : iter_order := IterOrder (fun _ _ l => reverse l) _.
Next Obligation. intros A n l. simpl. apply reverse_Permutation. Qed.

(** Entries, keys and values of a Go map in iteration order [o] at site [n]. *)
Definition map_range {K V} `{Countable K} (o : iter_order) (n : site) (m : gmap K V) : list (K * V) :=
  shuffle o n (map_to_list m).

(** IEEE-754 double carried as its bit pattern; the code only copies weights. *)
Definition float64 := N.
Definition f64_zero : float64 := 0%N.
(** 1.0; used for graph.DefaultWeight, pkg/graph/options.go:8-11 *)
Definition f64_one : float64 := 4607182418800017408%N.
