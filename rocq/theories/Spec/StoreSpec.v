(** The store seen from outside: a finite map from UID texts to what was added,
    and a map from pairs of UID texts to the attributes asked for the link. *)
From Verif.Model Require Import Store.
From Verif.Spec Require Import OptionsSpec GraphSpec.

(** an added entity and the attributes asked for, if any *)
Notation stored := (gent * option aref)%type.
Record astate := AState { a_ents : gmap string stored; a_links : gmap (string * string) (option aref) }.

Inductive scall :=
| CAdd (e : gent) (l : list store_syn)
| CGet (u : UID)
| CDelete (u : UID)
| CLink (u v : UID) (l : list store_syn)
| CUnlink (u v : UID).
Definition scall_op (c : scall) : sop :=
  match c with
  | CAdd e l => SAdd e (store_den <$> l)
  | CGet u => SGet u
  | CDelete u => SDelete u
  | CLink u v l => SLink u v (store_den <$> l)
  | CUnlink u v => SUnlink u v
  end.
Inductive aret := AUnit (r : res unit) | AEnt (r : res stored).

(** the pair (u,v), with its mirror image if links have no direction *)
Definition link_pairs (dir : bool) (u v : string) : list (string * string) :=
  if dir then [(u, v)] else [(u, v); (v, u)].

Definition astep (dir : bool) (a : astate) (c : scall) : aret * astate :=
  match c with
  | CAdd e l =>
      let k := uid_string (ge_uid e) in
      match a_ents a !! k with
      | Some _ =>
          (* an upsert of a known entity is accepted and changes nothing, see C18 *)
          (AUnit (if default false (last_set store_upsert_of l) then Ok () else Err StoreErrAlreadyExists), a)
      | None => (AUnit (Ok ()),
                 AState (<[k := (e, default None (last_set store_attrs_of l))]> (a_ents a)) (a_links a))
      end
  | CGet u =>
      (AEnt (match a_ents a !! uid_string u with
             | Some x => Ok x | None => Err StoreErrEntityNotFound end), a)
  | CDelete u =>
      (AUnit (Ok ()),
       AState (delete (uid_string u) (a_ents a))
              (filter (fun '((x, y), _) => x <> uid_string u /\ y <> uid_string u) (a_links a)))
  | CLink u v l =>
      let x := uid_string u in
      let y := uid_string v in
      match a_ents a !! x, a_ents a !! y with
      | Some _, Some _ =>
          if bool_decide (x = y) then (AUnit (Panic PSelfEdge), a)
          else match a_links a !! (x, y) with
               | Some _ => (AUnit (Ok ()), a)
               | None =>
                   (AUnit (Ok ()),
                    AState (a_ents a)
                      (foldr (fun p m => <[p := default None (last_set store_attrs_of l)]> m)
                             (a_links a) (link_pairs dir x y)))
               end
      | _, _ => (AUnit (Err StoreErrEntityNotFound), a)
      end
  | CUnlink u v =>
      (AUnit (Ok ()),
       AState (a_ents a) (foldr (fun p m => delete p m) (a_links a)
                                (link_pairs dir (uid_string u) (uid_string v))))
  end.

(** A node shows what was added: the entity, the requested attributes, the DOT id. *)
Definition node_shows (n : node) (x : stored) : Prop :=
  n_ent n = x.1 /\ (forall a, x.2 = Some a -> n_attrs n = a) /\
  n_dotid n = (if ge_dot x.1 then ge_dotid x.1 else uid_string (ge_uid x.1)).
Definition ret_shows (r : sret) (a : aret) : Prop :=
  match r, a with
  | SRUnit r, AUnit r' => r = r'
  | SRNode (Ok n), AEnt (Ok x) => node_shows n x
  | SRNode (Err e), AEnt (Err e') => e = e'
  | _, _ => False
  end.
(** The graph of a store shows an abstract state. *)
Definition shows (g : wg) (a : astate) : Prop :=
  (forall u, match a_ents a !! uid_string u with
             | Some x => exists n, wg_node g u = Ok n /\ node_shows n x
             | None => wg_node g u = Err GraphErrNodeNotFound
             end) /\
  (forall u v, match a_links a !! (uid_string u, uid_string v) with
               | Some oa => exists e, wg_edge g u v = Ok e /\ ed_weight e = f64_zero /\
                                      forall a, oa = Some a -> ed_attrs e = a
               | None => forall e, wg_edge g u v <> Ok e
               end).

(** Histories with everything they return. *)
Fixpoint sresults (o : iter_order) (i : nat) (x : world * store) (ops : list sop)
    : list sret * (world * store) :=
  match ops with
  | [] => ([], x)
  | op :: ops' =>
      let '(r, x1) := sstep o [i] x op in
      let '(rs, x2) := sresults o (S i) x1 ops' in (r :: rs, x2)
  end.
Fixpoint aresults (dir : bool) (a : astate) (cs : list scall) : list aret * astate :=
  match cs with
  | [] => ([], a)
  | c :: cs' =>
      let '(r, a1) := astep dir a c in
      let '(rs, a2) := aresults dir a1 cs' in (r :: rs, a2)
  end.

(** [l] applied item by item from s to s', every item accepted *)
Inductive all_ok {S A} (f : S -> A -> res unit -> S -> Prop) : S -> list A -> S -> Prop :=
| all_ok_nil s : all_ok f s [] s
| all_ok_cons s x s1 l s2 : f s x (Ok ()) s1 -> all_ok f s1 l s2 -> all_ok f s (x :: l) s2.
(** Outcome of a bulk call: everything applied, or everything before the first
    refused item, with the refusal. *)
Definition bulk_spec {S A} (f : S -> A -> res unit -> S -> Prop) (s : S) (l : list A)
    (r : res unit) (s' : S) : Prop :=
  match r with
  | Ok _ => all_ok f s l s'
  | _ => exists pre x post s1, l = pre ++ x :: post /\ all_ok f s pre s1 /\ f s1 x r s'
  end.
