(** What the link cache holds, by reading the history of calls. *)
From Verif.Model Require Import Cache.
From Verif.Spec Require Import OptionsSpec.

(** A cache call with options as data. *)
Inductive ccall :=
| KPut (l : link) (s : list cache_syn)
| KDelete (u : UID)
| KClear
| KBulkPut (ls : list link) (s : list cache_syn)
| KBulkDelete (us : list UID).
Definition ccall_op (c : ccall) : cop :=
  match c with
  | KPut l s => CPut l (cache_den <$> s)
  | KDelete u => CDelete u
  | KClear => CClear
  | KBulkPut ls s => CBulkPut ls (cache_den <$> s)
  | KBulkDelete us => CBulkDelete us
  end.
(** The elementary events of a call, in order; WithUpsert is the only option. *)
Inductive cev := EPut (l : link) (upsert : bool) | EDel (u : UID) | EClear.
Definition ccall_events (c : ccall) : list cev :=
  match c with
  | KPut l s => [EPut l (bool_decide (s <> []))]
  | KDelete u => [EDel u]
  | KClear => [EClear]
  | KBulkPut ls s => (fun l => EPut l (bool_decide (s <> []))) <$> ls
  | KBulkDelete us => EDel <$> us
  end.

(** One index, seen from the end [key] with the other end [peer]: what is stored
    for [u] after the events [h], newest first.  A put from another origin does
    not matter; a put to a different peer replaces what was there; a put to the
    same peer keeps it unless it is an upsert. *)
Fixpoint index_val (key peer : link -> UID) (h : list cev) (u : UID) : option link :=
  match h with
  | [] => None
  | EClear :: _ => None
  | EDel v :: h' => if bool_decide (v = u) then None else index_val key peer h' u
  | EPut l ups :: h' =>
      if bool_decide (key l = u) then
        match index_val key peer h' u with
        | Some l0 => if bool_decide (peer l0 = peer l /\ ups = false) then Some l0 else Some l
        | None => Some l
        end
      else index_val key peer h' u
  end.
Definition from_val := index_val l_from l_to.
Definition to_val := index_val l_to l_from.

(** what GetFrom or GetTo returns when the index holds [v] *)
Definition one_slot (v : option link) : res (list (option link)) :=
  Ok match v with Some l => [Some l] | None => [] end.
