(** Memory.Graph hands out the graph of the store (pkg/store/memory/store.go lines
    61-66), so that goroutines can call the graph directly while others call the
    store.  A direct call takes only the mutex of the graph. *)
From Verif.Model Require Import Conc.

Notation mcall := (stcall + gcall)%type.
Notation mret := (sret + gqret)%type.
Definition mixed_prog (o : iter_order) (c : mcall) : prog sstate mret :=
  match c with
  | inl c => pmap inl (store_prog o c)
  | inr c => pmap inr (zoom (graph_prog o c))
  end.
(** the same calls made by a single goroutine *)
Definition mixed_call (o : iter_order) (c : mcall) (x : sstate) : mret * sstate :=
  match c with
  | inl c => let '(r, x1) := store_call o c x in (inl r, x1)
  | inr c => let '(r, y) := graph_call o c (x.1, s_g x.2) in (inr r, (y.1, Store (s_uid x.2) y.2))
  end.
