(** Linearizability, deadlock and data races, for the machine of Model/Lock.v. *)
From Verif.Model Require Import Lock.

Section lin.
  Context {S R Op : Type}.
  Notation event := (nat * Op * R)%type.
  (** A sequence of calls by numbered goroutines that the sequential object
      [call] answers in exactly this way, going from s to s'. *)
  Inductive legal (call : Op -> S -> R * S) : S -> list event -> S -> Prop :=
  | legal_nil s : legal call s [] s
  | legal_cons s i op r s1 l s2 :
      call op s = (r, s1) -> legal call s1 l s2 -> legal call s ((i, op, r) :: l) s2.
  (** the calls of goroutine [i] *)
  Fixpoint calls_of (i : nat) (l : list event) : list (Op * R) :=
    match l with
    | [] => []
    | (j, op, r) :: l' => if Nat.eqb j i then (op, r) :: calls_of i l' else calls_of i l'
    end.
  (** no call in progress *)
  Definition quiet (c : conf S R Op) : Prop := Forall (fun t => t_cur t = None) (c_ths c).

  (** For goroutines that make the calls [todo], every execution has a log of calls that
      - only grows as the execution goes on (so a call that returned before
        another one was made comes first),
      - is legal for the sequential object, whose state is the shared state
        whenever no call is in progress,
      - contains for every goroutine exactly its finished calls with the results
        they returned, possibly followed by the call in progress. *)
  Definition linearization (impl : Op -> prog S R) (call : Op -> S -> R * S) (s0 : S) (todo : list (list Op)) : Prop :=
    exists lin : list nat -> list event,
      (forall sched1 sched2, lin sched1 `prefix_of` lin (sched1 ++ sched2)) /\
      forall sched c, exec impl (conf_init s0 todo) sched = Some c ->
        (exists s', legal call s0 (lin sched) s' /\ (quiet c -> c_sh c = s')) /\
        (forall i t, c_ths c !! i = Some t ->
           calls_of i (lin sched) = t_done t \/
           exists op p r, t_cur t = Some (op, p) /\ calls_of i (lin sched) = t_done t ++ [(op, r)]) /\
        (forall i, length (c_ths c) <= i -> calls_of i (lin sched) = []).
  Definition linearizable (impl : Op -> prog S R) (call : Op -> S -> R * S) (s0 : S) : Prop :=
    forall todo, linearization impl call s0 todo.

  Definition enabled (impl : Op -> prog S R) (c : conf S R Op) (i : nat) : Prop :=
    exists c', conf_step impl c i = Some c'.
  (** a goroutine has something left to do and none can move *)
  Definition deadlocked (impl : Op -> prog S R) (c : conf S R Op) : Prop :=
    ~ finished c /\ forall i, ~ enabled impl c i.
  Definition reachable (impl : Op -> prog S R) (s0 : S) (todo : list (list Op)) (c : conf S R Op) : Prop :=
    exists sched, exec impl (conf_init s0 todo) sched = Some c.
  (** some call has returned (or is about to return) a result in P *)
  Definition returned (P : R -> Prop) (c : conf S R Op) : Prop :=
    exists t, t ∈ c_ths c /\
      ((exists op r, (op, r) ∈ t_done t /\ P r) \/ (exists op r, t_cur t = Some (op, Ret r) /\ P r)).

  (** two goroutines are about to access the shared data, one of them to change it *)
  Definition race (c : conf S R Op) : Prop :=
    exists i j t1 t2 op1 op2 u1 u2 k1 k2,
      i <> j /\ c_ths c !! i = Some t1 /\ c_ths c !! j = Some t2 /\
      t_cur t1 = Some (op1, Act u1 k1) /\ t_cur t2 = Some (op2, Act u2 k2) /\
      exists s, u1 s <> s.
End lin.
