(** Goroutines, sync.RWMutex and interleavings. *)
From Verif.Model Require Export Go.

(** A piece of Go code: atomic accesses to the shared state [S] and mutex calls.
    [Act u k] replaces the state s by [u s] and goes on with [k s], in one
    indivisible step; everything between two such steps is local to the
    goroutine.  Code is cut so that a plain read and a plain write of shared data
    are separate steps ([load], [save]); only memory allocation is one step.
    A panic is a result: deferred unlocks have then run. *)
Inductive prog (S R : Type) : Type :=
| Ret (r : R)
| Act (u : S -> S) (k : S -> prog S R)
| RLock (m : nat) (k : prog S R)
| RUnlock (m : nat) (k : prog S R)
| Lock (m : nat) (k : prog S R)
| LockWait (m : nat) (k : prog S R)   (* inside Lock: announced, waiting for readers *)
| Unlock (m : nat) (k : prog S R).
Arguments Ret {_ _} _. Arguments Act {_ _} _ _. Arguments RLock {_ _} _ _. Arguments RUnlock {_ _} _ _.
Arguments Lock {_ _} _ _. Arguments LockWait {_ _} _ _. Arguments Unlock {_ _} _ _.

Fixpoint pbind {S A B} (p : prog S A) (f : A -> prog S B) : prog S B :=
  match p with
  | Ret a => f a
  | Act u k => Act u (fun s => pbind (k s) f)
  | RLock m k => RLock m (pbind k f)
  | RUnlock m k => RUnlock m (pbind k f)
  | Lock m k => Lock m (pbind k f)
  | LockWait m k => LockWait m (pbind k f)
  | Unlock m k => Unlock m (pbind k f)
  end.
Definition pmap {S A B} (f : A -> B) (p : prog S A) : prog S B := pbind p (fun a => Ret (f a)).
Definition load {S} : prog S S := Act id Ret.
Definition save {S} (f : S -> S) : prog S unit := Act f (fun _ => Ret ()).
(** [mu.Lock(); defer mu.Unlock(); body] and the read version *)
Definition locked {S A} (m : nat) (body : prog S A) : prog S A :=
  Lock m (pbind body (fun a => Unlock m (Ret a))).
Definition rlocked {S A} (m : nat) (body : prog S A) : prog S A :=
  RLock m (pbind body (fun a => RUnlock m (Ret a))).

(** sync.RWMutex: number of readers holding it, whether a writer has announced
    itself (it owns the inner mutex and makes readerCount negative), whether that
    writer holds the lock.  RLock blocks while a writer is announced; a writer
    announces itself when no other is, and then waits until the readers are gone. *)
Record mstate := MState { m_rd : nat; m_ann : bool; m_wr : bool }.
Definition mfree : mstate := MState 0 false false.
Notation mutexes := (nat -> mstate).
Definition mu_set (mu : mutexes) (m : nat) (x : mstate) : mutexes :=
  fun i => if Nat.eqb i m then x else mu i.

(** One step of a goroutine; None: blocked (or, for the unlocks, the fatal error
    of unlocking an unlocked mutex). *)
Definition prog_step {S R} (s : S) (mu : mutexes) (p : prog S R) : option (S * mutexes * prog S R) :=
  match p with
  | Ret _ => None
  | Act u k => Some (u s, mu, k s)
  | RLock m k =>
      if m_ann (mu m) then None
      else Some (s, mu_set mu m (MState (1 + m_rd (mu m)) (m_ann (mu m)) (m_wr (mu m))), k)
  | RUnlock m k =>
      match m_rd (mu m) with
      | 0 => None
      | Datatypes.S n => Some (s, mu_set mu m (MState n (m_ann (mu m)) (m_wr (mu m))), k)
      end
  | Lock m k =>
      if m_ann (mu m) then None
      else Some (s, mu_set mu m (MState (m_rd (mu m)) true (m_wr (mu m))), LockWait m k)
  | LockWait m k =>
      match m_rd (mu m) with
      | 0 => Some (s, mu_set mu m (MState 0 (m_ann (mu m)) true), k)
      | _ => None
      end
  | Unlock m k =>
      if m_wr (mu m) then Some (s, mu_set mu m (MState (m_rd (mu m)) false false), k) else None
  end.

(** Goroutines that make calls one after the other. *)
Section machine.
  Context {S R Op : Type} (impl : Op -> prog S R).
  Record thread := Thread {
    t_cur : option (Op * prog S R);   (* the call being executed *)
    t_todo : list Op;                 (* calls still to be made *)
    t_done : list (Op * R);           (* finished calls with their results, oldest first *)
  }.
  Record conf := Conf { c_sh : S; c_mu : mutexes; c_ths : list thread }.
  Definition conf_init (s : S) (todo : list (list Op)) : conf :=
    Conf s (fun _ => mfree) ((fun l => Thread None l []) <$> todo).
  Definition thread_step (s : S) (mu : mutexes) (t : thread) : option (S * mutexes * thread) :=
    match t_cur t with
    | None =>
        match t_todo t with
        | [] => None
        | op :: ops => Some (s, mu, Thread (Some (op, impl op)) ops (t_done t))
        end
    | Some (op, Ret r) => Some (s, mu, Thread None (t_todo t) (t_done t ++ [(op, r)]))
    | Some (op, p) =>
        match prog_step s mu p with
        | None => None
        | Some (s', mu', p') => Some (s', mu', Thread (Some (op, p')) (t_todo t) (t_done t))
        end
    end.
  (** let thread [i] make a step *)
  Definition conf_step (c : conf) (i : nat) : option conf :=
    match c_ths c !! i with
    | None => None
    | Some t =>
        match thread_step (c_sh c) (c_mu c) t with
        | None => None
        | Some (s', mu', t') => Some (Conf s' mu' (<[i := t']> (c_ths c)))
        end
    end.
  (** a schedule: which thread steps next *)
  Fixpoint exec (c : conf) (sched : list nat) : option conf :=
    match sched with
    | [] => Some c
    | i :: sched' =>
        match conf_step c i with
        | None => None
        | Some c' => exec c' sched'
        end
    end.
  Definition thread_finished (t : thread) : Prop := t_cur t = None /\ t_todo t = [].
  Definition finished (c : conf) : Prop := Forall thread_finished (c_ths c).
End machine.
Arguments Thread {_ _ _} _ _ _. Arguments t_cur {_ _ _} _. Arguments t_todo {_ _ _} _. Arguments t_done {_ _ _} _.
Arguments thread : clear implicits. Arguments conf : clear implicits.
Arguments Conf {_ _ _} _ _ _. Arguments c_sh {_ _ _} _. Arguments c_mu {_ _ _} _. Arguments c_ths {_ _ _} _.
Arguments finished {_ _ _} _. Arguments thread_finished {_ _ _} _.
