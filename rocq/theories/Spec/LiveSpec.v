(** Executions of the broker that go on for ever, and what it means that goroutines
    get their turn. *)
From Verif.Model Require Import Broker.
From Verif.Spec Require Import BrokerSpec.

(** states, labels and events, moment by moment *)
Record trace := Trace { conf_at : nat -> bconf; label_at : nat -> label; events_at : nat -> list event }.
Definition valid (uuid : nat -> string) (opts : list broker_option) (T : trace) : Prop :=
  conf_at T 0 = broker_init uuid opts /\
  forall n, bstep (conf_at T n) (label_at T n) = Some (conf_at T (S n), events_at T n).
(** everything that happened before moment [n] *)
Fixpoint upto (T : trace) (n : nat) : list event :=
  match n with 0 => [] | S n => upto T n ++ events_at T n end.

(** Goroutine [k] can do something. *)
Definition ready (cf : bconf) (k : nat) : Prop := exists l, own k l = true /\ is_Some (bstep cf l).
(** Every goroutine goes on again and again, or a moment comes from which on it cannot. *)
Definition fair (T : trace) : Prop :=
  forall k n, (exists m, n <= m /\ own k (label_at T m) = true) \/
    exists n', forall m, n' <= m -> ~ ready (conf_at T m) k.
(** The same for the cases "context done" and "exit" of the select statements: a case that
    is ready again and again is not passed over for ever. *)
Definition select_fair (T : trace) : Prop :=
  forall k ch n, ch = ChCtx \/ ch = ChExit -> (exists m, n <= m /\ label_at T m = LStep k ch) \/
    exists n', forall m, n' <= m -> bstep (conf_at T m) (LStep k ch) = None.
Definition time_passes (T : trace) : Prop := forall t, exists n, (t <= elapsed (upto T n))%Z.
