(** What an execution of the broker did, read off its record of events. *)
From Verif.Model Require Import Broker.
From Verif.Spec Require Export OptionsSpec.

(** broker.Option as data, the capacity and the timeouts that a list of them asks for *)
Inductive broker_syn := BCap (c : Z) | BSink (s : Z) | BPub (d : Z) | BRecv (d : Z).
Definition broker_den (s : broker_syn) : broker_option :=
  match s with
  | BCap c => broker_with_cap c | BSink s => broker_with_sink s
  | BPub d => broker_with_pub_timeout d | BRecv d => broker_with_sub_timeout d
  end.
Definition broker_cap_of s := match s with BCap c => Some c | _ => None end.
Definition broker_pub_of s := match s with BPub d => Some d | _ => None end.
Definition broker_recv_of s := match s with BRecv d => Some d | _ => None end.
Definition capacity_of (l : list broker_syn) : nat :=
  match last_set broker_cap_of l with
  | Some c => if (c <? 0)%Z then 100 else Z.to_nat c
  | None => 0
  end.
Definition five_seconds : Z := 5000000000.
Definition nonzero_or (dflt : Z) (x : option Z) : Z :=
  match x with Some d => if (d =? 0)%Z then dflt else d | None => dflt end.
Definition recv_wait (l : list broker_syn) : Z := nonzero_or five_seconds (last_set broker_recv_of l).
(** options of the broker, options of the Pub *)
Definition pub_wait (l l' : list broker_syn) : Z :=
  nonzero_or (nonzero_or five_seconds (last_set broker_pub_of l)) (last_set broker_pub_of l').

(** messages that entered and left channel [c], oldest first *)
Definition sent (c : nat) (es : list event) : list message :=
  omap (fun e => match e with EAct _ (ASend c' m) => if Nat.eqb c' c then Some m else None | _ => None end) es.
Definition taken (c : nat) (es : list event) : list message :=
  omap (fun e => match e with EAct _ (ATake c' m) => if Nat.eqb c' c then Some m else None | _ => None end) es.
(** messages call [i] took from a channel, messages it gave to its handler, and
    what the handler answered *)
Definition taken_by (i : nat) (es : list event) : list message :=
  omap (fun e => match e with EAct j (ATake _ m) => if Nat.eqb j i then Some m else None | _ => None end) es.
Definition handled_by (i : nat) (es : list event) : list message :=
  omap (fun e => match e with EAct j (AHandle m) => if Nat.eqb j i then Some m else None | _ => None end) es.
Definition answers (i : nat) (es : list event) : list (option N) :=
  omap (fun e => match e with EAct j (AHandled r) => if Nat.eqb j i then Some r else None | _ => None end) es.
(** numbers of the calls that put a message into a channel, one per message *)
Definition senders (es : list event) : list nat :=
  omap (fun e => match e with EAct i (ASend _ _) => Some i | _ => None end) es.

(** call [i] is a Receive or Digest on subscriber [s] with context [ctx] *)
Definition receives (es : list event) (i s ctx : nat) : Prop :=
  (exists opts, ECall i (CRecv ctx s opts) ∈ es) \/ ECall i (CDigest ctx s) ∈ es.
(** subscriber [s] was returned by Sub on topic [t] *)
Definition subscribed (es : list event) (s : nat) (t : string) : Prop :=
  exists k, ECall k (CSub t) ∈ es /\ ERet k (Ok (Some s)) ∈ es.

(** whether a session is open: the last of the opening and closing events opens *)
Definition session_event (e : event) : option bool :=
  match e with EAct _ AOpened => Some true | EAct _ AClosed => Some false | _ => None end.
Definition in_session (es : list event) : Prop := last (omap session_event es) = Some true.

(** time that has passed *)
Definition elapsed (es : list event) : Z :=
  foldr Z.add 0%Z (omap (fun e => match e with ETick d => Some (Z.of_N d) | _ => None end) es).

(** Unsubscribe calls on the same subscriber do not overlap *)
Definition one_at_a_time (es : list event) : Prop :=
  forall es1 i s es2 j, es = es1 ++ ECall i (CUnsub s) :: es2 -> ECall j (CUnsub s) ∈ es1 ->
    exists r, ERet j r ∈ es1.
(** number of steps goroutine [i] takes *)
Definition own (i : nat) (l : label) : bool :=
  match l with
  | LStep j _ => Nat.eqb j i
  | LMeet j k => Nat.eqb j i || Nat.eqb k i
  | _ => false
  end.
Definition own_steps (i : nat) (ls : list label) : nat := length (List.filter (own i) ls).

(** all calls of handlers: the receiving call and the message *)
Definition handlings (es : list event) : list (nat * message) :=
  omap (fun e => match e with EAct i (AHandle m) => Some (i, m) | _ => None end) es.
(** the message of handling [h] was published by call [j] *)
Definition from_pub (es : list event) (h : nat * message) (j : nat) : Prop :=
  exists c, EAct j (ASend c h.2) ∈ es /\ EAct h.1 (ATake c h.2) ∈ es.
Definition closed_in (es : list event) : Prop := exists k, EAct k AClosed ∈ es.
Definition opened_in (es : list event) : Prop := exists k, EAct k AOpened ∈ es.
(** a Sub on topic [t] has succeeded since the last session ended *)
Definition subs_since (es : list event) (t : string) : Prop :=
  exists es0 k s es1, es = es0 ++ ERet k (Ok (Some s)) :: es1 /\ ECall k (CSub t) ∈ es0 /\ ~ closed_in es1.
(** what a Receive returns when its handler answers [a] *)
Definition relayed (a : option N) : result := match a with None => Ok None | Some n => Err (EForeign n) end.
(** Open is called at most once *)
Definition lone_open (es : list event) : Prop :=
  forall i j ctx ctx', ECall i (COpen ctx) ∈ es -> ECall j (COpen ctx') ∈ es -> i = j.

(** Accesses to fields that are read without the lock under which they are written
    (Memory.exit, Memory.ctl) or written under a read lock (Subscriber.active):
    what the next step of a goroutine reads or writes. *)
Inductive field := FExit | FCtl | FActive (s : nat).
Definition next_access (c : call) (p : pc) : option (field * bool) :=   (* true: write *)
  match p, c with
  | POpenSet, _ => Some (FExit, true)
  | POpenCtl, _ => Some (FCtl, true)
  | PPubSel _, _ | PRunExit, _ => Some (FExit, false)
  | PRunCtl _, _ => Some (FCtl, false)
  | PUnsubCheck, CUnsub s => Some (FActive s, false)
  | PUnsubSet, CUnsub s => Some (FActive s, true)
  | PRecvCheck, CRecv _ s _ | PRecvCheck, CDigest _ s => Some (FActive s, false)
  | _, _ => None
  end.
(** two goroutines that can both make a step now, to the same field, one writing *)
Definition races_on (cf : bconf) (f : field) : Prop :=
  exists i j c p c' p' w, i <> j /\ bc_ths cf !! i = Some (c, p) /\ bc_ths cf !! j = Some (c', p') /\
    next_access c p = Some (f, true) /\ next_access c' p' = Some (f, w) /\
    is_Some (bstep cf (LStep i ChGo)) /\ is_Some (bstep cf (LStep j ChGo)).

(** steps the goroutines take by themselves: no new call, no cancellation, no time *)
Definition run_label (l : label) : Prop := match l with LStep _ _ => True | _ => False end.
(** steps of goroutine [k] *)
Definition step_of (k : nat) (l : label) : Prop := exists ch, l = LStep k ch.
(** the table of subscribers lists [s] under its topic and ID *)
Definition kept (cf : bconf) (s : nat) : Prop :=
  exists sb inner, bs_heap (bc_st cf) !! s = Some sb /\ m_subs (bs_mem (bc_st cf)) !! s_topic sb = Some inner /\
    inner !! s_id sb = Some s.
(** UUIDs are not given twice *)
Definition no_repeat (uuid : nat -> string) : Prop := forall n n', uuid n = uuid n' -> n = n'.
