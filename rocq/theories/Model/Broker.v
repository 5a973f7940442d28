(** In-memory message broker, pkg/broker/memory, as a state machine.

    Every call of a broker or subscriber method runs in its own goroutine; a
    client that makes calls one after the other is one that starts the next call
    when the previous has returned.  A step of a goroutine is one of
    - a section protected by Memory.RWMutex.  These sections do not block inside
      and their data is not touched outside them, so one is taken as one step;
      the exception is Open, which writes Memory.exit and Memory.ctl while other
      goroutines read these fields without the lock: it takes two steps with the
      lock held in between;
    - an access to a field that is not protected (Memory.exit and Memory.ctl in
      run and publishMsg, Subscriber.active, which is written under a read lock);
    - one case of a select statement.
    Channels behave as in the Go specification: a receive from a closed channel is
    ready, a nil channel never is, a send to a full channel waits, an unbuffered
    channel needs sender and receiver at once, close of a closed channel panics.
    Choices between ready cases, the moment a context is cancelled, the clock and
    the errors of handlers are inputs of the machine (labels). *)
From Verif.Model Require Export Go.

(** broker.Message, pkg/broker/broker.go:36-45 *)
Record message := Message { msg_uid : string; msg_type : Z; msg_data : string; msg_attrs : amap }.
Global Instance message_eq_dec : EqDecision message.
Proof. solve_decision. Defined.

(** broker.Options, pkg/broker/options.go:16-25; durations in nanoseconds *)
Record broker_opts := BrokerOpts { bo_cap : Z; bo_sink : Z; bo_pub : Z; bo_recv : Z }.
Definition broker_opts_zero : broker_opts := BrokerOpts 0 0 0 0.
Notation broker_option := (broker_opts -> broker_opts).
(** pkg/broker/options.go:8-13, :31-56 *)
Definition fan_in : Z := 0.
Definition fan_out : Z := 1.
Definition broker_with_cap (c : Z) : broker_option :=
  fun o => BrokerOpts c (bo_sink o) (bo_pub o) (bo_recv o).
Definition broker_with_sink (s : Z) : broker_option :=
  fun o => BrokerOpts (bo_cap o) s (bo_pub o) (bo_recv o).
Definition broker_with_pub_timeout (d : Z) : broker_option :=
  fun o => BrokerOpts (bo_cap o) (bo_sink o) d (bo_recv o).
Definition broker_with_sub_timeout (d : Z) : broker_option :=
  fun o => BrokerOpts (bo_cap o) (bo_sink o) (bo_pub o) d.

(** pkg/broker/memory/memory.go:12-17 *)
Definition default_size : Z := 100.
Definition default_timeout : Z := 5000000000.

Notation chan := nat (only parsing).
(** queue, pkg/broker/memory/memory.go:26-29 *)
Record queue := Queue { q_msg : chan; q_exit : option chan }.
(** Subscriber, pkg/broker/memory/subscriber.go:12-20 *)
Record subscriber := Subscriber {
  s_id : string; s_topic : string; s_active : bool;
  s_queue : queue; s_ctl : option chan; s_exit : chan;
}.
(** Memory, pkg/broker/memory/memory.go:32-41; a *Subscriber is an index into the
    list of subscribers, a nil channel is None. *)
Record memory := Memory {
  m_connected : bool; m_size : Z; m_timeout : Z;
  m_subs : gmap string (gmap string nat);
  m_topics : gmap string queue;
  m_exit : option chan; m_ctl : option chan;
}.

(** New, pkg/broker/memory/memory.go:44-67 *)
Definition memory_new (opts : list broker_option) : memory :=
  let o := apply_opts broker_opts_zero opts in
  let size := if (bo_cap o <? 0)%Z then default_size else bo_cap o in
  let timeout := if (bo_pub o =? 0)%Z then default_timeout else bo_pub o in
  Memory false size timeout ∅ ∅ None None.

(** Shared state: the broker, its lock, channels, subscribers, contexts, clock. *)
Record bstate := BState {
  bs_mem : memory;
  bs_locked : bool;                            (* held by an Open in progress *)
  bs_next : chan;                              (* next channel to be made *)
  bs_closed : gset chan;
  bs_msgs : gmap chan (list message);          (* buffers of message channels *)
  bs_ctls : gmap chan (list (string * string)); (* buffers of control channels: id, topic *)
  bs_heap : list subscriber;
  bs_cancelled : gset nat;                     (* cancelled contexts *)
  bs_now : Z;
  bs_uuid : nat -> string; bs_cnt : nat;       (* UUID source *)
}.

Definition set_mem (b : bstate) (m : memory) : bstate :=
  BState m (bs_locked b) (bs_next b) (bs_closed b) (bs_msgs b) (bs_ctls b) (bs_heap b)
    (bs_cancelled b) (bs_now b) (bs_uuid b) (bs_cnt b).
Definition set_locked (b : bstate) (x : bool) : bstate :=
  BState (bs_mem b) x (bs_next b) (bs_closed b) (bs_msgs b) (bs_ctls b) (bs_heap b)
    (bs_cancelled b) (bs_now b) (bs_uuid b) (bs_cnt b).
Definition set_closed (b : bstate) (x : gset chan) : bstate :=
  BState (bs_mem b) (bs_locked b) (bs_next b) x (bs_msgs b) (bs_ctls b) (bs_heap b)
    (bs_cancelled b) (bs_now b) (bs_uuid b) (bs_cnt b).
Definition set_msgs (b : bstate) (x : gmap chan (list message)) : bstate :=
  BState (bs_mem b) (bs_locked b) (bs_next b) (bs_closed b) x (bs_ctls b) (bs_heap b)
    (bs_cancelled b) (bs_now b) (bs_uuid b) (bs_cnt b).
Definition set_ctls (b : bstate) (x : gmap chan (list (string * string))) : bstate :=
  BState (bs_mem b) (bs_locked b) (bs_next b) (bs_closed b) (bs_msgs b) x (bs_heap b)
    (bs_cancelled b) (bs_now b) (bs_uuid b) (bs_cnt b).
Definition set_heap (b : bstate) (x : list subscriber) : bstate :=
  BState (bs_mem b) (bs_locked b) (bs_next b) (bs_closed b) (bs_msgs b) (bs_ctls b) x
    (bs_cancelled b) (bs_now b) (bs_uuid b) (bs_cnt b).
Definition set_cancelled (b : bstate) (x : gset nat) : bstate :=
  BState (bs_mem b) (bs_locked b) (bs_next b) (bs_closed b) (bs_msgs b) (bs_ctls b) (bs_heap b)
    x (bs_now b) (bs_uuid b) (bs_cnt b).
Definition set_now (b : bstate) (x : Z) : bstate :=
  BState (bs_mem b) (bs_locked b) (bs_next b) (bs_closed b) (bs_msgs b) (bs_ctls b) (bs_heap b)
    (bs_cancelled b) x (bs_uuid b) (bs_cnt b).
Definition set_cnt (b : bstate) (x : nat) : bstate :=
  BState (bs_mem b) (bs_locked b) (bs_next b) (bs_closed b) (bs_msgs b) (bs_ctls b) (bs_heap b)
    (bs_cancelled b) (bs_now b) (bs_uuid b) x.
Definition mem_topics (m : memory) (x : gmap string queue) : memory :=
  Memory (m_connected m) (m_size m) (m_timeout m) (m_subs m) x (m_exit m) (m_ctl m).
Definition mem_subs (m : memory) (x : gmap string (gmap string nat)) : memory :=
  Memory (m_connected m) (m_size m) (m_timeout m) x (m_topics m) (m_exit m) (m_ctl m).

Definition bstate_init (uuid : nat -> string) (opts : list broker_option) : bstate :=
  BState (memory_new opts) false 0 ∅ ∅ ∅ [] ∅ 0%Z uuid 0.

(** make(chan struct{}); make(chan broker.Message, m.size) (capacity: see [cap]);
    make(chan sub, DefaultSize) *)
Definition make_exit (b : bstate) : chan * bstate :=
  (bs_next b,
   BState (bs_mem b) (bs_locked b) (S (bs_next b)) (bs_closed b) (bs_msgs b) (bs_ctls b) (bs_heap b)
     (bs_cancelled b) (bs_now b) (bs_uuid b) (bs_cnt b)).
Definition make_msgs (b : bstate) : chan * bstate :=
  (bs_next b,
   BState (bs_mem b) (bs_locked b) (S (bs_next b)) (bs_closed b) (<[bs_next b := []]> (bs_msgs b))
     (bs_ctls b) (bs_heap b) (bs_cancelled b) (bs_now b) (bs_uuid b) (bs_cnt b)).
Definition make_ctl (b : bstate) : chan * bstate :=
  (bs_next b,
   BState (bs_mem b) (bs_locked b) (S (bs_next b)) (bs_closed b) (bs_msgs b)
     (<[bs_next b := []]> (bs_ctls b)) (bs_heap b) (bs_cancelled b) (bs_now b) (bs_uuid b) (bs_cnt b)).

(** capacity of the message channels: m.size never changes after New *)
Definition cap (b : bstate) : nat := Z.to_nat (m_size (bs_mem b)).
Definition chan_closed (b : bstate) (e : option chan) : bool :=
  match e with Some e => bool_decide (e ∈ bs_closed b) | None => false end.
Definition ctx_done (b : bstate) (ctx : nat) : bool := bool_decide (ctx ∈ bs_cancelled b).

(** Calls.  [CRun] and [CAsync] are the goroutines started by Open
    (memory.go:106) and Unsubscribe (subscriber.go:41); all others are made by
    clients.  Options of Open and Sub are ignored by the code (memory.go:89, :160)
    and left out. *)
Inductive call :=
| COpen (ctx : nat)
| CClose
| CPub (ctx : nat) (topic : string) (m : message) (opts : list broker_option)
| CSub (topic : string)
| CUnsub (s : nat)
| CRecv (ctx : nat) (s : nat) (opts : list broker_option)
| CDigest (ctx : nat) (s : nat)
| CRun (ctx : nat)
| CAsync (s : nat).

(** Result of a call: nil error, with the subscriber for Sub. *)
Notation result := (res (option nat)).

(** Where a goroutine is. *)
Inductive pc :=
| POpenCheck | POpenSet | POpenCtl
| PCloseGo
| PPubCheck | PPubQueue | PPubSel (q : queue) | PPubWait (q : queue) (e : option chan) (deadline : Z)
| PSubCheck | PSubMake
| PUnsubCheck | PUnsubClose | PUnsubSet | PUnsubSpawn
| PAsync
| PRecvCheck | PRecvWait (deadline : Z) | PRecvDrop | PRecvHandle (m : message)
| PRunExit | PRunCtl (e : option chan) | PRunWait (e ctl : option chan) | PRunDel (id topic : string)
| PDone (r : result)
| PPanicked (p : gopanic).

Definition pc_start (c : call) : pc :=
  match c with
  | COpen _ => POpenCheck
  | CClose => PCloseGo
  | CPub _ _ _ _ => PPubCheck
  | CSub _ => PSubCheck
  | CUnsub _ => PUnsubCheck
  | CRecv _ _ _ | CDigest _ _ => PRecvCheck
  | CRun _ => PRunExit
  | CAsync _ => PAsync
  end.

(** Which case of a select is taken; [ChGo] for steps without a choice. *)
Inductive choice :=
| ChGo | ChCtx | ChExit | ChTimeout | ChSend | ChRecv | ChSubExit | ChDefault
| ChHandler (e : option N).    (* the handler returns nil, or an error *)

(** What happens in a step, for the record. *)
Inductive act :=
| ASend (c : chan) (m : message)     (* a message enters a channel *)
| ATake (c : chan) (m : message)     (* a message leaves a channel *)
| AHandle (m : message)              (* a handler is called with a message *)
| AHandled (e : option N)            (* a handler returns *)
| AOpened | AClosed.                 (* a session begins, ends *)
Record outcome := Out { o_st : bstate; o_pc : pc; o_spawn : option call; o_acts : list act }.

(** m.topics[topic], made if missing; memory.go:146-153 and :173-180 *)
Definition get_queue (b : bstate) (topic : string) : queue * bstate :=
  match m_topics (bs_mem b) !! topic with
  | Some q => (q, b)
  | None =>
      let '(c, b) := make_msgs b in
      let q := Queue c (m_exit (bs_mem b)) in
      (q, set_mem b (mem_topics (bs_mem b) (<[topic := q]> (m_topics (bs_mem b)))))
  end.

(** Close, memory.go:200-221.  The order of the range loop does not matter. *)
Definition close_topics (m : memory) : gmap string queue :=
  fold_left (fun ts t => delete t ts) (map_to_list (m_subs m)).*1 (m_topics m).
Definition mem_close (b : bstate) (p : pc) : outcome :=
  let m := bs_mem b in
  if negb (m_connected m) then Out b p None []
  else if chan_closed b (m_exit m) then Out b (PPanicked PCloseClosed) None []
  else
    match m_exit m with
    | None => Out b (PPanicked PCloseClosed) None []      (* close of a nil channel *)
    | Some e =>
        Out (set_mem (set_closed b ({[e]} ∪ bs_closed b))
               (Memory false (m_size m) (m_timeout m) ∅ (close_topics m) (m_exit m) (m_ctl m)))
            p None [AClosed]
    end.

(** Receive returning r: Digest calls Receive again unless it failed,
    pkg/broker/digester/simple/digester.go:29-35 *)
Definition recv_return (c : call) (r : result) : pc :=
  match c, r with
  | CDigest _ _, Ok _ => PRecvCheck
  | _, _ => PDone r
  end.
Definition recv_timeout (opts : list broker_option) : Z :=
  let o := apply_opts broker_opts_zero opts in
  if (bo_recv o =? 0)%Z then default_timeout else bo_recv o.
Definition pub_timeout (m : memory) (opts : list broker_option) : Z :=
  let o := apply_opts broker_opts_zero opts in
  if (bo_pub o =? 0)%Z then m_timeout m else bo_pub o.

(** the subscriber a call works on, its context and receive options *)
Definition recv_args (c : call) : option (nat * nat * list broker_option) :=
  match c with
  | CRecv ctx s opts => Some (ctx, s, opts)
  | CDigest ctx s => Some (ctx, s, [])       (* digester.go:31 gives no options *)
  | _ => None
  end.

(** One step of the goroutine executing [c] at [p]; None: blocked. *)
Definition tstep (b : bstate) (c : call) (p : pc) (ch : choice) : option outcome :=
  let m := bs_mem b in
  let go b p := Some (Out b p None []) in
  match p, ch with
  (* Open, memory.go:89-109 *)
  | POpenCheck, ChGo =>
      if bs_locked b then None
      else if m_connected m then go b (PDone (Ok None)) else go b POpenSet
  | POpenSet, ChGo =>
      if bs_locked b then None
      else
        let '(e, b) := make_exit b in
        Some (Out (set_locked (set_mem b (Memory true (m_size m) (m_timeout m) (m_subs m) (m_topics m) (Some e) (m_ctl m))) true)
                POpenCtl None [AOpened])
  | POpenCtl, ChGo =>
      match c with
      | COpen ctx =>
          let '(ctl, b) := make_ctl b in
          Some (Out (set_locked (set_mem b (Memory (m_connected m) (m_size m) (m_timeout m) (m_subs m) (m_topics m) (m_exit m) (Some ctl))) false)
                  (PDone (Ok None)) (Some (CRun ctx)) [])
      | _ => None
      end
  (* Close, memory.go:200-221; also called by publishMsg and run *)
  | PCloseGo, ChGo => if bs_locked b then None else Some (mem_close b (PDone (Ok None)))
  (* Pub, memory.go:127-157 *)
  | PPubCheck, ChGo =>
      if bs_locked b then None
      else if m_connected m then go b PPubQueue else go b (PDone (Err BrokerErrNotConnected))
  | PPubQueue, ChGo =>
      if bs_locked b then None
      else
        match c with
        | CPub _ topic _ _ => let '(q, b) := get_queue b topic in go b (PPubSel q)
        | _ => None
        end
  (* publishMsg, memory.go:111-122: the select evaluates m.exit and starts the timer *)
  | PPubSel q, ChGo =>
      match c with
      | CPub _ _ _ opts => go b (PPubWait q (m_exit m) (bs_now b + pub_timeout m opts))
      | _ => None
      end
  | PPubWait q e deadline, ChCtx =>
      match c with
      | CPub ctx _ _ _ => if ctx_done b ctx then go b PCloseGo else None
      | _ => None
      end
  | PPubWait q e deadline, ChExit => if chan_closed b e then go b (PDone (Ok None)) else None
  | PPubWait q e deadline, ChTimeout =>
      if (deadline <=? bs_now b)%Z then go b (PDone (Err BrokerErrTimeout)) else None
  | PPubWait q e deadline, ChSend =>
      match c, bs_msgs b !! q_msg q with
      | CPub _ _ msg _, Some buf =>
          if (length buf <? cap b)%nat
          then Some (Out (set_msgs b (<[q_msg q := buf ++ [msg]]> (bs_msgs b))) (PDone (Ok None)) None
                      [ASend (q_msg q) msg])
          else None
      | _, _ => None
      end
  (* Sub, memory.go:160-197 *)
  | PSubCheck, ChGo =>
      if bs_locked b then None
      else if m_connected m then go b PSubMake else go b (PDone (Err BrokerErrNotConnected))
  | PSubMake, ChGo =>
      if bs_locked b then None
      else
        match c with
        | CSub topic =>
            let id := bs_uuid b (bs_cnt b) in
            let b := set_cnt b (S (bs_cnt b)) in
            let '(q, b) := get_queue b topic in
            let '(e, b) := make_exit b in
            let m := bs_mem b in
            let s := length (bs_heap b) in
            let b := set_heap b (bs_heap b ++ [Subscriber id topic true q (m_ctl m) e]) in
            let old := default ∅ (m_subs m !! topic) in
            let inner := match old !! id with None => ∅ | Some _ => old end in
            go (set_mem b (mem_subs m (<[topic := <[id := s]> inner]> (m_subs m)))) (PDone (Ok (Some s)))
        | _ => None
        end
  (* Unsubscribe, subscriber.go:33-50; a read lock does not exclude other readers *)
  | PUnsubCheck, ChGo =>
      match c with
      | CUnsub s =>
          match bs_heap b !! s with
          | Some sb => if s_active sb then go b PUnsubClose else go b (PDone (Ok None))
          | None => None
          end
      | _ => None
      end
  | PUnsubClose, ChGo =>
      match c with
      | CUnsub s =>
          match bs_heap b !! s with
          | Some sb =>
              if chan_closed b (Some (s_exit sb)) then go b (PPanicked PCloseClosed)
              else go (set_closed b ({[s_exit sb]} ∪ bs_closed b)) PUnsubSet
          | None => None
          end
      | _ => None
      end
  | PUnsubSet, ChGo =>
      match c with
      | CUnsub s =>
          match bs_heap b !! s with
          | Some sb =>
              go (set_heap b (<[s := Subscriber (s_id sb) (s_topic sb) false (s_queue sb) (s_ctl sb) (s_exit sb)]> (bs_heap b)))
                 PUnsubSpawn
          | None => None
          end
      | _ => None
      end
  | PUnsubSpawn, ChGo =>
      match c with
      | CUnsub s => Some (Out b (PDone (Ok None)) (Some (CAsync s)) [])
      | _ => None
      end
  (* the goroutine of Unsubscribe, subscriber.go:41-46 *)
  | PAsync, ChSend =>
      match c with
      | CAsync s =>
          match bs_heap b !! s with
          | Some sb =>
              match s_ctl sb with
              | Some ctl =>
                  let buf := default [] (bs_ctls b !! ctl) in
                  if (length buf <? Z.to_nat default_size)%nat
                  then go (set_ctls b (<[ctl := buf ++ [(s_id sb, s_topic sb)]]> (bs_ctls b))) (PDone (Ok None))
                  else None
              | None => None
              end
          | None => None
          end
      | _ => None
      end
  | PAsync, ChExit =>
      match c with
      | CAsync s =>
          match bs_heap b !! s with
          | Some sb => if chan_closed b (q_exit (s_queue sb)) then go b (PDone (Ok None)) else None
          | None => None
          end
      | _ => None
      end
  (* Receive, subscriber.go:54-93 *)
  | PRecvCheck, ChGo =>
      match recv_args c with
      | Some (_, s, opts) =>
          match bs_heap b !! s with
          | Some sb =>
              if s_active sb then go b (PRecvWait (bs_now b + recv_timeout opts))
              else go b (recv_return c (Err BrokerErrSubscriptionInactive))
          | None => None
          end
      | None => None
      end
  | PRecvWait deadline, ChCtx =>
      match recv_args c with
      | Some (ctx, _, _) => if ctx_done b ctx then go b (recv_return c (Ok None)) else None
      | None => None
      end
  | PRecvWait deadline, ChTimeout => if (deadline <=? bs_now b)%Z then go b PRecvDrop else None
  | PRecvWait deadline, ChExit =>
      match recv_args c with
      | Some (_, s, _) =>
          match bs_heap b !! s with
          | Some sb => if chan_closed b (q_exit (s_queue sb)) then go b (recv_return c (Ok None)) else None
          | None => None
          end
      | None => None
      end
  | PRecvWait deadline, ChSubExit =>
      match recv_args c with
      | Some (_, s, _) =>
          match bs_heap b !! s with
          | Some sb => if chan_closed b (Some (s_exit sb)) then go b (recv_return c (Ok None)) else None
          | None => None
          end
      | None => None
      end
  | PRecvWait deadline, ChRecv =>
      match recv_args c with
      | Some (_, s, _) =>
          match bs_heap b !! s with
          | Some sb =>
              match bs_msgs b !! q_msg (s_queue sb) with
              | Some (msg :: buf) =>
                  Some (Out (set_msgs b (<[q_msg (s_queue sb) := buf]> (bs_msgs b))) (PRecvHandle msg) None
                          [ATake (q_msg (s_queue sb)) msg; AHandle msg])
              | _ => None
              end
          | None => None
          end
      | None => None
      end
  (* the timeout drops a message if there is one, subscriber.go:75-81 *)
  | PRecvDrop, ChRecv =>
      match recv_args c with
      | Some (_, s, _) =>
          match bs_heap b !! s with
          | Some sb =>
              match bs_msgs b !! q_msg (s_queue sb) with
              | Some (msg :: buf) =>
                  Some (Out (set_msgs b (<[q_msg (s_queue sb) := buf]> (bs_msgs b)))
                          (recv_return c (Err BrokerErrTimeout)) None [ATake (q_msg (s_queue sb)) msg])
              | _ => None
              end
          | None => None
          end
      | None => None
      end
  | PRecvDrop, ChDefault =>
      match recv_args c with
      | Some (_, s, _) =>
          match bs_heap b !! s with
          | Some sb =>
              match bs_msgs b !! q_msg (s_queue sb) with
              | Some (_ :: _) => None
              | _ => go b (recv_return c (Err BrokerErrTimeout))
              end
          | None => None
          end
      | None => None
      end
  | PRecvHandle _, ChHandler e =>
      Some (Out b (recv_return c (match e with None => Ok None | Some n => Err (EForeign n) end)) None [AHandled e])
  (* run, memory.go:70-86: every iteration reads m.exit and then m.ctl *)
  | PRunExit, ChGo => go b (PRunCtl (m_exit m))
  | PRunCtl e, ChGo => go b (PRunWait e (m_ctl m))
  | PRunWait e ctl, ChCtx =>
      match c with
      | CRun ctx => if ctx_done b ctx then go b PCloseGo else None
      | _ => None
      end
  | PRunWait e ctl, ChExit => if chan_closed b e then go b PCloseGo else None
  | PRunWait e ctl, ChRecv =>
      match ctl with
      | Some ctl =>
          match bs_ctls b !! ctl with
          | Some ((id, topic) :: buf) => go (set_ctls b (<[ctl := buf]> (bs_ctls b))) (PRunDel id topic)
          | _ => None
          end
      | None => None
      end
  | PRunDel id topic, ChGo =>
      if bs_locked b then None
      else
        match m_subs m !! topic with
        | Some inner => go (set_mem b (mem_subs m (<[topic := delete id inner]> (m_subs m)))) PRunExit
        | None => go b PRunExit
        end
  | _, _ => None
  end.

(** All goroutines.  [LCall]: a client starts a call, on subscribers that exist;
    [LMeet i j]: sender i and receiver j meet on an unbuffered channel. *)
Record bconf := BConf { bc_st : bstate; bc_ths : list (call * pc) }.
Inductive label :=
| LCall (c : call)
| LCancel (ctx : nat)
| LTick (d : N)
| LStep (i : nat) (ch : choice)
| LMeet (i j : nat).

Inductive event :=
| ECall (i : nat) (c : call)          (* a client starts call number i *)
| ERet (i : nat) (r : result)         (* call i returns *)
| ECancel (ctx : nat)
| ETick (d : N)
| EAct (i : nat) (a : act).           (* goroutine i does something *)

Definition client (b : bstate) (c : call) : bool :=
  match c with
  | COpen _ | CClose | CPub _ _ _ _ | CSub _ => true
  | CUnsub s | CRecv _ s _ | CDigest _ s => (s <? length (bs_heap b))%nat
  | CRun _ | CAsync _ => false
  end.
Definition ret_event (i : nat) (p : pc) : list event :=
  match p with PDone r => [ERet i r] | _ => [] end.
Definition spawned (sp : option call) : list (call * pc) :=
  match sp with Some c => [(c, pc_start c)] | None => [] end.
(** A panic in any goroutine ends the program. *)
Definition crashed (c : bconf) : bool :=
  existsb (fun t => match t.2 with PPanicked _ => true | _ => false end) (bc_ths c).

Definition bstep (cf : bconf) (l : label) : option (bconf * list event) :=
  if crashed cf then None
  else
  let b := bc_st cf in
  let ths := bc_ths cf in
  match l with
  | LCall c =>
      if client b c
      then Some (BConf b (ths ++ [(c, pc_start c)]), [ECall (length ths) c])
      else None
  | LCancel ctx => Some (BConf (set_cancelled b ({[ctx]} ∪ bs_cancelled b)) ths, [ECancel ctx])
  | LTick d => Some (BConf (set_now b (bs_now b + Z.of_N d)) ths, [ETick d])
  | LStep i ch =>
      match ths !! i with
      | Some (c, p) =>
          match tstep b c p ch with
          | Some o =>
              Some (BConf (o_st o) (<[i := (c, o_pc o)]> ths ++ spawned (o_spawn o)),
                    (EAct i <$> o_acts o) ++ ret_event i (o_pc o))
          | None => None
          end
      | None => None
      end
  | LMeet i j =>
      match ths !! i, ths !! j with
      | Some (CPub _ _ msg _ as ci, PPubWait q _ _), Some (cj, pj) =>
          match recv_args cj with
          | Some (_, s, _) =>
              match bs_heap b !! s with
              | Some sb =>
                  if (cap b =? 0)%nat && bool_decide (q_msg (s_queue sb) = q_msg q) then
                    match pj with
                    | PRecvWait _ =>
                        Some (BConf b (<[j := (cj, PRecvHandle msg)]> (<[i := (ci, PDone (Ok None))]> ths)),
                              [EAct i (ASend (q_msg q) msg); ERet i (Ok None);
                               EAct j (ATake (q_msg q) msg); EAct j (AHandle msg)])
                    | PRecvDrop =>
                        Some (BConf b (<[j := (cj, recv_return cj (Err BrokerErrTimeout))]> (<[i := (ci, PDone (Ok None))]> ths)),
                              [EAct i (ASend (q_msg q) msg); ERet i (Ok None); EAct j (ATake (q_msg q) msg)]
                              ++ ret_event j (recv_return cj (Err BrokerErrTimeout)))
                    | _ => None
                    end
                  else None
              | None => None
              end
          | None => None
          end
      | _, _ => None
      end
  end.

(** An execution: final state and everything that happened, oldest first. *)
Fixpoint bexec (cf : bconf) (ls : list label) : option (bconf * list event) :=
  match ls with
  | [] => Some (cf, [])
  | l :: ls =>
      match bstep cf l with
      | Some (cf, es) =>
          match bexec cf ls with
          | Some (cf, es') => Some (cf, es ++ es')
          | None => None
          end
      | None => None
      end
  end.
Definition broker_init (uuid : nat -> string) (opts : list broker_option) : bconf :=
  BConf (bstate_init uuid opts) [].
