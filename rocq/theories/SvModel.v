(* The three supervisors: crates/flow-service/src/flow_supervisor.rs,
   crates/udp-notif-service/src/supervisor.rs and crates/bmp-service/src/supervisor.rs,
   with the command side of the listeners they start (flow_actor.rs, actor.rs).

   The callers of the handle, the supervisor task and one task per listener run
   concurrently.  The model is one state with one transition per operation on what
   they share: a bounded command queue into the supervisor, one bounded command
   queue per listener, and a reply channel per call.  A listener's handling of one
   command is one transition.  The packets a listener receives are in ActorModel.v
   and BsModel.v; here only its subscription table is kept.  The commands that only
   read or purge (local addresses, peers, template ids, templates, purge, disconnect)
   all answer once per listener and are one kind, [CQuery]; the contents of their
   answers are left out. *)
From Coq Require Import List Bool Arith.
From Coq Require Export List.
Import ListNotations.

Inductive service : Type := Flow | UdpNotif | Bmp.

(* the methods of the handle, flow_supervisor.rs lines 329-585,
   udp-notif supervisor.rs lines 326-495, bmp supervisor.rs lines 343-530 *)
Inductive call : Type :=
| CSubscribe
| CQuery
| CUnsubscribe (subs : list (nat * nat))      (* (listener, subscriber id) *)
| CShutdown.

(* commands in a listener's queue; the reply sender is named by its call *)
Inductive command : Type :=
| ASubscribe (c : nat)
| AQuery (c : nat)
| AUnsubscribe (id : nat)     (* sent by the supervisor, which waits for the answer *)
| AShutdown (c : nat).

(* how a listener task ended *)
Inductive ending : Type := Crashed | ChannelClosed | ToldBy (c : nat).

(* a listener task: its queue, its subscription table, the next subscriber id; [l_done]
   is a ghost: the calls it handled, in order *)
Record listener : Type := Listener {
  l_end : option ending; l_queue : list command; l_subs : list nat; l_next : nat; l_done : list nat }.
Definition alive (l : listener) : bool := match l_end l with None => true | Some _ => false end.

(* what a caller receives on its reply channel *)
Inductive reply : Type :=
| Subscribed (a id : nat)
| Answered (a : nat)
| Unsubscribed (o : option nat)
| ShutDone.

(* where the supervisor is in [cmd], flow_supervisor.rs lines 167-238,
   udp-notif lines 162-233, bmp lines 184-255 *)
Inductive wait : Type := NotSent | Sent | Replied.
Inductive control : Type :=
| Idle
| Broadcasting (c : nat) (sub : bool) (todo : list nat)
| Unsubscribing (c : nat) (todo : list (nat * list nat)) (back : option nat) (w : wait)
| ShuttingDown (c : nat) (todo : list nat) (sent : bool)
| Ended.

Record state : Type := State {
  s_queue : list (nat * call);       (* into the supervisor *)
  s_control : control;
  s_listeners : nat -> listener;
  s_replies : list (nat * reply);    (* all replies delivered, oldest first *)
  s_calls : list call;               (* all calls made; a call is named by its position *)
  s_refused : list nat;              (* returned SendError *)
  s_panicked : list nat;             (* panicked before sending *)
  s_gone : list nat;                 (* the caller gave up: its receiver is dropped *)
  s_dropped : bool }.                (* every handle is dropped *)

Definition set_listener (f : nat -> listener) (a : nat) (l : listener) : nat -> listener :=
  fun b => if b =? a then l else f b.
Definition has (c : nat) (l : list nat) : bool := existsb (Nat.eqb c) l.

(* the capacities: mpsc::channel(100) in every [new], and the 10 given to each listener *)
Definition sup_capacity : nat := 100.
Definition listener_capacity : nat := 10.

(* a send into a reply channel fails when the receiver is gone *)
Definition deliver (s : state) (c : nat) (r : reply) : list (nat * reply) :=
  if has c (s_gone s) then s_replies s else s_replies s ++ [(c, r)].

Definition with_control (s : state) (k : control) : state :=
  State (s_queue s) k (s_listeners s) (s_replies s) (s_calls s) (s_refused s) (s_panicked s) (s_gone s) (s_dropped s).
Definition with_listener (s : state) (a : nat) (l : listener) : state :=
  State (s_queue s) (s_control s) (set_listener (s_listeners s) a l) (s_replies s) (s_calls s) (s_refused s) (s_panicked s) (s_gone s) (s_dropped s).
Definition with_replies (s : state) (r : list (nat * reply)) : state :=
  State (s_queue s) (s_control s) (s_listeners s) r (s_calls s) (s_refused s) (s_panicked s) (s_gone s) (s_dropped s).
(* the task returns: its receiver and what is queued in it are dropped, and so are the
   command senders of the listeners *)
Definition end_supervisor (s : state) : state :=
  State [] Ended (s_listeners s) (s_replies s) (s_calls s) (s_refused s) (s_panicked s) (s_gone s) (s_dropped s).

(* [new] of the supervisor's handle, flow_supervisor.rs lines 276-327,
   udp-notif lines 280-324, bmp lines 293-341: one attempt per worker of every binding
   address, the outcome of the listener's own [new] given; the id is advanced only by a
   listener that started *)
Fixpoint start_ids (outcomes : list bool) (next : nat) : list nat :=
  match outcomes with
  | [] => []
  | true :: rest => next :: start_ids rest (S next)
  | false :: rest => start_ids rest next
  end.
Definition fresh_listener (ids : list nat) (a : nat) : listener :=
  Listener (if has a ids then None else Some ChannelClosed) [] [] 0 [].
Definition init (ids : list nat) : state :=
  State [] Idle (fresh_listener ids) [] [] [] [] [] false.
Inductive started : Type := NoListenerStarted | Handle (ids : list nat) (s : state).
(* the UDP-Notif supervisor does not look whether a listener started *)
Definition start (v : service) (bindings : list (list bool)) : started :=
  let ids := start_ids (concat bindings) 0 in
  match ids, v with
  | [], Flow => NoListenerStarted
  | [], Bmp => NoListenerStarted
  | _, _ => Handle ids (init ids)
  end.

(* grouping of the subscriptions by listener, flow_supervisor.rs lines 188-191 *)
Definition named (subs : list (nat * nat)) (a : nat) : list nat :=
  map snd (filter (fun p => fst p =? a) subs).

Inductive event : Type :=
| Call (k : call)         (* a method of a handle is called *)
| GiveUp (c : nat)        (* the future of call [c] is dropped *)
| DropHandles
| Sup                     (* the supervisor takes its next step *)
| Act (a : nat)           (* listener [a] takes its next command *)
| Die (a : nat)           (* listener [a] ends with an error of its own, or panics *)
| AllGone.                (* the supervisor finds that every listener ended *)

Section Supervisor.
Variable v : service.
Variable order : list nat.      (* the listeners, in the map's iteration order *)
Variable buffer : nat.          (* cmd_buffer_size of the configuration *)

(* the call of a method: mpsc::channel(0) panics; the shutdown uses a oneshot.  The
   send waits while the supervisor's queue is full, and fails when it has ended *)
Definition do_call (s : state) (k : call) : option state :=
  let c := length (s_calls s) in
  let calls := s_calls s ++ [k] in
  let panics := match k with CShutdown => false | _ => buffer =? 0 end in
  if s_dropped s then None else
  if panics then
    Some (State (s_queue s) (s_control s) (s_listeners s) (s_replies s) calls (s_refused s) (c :: s_panicked s) (s_gone s) false)
  else match s_control s with
  | Ended =>
    Some (State (s_queue s) Ended (s_listeners s) (s_replies s) calls (c :: s_refused s) (s_panicked s) (s_gone s) false)
  | ctl =>
    if length (s_queue s) <? sup_capacity then
      Some (State (s_queue s ++ [(c, k)]) ctl (s_listeners s) (s_replies s) calls (s_refused s) (s_panicked s) (s_gone s) false)
    else None
  end.

(* handle.cmd_tx.send(..).await towards listener [a]: fails when the listener is gone,
   waits while its queue is full *)
Inductive sending : Type := SendFailed | SendBlocked | SendOk (s : state).
Definition send (s : state) (a : nat) (m : command) : sending :=
  let l := s_listeners s a in
  if alive l then
    if length (l_queue l) <? listener_capacity then
      SendOk (with_listener s a (Listener (l_end l) (l_queue l ++ [m]) (l_subs l) (l_next l) (l_done l)))
    else SendBlocked
  else SendFailed.

(* one step of [cmd]; see the type [control] for the lines *)
Definition sup_step (s : state) : option state :=
  match s_control s with
  | Idle =>
    match s_queue s with
    | [] => if s_dropped s then Some (end_supervisor s) else None
    | (c, k) :: rest =>
      let s1 := State rest (s_control s) (s_listeners s) (s_replies s) (s_calls s) (s_refused s) (s_panicked s) (s_gone s) (s_dropped s) in
      Some (with_control s1 match k with
        | CSubscribe => Broadcasting c true order
        | CQuery => Broadcasting c false order
        | CUnsubscribe subs => Unsubscribing c (map (fun a => (a, named subs a)) order) None NotSent
        | CShutdown => ShuttingDown c order false
        end)
    end
  | Broadcasting c sub [] => Some (with_control s Idle)
  | Broadcasting c sub (a :: rest) =>
    match send s a (if sub then ASubscribe c else AQuery c) with
    | SendFailed => Some (with_control s (Broadcasting c sub rest))
    | SendBlocked => None
    | SendOk s1 => Some (with_control s1 (Broadcasting c sub rest))
    end
  | Unsubscribing c [] _ _ => Some (with_control s Idle)
  | Unsubscribing c ((a, []) :: rest) back _ =>
    Some (with_control (with_replies s (deliver s c (Unsubscribed back))) (Unsubscribing c rest None NotSent))
  | Unsubscribing c ((a, id :: ids) :: rest) back NotSent =>
    match send s a (AUnsubscribe id) with
    | SendFailed => Some (with_control s (Unsubscribing c ((a, ids) :: rest) back NotSent))
    | SendBlocked => None
    | SendOk s1 => Some (with_control s1 (Unsubscribing c ((a, id :: ids) :: rest) back Sent))
    end
  (* the reply channel closed without an answer: the flow and UDP-Notif listener
     handles return an empty list, the BMP one an error *)
  | Unsubscribing c ((a, id :: ids) :: rest) back Sent =>
    if alive (s_listeners s a) then None
    else Some (with_control s (Unsubscribing c ((a, ids) :: rest)
                (match v with Bmp => back | _ => Some a end) NotSent))
  | Unsubscribing c ((a, id :: ids) :: rest) back Replied =>
    Some (with_control s (Unsubscribing c ((a, ids) :: rest) (Some a) NotSent))
  | ShuttingDown c [] _ => Some (end_supervisor (with_replies s (deliver s c ShutDone)))
  | ShuttingDown c (a :: rest) false =>
    match send s a (AShutdown c) with
    | SendFailed => Some (with_control s (ShuttingDown c rest false))
    | SendBlocked => None
    | SendOk s1 => Some (with_control s1 (ShuttingDown c (a :: rest) true))
    end
  | ShuttingDown c (a :: rest) true =>
    if alive (s_listeners s a) then None else Some (with_control s (ShuttingDown c rest false))
  | Ended => None
  end.

(* a listener ends: its queue is dropped with the reply senders in it *)
Definition end_listener (l : listener) (e : ending) : listener :=
  Listener (Some e) [] (l_subs l) (l_next l) (l_done l).

(* a listener takes its next command: flow_actor.rs lines 557-823, udp-notif actor.rs
   lines 602-791, bmp actor.rs lines 325-480 and 845-873.  When the caller of a
   subscribe is gone the flow and UDP-Notif listeners remove the subscription again,
   the BMP one keeps it *)
Definition act_step (s : state) (a : nat) : option state :=
  let l := s_listeners s a in
  if negb (alive l) then None else
  match l_queue l with
  | [] =>
    match s_control s with
    | Ended => Some (with_listener s a (end_listener l ChannelClosed))
    | _ => None
    end
  | ASubscribe c :: rest =>
    let id := l_next l in
    let kept := match v with Bmp => true | _ => negb (has c (s_gone s)) end in
    Some (with_listener (with_replies s (deliver s c (Subscribed a id))) a
           (Listener (l_end l) rest (if kept then l_subs l ++ [id] else l_subs l) (S id) (l_done l ++ [c])))
  | AQuery c :: rest =>
    Some (with_listener (with_replies s (deliver s c (Answered a))) a
           (Listener (l_end l) rest (l_subs l) (l_next l) (l_done l ++ [c])))
  | AUnsubscribe id :: rest =>
    let s1 := with_listener s a
           (Listener (l_end l) rest (filter (fun x => negb (x =? id)) (l_subs l)) (l_next l) (l_done l)) in
    Some (match s_control s with
          | Unsubscribing c todo back Sent => with_control s1 (Unsubscribing c todo back Replied)
          | _ => s1
          end)
  | AShutdown c :: rest => Some (with_listener s a (end_listener l (ToldBy c)))
  end.

Definition step (s : state) (e : event) : option state :=
  match e with
  | Call k => do_call s k
  | GiveUp c =>
    if c <? length (s_calls s) then
      Some (State (s_queue s) (s_control s) (s_listeners s) (s_replies s) (s_calls s) (s_refused s) (s_panicked s) (c :: s_gone s) (s_dropped s))
    else None
  | DropHandles => Some (State (s_queue s) (s_control s) (s_listeners s) (s_replies s) (s_calls s) (s_refused s) (s_panicked s) (s_gone s) true)
  | Sup => sup_step s
  | Act a => act_step s a
  | Die a => if alive (s_listeners s a) then Some (with_listener s a (end_listener (s_listeners s a) Crashed)) else None
  | AllGone =>
    match s_control s with
    | Ended => None
    | _ => if existsb (fun a => alive (s_listeners s a)) order then None else Some (end_supervisor s)
    end
  end.

(* the state after a schedule; an event that cannot happen now is skipped *)
Definition after_event (s : state) (e : event) : state := match step s e with Some s1 => s1 | None => s end.
Definition after (s : state) (es : list event) : state := fold_left after_event es s.

(* whether a reply sender of call [c] still exists: in the supervisor's queue, in its
   hand, or in the queue of a listener *)
Definition in_hand (k : control) : option nat :=
  match k with
  | Broadcasting c _ _ => Some c | Unsubscribing c _ _ _ => Some c | ShuttingDown c _ _ => Some c
  | _ => None
  end.
Definition carries (c : nat) (m : command) : bool :=
  match m with ASubscribe d => d =? c | AQuery d => d =? c | _ => false end.
Definition pending (s : state) (c : nat) : bool :=
  has c (map fst (s_queue s))
  || match in_hand (s_control s) with Some d => d =? c | None => false end
  || existsb (fun a => existsb (carries c) (l_queue (s_listeners s a))) order.

(* what the call returns, once no sender is left: the collected replies; the loops
   [while let Some(..) = rx.recv().await] of the handle's methods, and the oneshot of
   the shutdown *)
Inductive result : Type := Ok (l : list reply) | SendError | ReceiveError | Panic.
Definition replies_to (s : state) (c : nat) : list reply :=
  map snd (filter (fun p => fst p =? c) (s_replies s)).
Definition result_of (s : state) (c : nat) : option result :=
  if has c (s_panicked s) then Some Panic else
  if has c (s_refused s) then Some SendError else
  if pending s c then None else
  match nth_error (s_calls s) c with
  | None => None
  | Some CShutdown =>
    match replies_to s c with [] => Some ReceiveError | l => Some (Ok l) end
  | Some _ => Some (Ok (replies_to s c))
  end.
End Supervisor.
