(* BGP peers and the listener: crates/bgp-speaker/src/supervisor.rs,
   peer_controller.rs and listener.rs.

   First model: the supervisor's map of peers, one task per peer with its
   unbounded command queue, the handles and controllers.  The state machine of a
   session (peer.rs, in BgpFsm*.v) is left open: the environment says what each
   poll of it returns.  One transition is one operation on what the tasks share.
   Second model: the listener's loop over its sockets. *)
From Coq Require Import List Bool Arith.
From Coq Require Export List.
Import ListNotations.

(* ---- peers, handles, controllers ---- *)
(* peer_controller.rs lines 262-353, the methods of a handle: start, shutdown,
   accept_connection (the connection is a number), and the seven queries *)
Inductive command : Type := Start | Stop | Connection (c : nat) | Query.

(* how a peer's task ended: an error of the session, a report that could not be
   delivered, or the abort in Drop of the controller, lines 254-258 *)
Inductive ending : Type := SessionError | NoReceiver | Aborted.

(* a task: the calls waiting in its queue and, as a ghost, those it handled *)
Record task : Type := Task {
  t_key : nat; t_end : option ending; t_queue : list nat; t_handled : list nat;
  t_controller : bool;      (* the controller still exists *)
  t_receiver : bool }.      (* the receiver of the reports still exists *)
Definition running (t : task) : bool := match t_end t with None => true | Some _ => false end.

Record state : Type := State {
  tasks : list task;                     (* a peer is named by its position *)
  registered : list (nat * nat);         (* the map: key, peer *)
  calls : list (nat * command);          (* all commands sent: peer, command *)
  refused : list nat;                    (* the send failed *)
  answers : list (nat * list nat) }.     (* query, and what was handled before it *)
Definition init : state := State [] [] [] [] [].

Fixpoint upd {A} (n : nat) (f : A -> A) (l : list A) : list A :=
  match l, n with
  | [], _ => []
  | x :: r, 0 => f x :: r
  | x :: r, S m => x :: upd m f r
  end.
Definition find_key (k : nat) (l : list (nat * nat)) : option nat :=
  option_map snd (find (fun p => fst p =? k) l).

Inductive event : Type :=
| Create (k : nat)          (* create_peer, and dynamic_peer *)
| Remove (k : nat)          (* remove_peer; the controller goes to the caller *)
| DropController (g : nat)
| DropReceiver (g : nat)
| Send (g : nat) (m : command)   (* a method of a handle of peer g *)
| Work (g : nat)            (* the task takes a command *)
| Session (g : nat) (ok : bool)  (* peer.run() returns an event, or an error *)
| Cancel (g : nat).         (* the abort takes effect *)

(* UnboundedSender::send: fails when the receiver, which the task owns, is gone *)
Definition send (s : state) (g : nat) (m : command) : option state :=
  match nth_error (tasks s) g with
  | None => None
  | Some t =>
    let c := length (calls s) in
    if running t then
      Some (State (upd g (fun t => Task (t_key t) (t_end t) (t_queue t ++ [c]) (t_handled t) (t_controller t) (t_receiver t)) (tasks s))
                  (registered s) (calls s ++ [(g, m)]) (refused s) (answers s))
    else Some (State (tasks s) (registered s) (calls s ++ [(g, m)]) (c :: refused s) (answers s))
  end.
Definition end_task (s : state) (g : nat) (e : ending) : state :=
  State (upd g (fun t => Task (t_key t) (Some e) [] (t_handled t) (t_controller t) (t_receiver t)) (tasks s))
        (registered s) (calls s) (refused s) (answers s).
Definition is_query (s : state) (c : nat) : bool :=
  match nth_error (calls s) c with Some (_, Query) => true | _ => false end.

Definition step (s : state) (e : event) : option state :=
  match e with
  (* supervisor.rs lines 65-94 *)
  | Create k =>
    match find_key k (registered s) with
    | Some _ => None          (* PeerExists: nothing changes *)
    | None => Some (State (tasks s ++ [Task k None [] [] true true]) ((k, length (tasks s)) :: registered s)
                          (calls s) (refused s) (answers s))
    end
  (* lines 96-101: the controller is taken out, a Stop is sent, its failure ignored *)
  | Remove k =>
    match find_key k (registered s) with
    | None => None
    | Some g => send (State (tasks s) (filter (fun p => negb (fst p =? k)) (registered s)) (calls s) (refused s) (answers s)) g Stop
    end
  (* a controller in the map is not dropped; JoinHandle::abort only asks *)
  | DropController g =>
    if existsb (fun p => snd p =? g) (registered s) then None else
    if g <? length (tasks s) then
      Some (State (upd g (fun t => Task (t_key t) (t_end t) (t_queue t) (t_handled t) false (t_receiver t)) (tasks s))
                  (registered s) (calls s) (refused s) (answers s))
    else None
  | DropReceiver g =>
    if g <? length (tasks s) then
      Some (State (upd g (fun t => Task (t_key t) (t_end t) (t_queue t) (t_handled t) (t_controller t) false) (tasks s))
                  (registered s) (calls s) (refused s) (answers s))
    else None
  | Send g m => send s g m
  (* peer_controller.rs lines 90-146 and 214-221 *)
  | Work g =>
    match nth_error (tasks s) g with
    | Some t =>
      if running t then
        match t_queue t with
        | [] => None
        | c :: rest =>
          Some (State (upd g (fun t => Task (t_key t) (t_end t) rest (t_handled t ++ [c]) (t_controller t) (t_receiver t)) (tasks s))
                      (registered s) (calls s) (refused s)
                      (if is_query s c then answers s ++ [(c, t_handled t)] else answers s))
        end
      else None
    | None => None
    end
  (* lines 148-187 and 222-229: the select is biased, the session is polled only
     when no command waits *)
  | Session g ok =>
    match nth_error (tasks s) g with
    | Some t =>
      if running t && match t_queue t with [] => true | _ => false end then
        if ok then Some (if t_receiver t then s else end_task s g NoReceiver)
        else Some (end_task s g SessionError)
      else None
    | None => None
    end
  | Cancel g =>
    match nth_error (tasks s) g with
    | Some t => if running t && negb (t_controller t) then Some (end_task s g Aborted) else None
    | None => None
    end
  end.
Definition after_event (s : state) (e : event) : state := match step s e with Some s1 => s1 | None => s end.
Definition after (s : state) (es : list event) : state := fold_left after_event es s.

(* what a call returns: a query waits for its oneshot, which is dropped with the
   queue of a task that ended *)
Inductive result : Type := Accepted | SendError | Answer (l : list nat) | ReceiveError.
Definition result_of (s : state) (c : nat) : option result :=
  match nth_error (calls s) c with
  | None => None
  | Some (g, m) =>
    if existsb (Nat.eqb c) (refused s) then Some SendError else
    match m with
    | Query =>
      match find (fun p => fst p =? c) (answers s) with
      | Some p => Some (Answer (snd p))
      | None => match nth_error (tasks s) g with
                | Some t => if existsb (Nat.eqb c) (t_queue t) then None else Some ReceiveError
                | None => None
                end
      end
    | _ => Some Accepted
    end
  end.

(* ---- the listener ---- *)
Inductive fsm : Type := Idle | Connect | Active | OpenSent | OpenConfirm | Established.
(* what a socket has for accept(): a connection from an address, or an error *)
Inductive incoming : Type := Conn (k c : nat) | AcceptError.
Record socket : Type := Socket { k_backlog : list incoming; k_armed : bool }.
(* where [run] is: at the head of the outer loop; in listen_futures.next(); in
   accept_peer_connection waiting for the first report of a new dynamic peer, or
   for its outcome *)
Inductive control : Type := Head | Next | First (k c g : nat) | Outcome (k g : nat).
Record lstate : Type := LState {
  l_sockets : list socket; l_control : control;
  l_handles : list (nat * nat);       (* listener.peers: address, peer; newest first *)
  l_known : list nat;                 (* addresses the supervisor has a peer for *)
  l_next : nat;                       (* the name of the next peer *)
  l_ended : list nat;                 (* peers whose task ended *)
  l_given : list (nat * nat);         (* peer, connection: oldest first *)
  l_closed : list nat }.              (* connections dropped *)

Inductive levent : Type :=
| Arrive (i : nat) (x : incoming)     (* at socket i *)
| Turn                                (* the loop goes on without waiting *)
| Accept (i : nat)                    (* the accept of socket i is ready and polled *)
| Report (g : nat) (st : fsm)         (* peer g reports a state *)
| PeerEnds (g : nat).                 (* its task ends *)

Section Listener.
Variable dynamic : bool.              (* allow_dynamic_peers *)

Definition with_control (s : lstate) (k : control) : lstate :=
  LState (l_sockets s) k (l_handles s) (l_known s) (l_next s) (l_ended s) (l_given s) (l_closed s).
Definition has (x : nat) (l : list nat) : bool := existsb (Nat.eqb x) l.
(* PeerHandle::accept_connection: the connection is dropped with a failed send *)
Definition give (s : lstate) (g c : nat) : lstate :=
  if has g (l_ended s) then LState (l_sockets s) (l_control s) (l_handles s) (l_known s) (l_next s) (l_ended s) (l_given s) (c :: l_closed s)
  else LState (l_sockets s) (l_control s) (l_handles s) (l_known s) (l_next s) (l_ended s) (l_given s ++ [(g, c)]) (l_closed s).
Definition close (s : lstate) (c : nat) : lstate :=
  LState (l_sockets s) (l_control s) (l_handles s) (l_known s) (l_next s) (l_ended s) (l_given s) (c :: l_closed s).
(* listener.rs lines 93-152, up to the first wait *)
Definition accept_peer_connection (s : lstate) (k c : nat) : lstate :=
  match find_key k (l_handles s) with
  | Some g => give s g c
  | None =>
    if negb dynamic then close s c
    else if has k (l_known s) then close s c           (* dynamic_peer: PeerExists *)
    else LState (l_sockets s) (First k c (l_next s)) (l_handles s) (k :: l_known s) (S (l_next s))
                (l_ended s) (l_given s) (l_closed s)
  end.

Definition lstep (s : lstate) (e : levent) : option lstate :=
  match e with
  | Arrive i x =>
    if i <? length (l_sockets s) then
      Some (LState (upd i (fun k => Socket (k_backlog k ++ [x]) (k_armed k)) (l_sockets s)) (l_control s)
                   (l_handles s) (l_known s) (l_next s) (l_ended s) (l_given s) (l_closed s))
    else None
  (* lines 167-172: one future per socket; [next] of an empty set is None at once *)
  | Turn =>
    match l_control s with
    | Head => Some (LState (map (fun k => Socket (k_backlog k) true) (l_sockets s)) Next
                           (l_handles s) (l_known s) (l_next s) (l_ended s) (l_given s) (l_closed s))
    | Next => if existsb k_armed (l_sockets s) then None else Some (with_control s Head)
    | _ => None
    end
  (* lines 172-176: a completed future leaves the set; an error leaves the inner loop *)
  | Accept i =>
    match l_control s, nth_error (l_sockets s) i with
    | Next, Some (Socket (x :: rest) true) =>
      let s1 := LState (upd i (fun _ => Socket rest false) (l_sockets s)) Next
                       (l_handles s) (l_known s) (l_next s) (l_ended s) (l_given s) (l_closed s) in
      match x with
      | Conn k c => Some (accept_peer_connection s1 k c)
      | AcceptError => Some (with_control s1 Head)
      end
    | _, _ => None
    end
  (* lines 110-147; other peers' reports go elsewhere *)
  | Report g st =>
    if has g (l_ended s) || negb (g <? l_next s) then None else
    match l_control s with
    | First k c g' => if g' =? g then Some (with_control (give s g c) (Outcome k g)) else Some s
    | Outcome k g' =>
      if g' =? g then
        match st with
        | Idle => Some (with_control s Next)
        | OpenConfirm => Some (LState (l_sockets s) Next ((k, g) :: l_handles s) (l_known s) (l_next s) (l_ended s) (l_given s) (l_closed s))
        | _ => Some s
        end
      else Some s
    | _ => Some s
    end
  | PeerEnds g =>
    if has g (l_ended s) || negb (g <? l_next s) then None else
    let s1 := LState (l_sockets s) (l_control s) (l_handles s) (l_known s) (l_next s) (g :: l_ended s) (l_given s) (l_closed s) in
    match l_control s with
    | First k c g' => if g' =? g then Some (with_control (give s1 g c) Next) else Some s1
    | Outcome k g' => if g' =? g then Some (with_control s1 Next) else Some s1
    | _ => Some s1
    end
  end.
Definition lafter_event (s : lstate) (e : levent) : lstate := match lstep s e with Some s1 => s1 | None => s end.
Definition lafter (s : lstate) (es : list levent) : lstate := fold_left lafter_event es s.
End Listener.

(* before [run]: the peers of the supervisor are numbered, some are registered with
   the listener by [reg_peer] *)
Definition linit (sockets : nat) (peers : list nat) (handles : list (nat * nat)) : lstate :=
  LState (repeat (Socket [] false) sockets) Head handles peers (length peers) [] [] [].
