(** * The Kafka consumer that feeds the enrichment tasks

    Models /repo/crates/collector/src/inputs/kafka/actor.rs.

    The consumer runs in one task.  The operations it is built from are
    modelled as labelled steps, one for each await point at which another
    task can come in.  Simplifications:
    - what [consumer.recv()] yields is chosen by the environment: brokers,
      partitions, offsets and commits are outside the model;
    - the message handler is a function of its own state and the payload; the
      partition and offset it also gets are taken to be part of the payload;
    - log lines are left out, times are in microseconds, and only sleeping
      takes time. *)

From Coq Require Import List Arith NArith Bool Lia.
Import ListNotations.

Section Consumer.

(** The operations, the payloads and the state of the message handler. *)
Variables Op Payload HState : Type.

(** [KafkaMessageHandler::handle_message], collector/src/inputs/kafka/handlers.rs
    25-33: a new state, and the operations or [None] for an error. *)
Variable handle : HState -> Payload -> HState * option (list Op).

(** What [consumer.recv()] yields, actor.rs 279-398. *)
Inductive input :=
| Message (p : option Payload)   (* [Ok(msg)], with or without a payload *)
| AllBrokersDown                 (* 351 *)
| UnknownTopic                   (* 370 *)
| Fatal                          (* 374 *)
| OtherError.                    (* 395 *)

(** An enrichment task as its handle sees it: a bounded channel.
    collector/src/flow/enrichment/actor.rs 500-512 and
    collector/src/yang_push/enrichment.rs 575-590: [update_enrichment] is a
    [send(..).await] on a bounded channel.  [accepted] is every operation the
    channel ever took; [waiting] counts those the task has not received. *)
Record task := mk_task {
  capacity : nat;
  waiting : nat;
  running : bool;          (* the receiving end exists *)
  accepted : list Op
}.

(** The result of the consumer's task, actor.rs 268-277 and 372. *)
Inductive ending :=
| ByShutdown
| NoHandleLeft
| TopicError.

(** Where the consumer waits.  [Sending ops i b]: about to offer the first of
    [ops] to task [i], with backoff [b]; [Pausing ops i b]: in the sleep of
    341; [Reconnecting s]: in the sleep of 355 or 378, [s] seconds. *)
Inductive phase :=
| Idle
| Sending (ops : list Op) (i : nat) (backoff : N)
| Pausing (ops : list Op) (i : nat) (backoff : N)
| Reconnecting (seconds : N)
| Ended (e : ending).

(** The consumer with its counters (81-139) and what surrounds it. *)
Record state := mk_state {
  at_phase : phase;
  tasks : list task;
  hstate : HState;
  commands : nat;            (* in the command channel, capacity 1: 428 *)
  handle_alive : bool;       (* a [KafkaConsumerActorHandle] exists *)
  taken : list input;        (* what [recv] yielded so far *)
  clock : N;                 (* microseconds slept *)
  received : nat;
  empty_payload : nat;
  handling_error : nat;
  generated : nat;
  send_error : nat;
  reconnects : nat
}.

(** actor.rs 63, in microseconds. *)
Definition max_backoff : N := 10000000.
(** actor.rs 321. *)
Definition first_backoff : N := 10.

(** actor.rs 419-442, after a successful [init_consumer]. *)
Definition start (ts : list task) (h : HState) : state :=
  mk_state Idle ts h 0 true [] 0 0 0 0 0 0 0.

Definition with_phase (p : phase) (s : state) : state :=
  mk_state p (tasks s) (hstate s) (commands s) (handle_alive s) (taken s)
    (clock s) (received s) (empty_payload s) (handling_error s) (generated s)
    (send_error s) (reconnects s).

Definition with_tasks (ts : list task) (s : state) : state :=
  mk_state (at_phase s) ts (hstate s) (commands s) (handle_alive s) (taken s)
    (clock s) (received s) (empty_payload s) (handling_error s) (generated s)
    (send_error s) (reconnects s).

Fixpoint set_nth {A} (l : list A) (i : nat) (x : A) : list A :=
  match l, i with
  | [], _ => []
  | _ :: l', O => x :: l'
  | y :: l', S i' => y :: set_nth l' i' x
  end.

(** actor.rs 279-280: the received counter goes up for errors too. *)
Definition count_received (x : input) (s : state) : state :=
  mk_state (at_phase s) (tasks s) (hstate s) (commands s) (handle_alive s)
    (taken s ++ [x]) (clock s) (S (received s)) (empty_payload s)
    (handling_error s) (generated s) (send_error s) (reconnects s).

(** actor.rs 281-398. *)
Definition on_input (x : input) (s : state) : state :=
  match x with
  | Message None =>                                   (* 288-292 *)
      mk_state Idle (tasks s) (hstate s) (commands s) (handle_alive s)
        (taken s) (clock s) (received s) (S (empty_payload s))
        (handling_error s) (generated s) (send_error s) (reconnects s)
  | Message (Some p) =>                               (* 295-319 *)
      match handle (hstate s) p with
      | (h', None) =>                                 (* 300-306 *)
          mk_state Idle (tasks s) h' (commands s) (handle_alive s)
            (taken s) (clock s) (received s) (empty_payload s)
            (S (handling_error s)) (generated s) (send_error s) (reconnects s)
      | (h', Some ops) =>
          mk_state (Sending ops 0 first_backoff) (tasks s) h' (commands s)
            (handle_alive s) (taken s) (clock s) (received s)
            (empty_payload s) (handling_error s)
            (generated s + length ops) (send_error s) (reconnects s)
      end
  | AllBrokersDown => with_phase (Reconnecting 60) s  (* 351-355 *)
  | UnknownTopic => with_phase (Ended TopicError) s   (* 370-373 *)
  | Fatal => with_phase (Reconnecting 30) s           (* 374-378 *)
  | OtherError => with_phase Idle s                   (* 395-397 *)
  end.

(** actor.rs 319-347: one turn of the innermost loop.  [None]: the consumer
    waits, the channel of the task being full. *)
Definition send_turn (ops : list Op) (i : nat) (b : N) (s : state)
  : option state :=
  match ops with
  | [] => Some (with_phase Idle s)
  | op :: rest =>
      match nth_error (tasks s) i with
      | None => Some (with_phase (Sending rest 0 first_backoff) s)
      | Some t =>
          if running t then
            if Nat.ltb (waiting t) (capacity t) then  (* 325 *)
              Some (with_phase (Sending ops (S i) first_backoff)
                (with_tasks
                  (set_nth (tasks s) i
                    (mk_task (capacity t) (S (waiting t)) true
                       (accepted t ++ [op]))) s))
            else None
          else if N.leb max_backoff b then            (* 327-333 *)
            let s' := with_phase (Sending ops (S i) first_backoff) s in
            Some (mk_state (at_phase s') (tasks s') (hstate s') (commands s')
                    (handle_alive s') (taken s') (clock s') (received s')
                    (empty_payload s') (handling_error s') (generated s')
                    (S (send_error s')) (reconnects s'))
          else Some (with_phase (Pausing ops i b) s)  (* 336-341 *)
      end
  end.

(** What can happen next. *)
Inductive label :=
| Yield (x : input)      (* [recv] yields and the consumer takes it up *)
| Command                (* the consumer takes up the command branch *)
| Turn                   (* one turn of the sending loop *)
| Wake                   (* the backoff sleep ends *)
| Retry (ok : bool)      (* the long sleep ends; [init_consumer] succeeds? *)
| Shutdown               (* a user calls [shutdown], 477-482 *)
| DropHandle             (* the last [KafkaConsumerActorHandle] is dropped *)
| Receive (i : nat)      (* task [i] receives an operation *)
| End (i : nat).         (* task [i] ends *)

(** actor.rs 264-403, 477-482.  [None]: this cannot happen in this state. *)
Definition step (s : state) (l : label) : option state :=
  match l with
  | Command =>
      match at_phase s with
      | Idle =>
          match commands s with
          | S _ => Some (with_phase (Ended ByShutdown) s)     (* 269-272 *)
          | O => if handle_alive s then None
                 else Some (with_phase (Ended NoHandleLeft) s) (* 273-276 *)
          end
      | _ => None
      end
  | Yield x =>
      match at_phase s with
      | Idle =>
          (* biased, 266: the command branch goes first when it is ready *)
          match commands s with
          | S _ => None
          | O => if handle_alive s then Some (on_input x (count_received x s))
                 else None
          end
      | _ => None
      end
  | Turn =>
      match at_phase s with
      | Sending ops i b => send_turn ops i b s
      | _ => None
      end
  | Wake =>
      match at_phase s with
      | Pausing ops i b =>                                     (* 341-342 *)
          Some (mk_state (Sending ops i (b * 2)) (tasks s) (hstate s)
                  (commands s) (handle_alive s) (taken s) (clock s + b)
                  (received s) (empty_payload s) (handling_error s)
                  (generated s) (send_error s) (reconnects s))
      | _ => None
      end
  | Retry ok =>
      match at_phase s with
      | Reconnecting sec =>                        (* 355-367, 378-392 *)
          Some (mk_state (if ok then Idle else Reconnecting sec) (tasks s)
                  (hstate s) (commands s) (handle_alive s) (taken s)
                  (clock s + sec * 1000000) (received s) (empty_payload s)
                  (handling_error s) (generated s) (send_error s)
                  (S (reconnects s)))
      | _ => None
      end
  | Shutdown =>
      if handle_alive s then
        match at_phase s, commands s with
        | Ended _, _ => None                   (* [shutdown] gives an error *)
        | _, S _ => None                       (* [shutdown] waits *)
        | _, O =>
            Some (mk_state (at_phase s) (tasks s) (hstate s) 1
                    (handle_alive s) (taken s) (clock s) (received s)
                    (empty_payload s) (handling_error s) (generated s)
                    (send_error s) (reconnects s))
        end
      else None
  | DropHandle =>
      if handle_alive s then
        Some (mk_state (at_phase s) (tasks s) (hstate s) (commands s) false
                (taken s) (clock s) (received s) (empty_payload s)
                (handling_error s) (generated s) (send_error s)
                (reconnects s))
      else None
  | Receive i =>
      match nth_error (tasks s) i with
      | Some t =>
          match running t, waiting t with
          | true, S w =>
              Some (with_tasks (set_nth (tasks s) i
                      (mk_task (capacity t) w true (accepted t))) s)
          | _, _ => None
          end
      | None => None
      end
  | End i =>
      match nth_error (tasks s) i with
      | Some t =>
          if running t then
            Some (with_tasks (set_nth (tasks s) i
                    (mk_task (capacity t) 0 false (accepted t))) s)
          else None
      | None => None
      end
  end.

Fixpoint run (s : state) (ls : list label) : option state :=
  match ls with
  | [] => Some s
  | l :: rest =>
      match step s l with
      | Some s' => run s' rest
      | None => None
      end
  end.

End Consumer.

Arguments Message {_} _.
Arguments AllBrokersDown {_}.
Arguments UnknownTopic {_}.
Arguments Fatal {_}.
Arguments OtherError {_}.
Arguments mk_task {_} _ _ _ _.
Arguments capacity {_} _.
Arguments waiting {_} _.
Arguments running {_} _.
Arguments accepted {_} _.
Arguments Idle {_}.
Arguments Sending {_} _ _ _.
Arguments Pausing {_} _ _ _.
Arguments Reconnecting {_} _.
Arguments Ended {_} _.
Arguments mk_state {_ _ _} _ _ _ _ _ _ _ _ _ _ _ _ _.
Arguments at_phase {_ _ _} _.
Arguments tasks {_ _ _} _.
Arguments hstate {_ _ _} _.
Arguments commands {_ _ _} _.
Arguments handle_alive {_ _ _} _.
Arguments taken {_ _ _} _.
Arguments clock {_ _ _} _.
Arguments received {_ _ _} _.
Arguments empty_payload {_ _ _} _.
Arguments handling_error {_ _ _} _.
Arguments generated {_ _ _} _.
Arguments send_error {_ _ _} _.
Arguments reconnects {_ _ _} _.
Arguments start {_ _ _} _ _.
Arguments with_phase {_ _ _} _ _.
Arguments with_tasks {_ _ _} _ _.
Arguments count_received {_ _ _} _ _.
Arguments on_input {_ _ _} _ _ _.
Arguments send_turn {_ _ _} _ _ _ _.
Arguments Yield {_} _.
Arguments Command {_}.
Arguments Turn {_}.
Arguments Wake {_}.
Arguments Retry {_} _.
Arguments Shutdown {_}.
Arguments DropHandle {_}.
Arguments Receive {_} _.
Arguments End {_} _.
Arguments step {_ _ _} _ _ _.
Arguments run {_ _ _} _ _ _.
