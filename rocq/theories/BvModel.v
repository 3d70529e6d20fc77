(* The tower-style BMP server and its handle: crates/bmp-service/src/server.rs and
   src/handle.rs.

   The server task, one worker task per connection and the caller of the handle run
   concurrently.  The model is one state with one transition per atomic operation on
   what they share; a waiter of a signal goes through the check of the flag, the
   registration with tokio's Notify and the wake-up separately.  The connections'
   contents are in [serve] below. *)
From Coq Require Import List Bool Arith NArith.
From Coq Require Export List.
Import ListNotations.

(* NotifyOnce, handle.rs lines 22-51: the flag, and whether the wake-up that goes
   with setting it is still to come *)
Record once : Type := Once { o_flag : bool; o_due : bool }.
Definition signal (o : once) : once := if o_flag o then o else Once true true.
(* a task in [notified().await] *)
Inductive waiter : Type :=
| Fresh         (* before the load of the flag *)
| Loaded        (* saw false, Notify::notified not called yet *)
| Registered    (* waits *)
| Woken.        (* returned *)
Definition load (o : once) (w : waiter) : waiter :=
  match w with Fresh => if o_flag o then Woken else Loaded | _ => w end.
Definition register (w : waiter) : waiter := match w with Loaded => Registered | _ => w end.
Definition wake (w : waiter) : waiter := match w with Registered => Woken | _ => w end.

(* a worker task, server.rs lines 94-107 *)
Inductive worker : Type :=
| Running (w : waiter)
| Leaving                   (* about to drop its watcher *)
| Dropping (left : nat)     (* decremented the count to [left] *)
| Left.
(* the server task, server.rs lines 76-128; an error of accept, which ends it too, is left out *)
Inductive reason : Type := ByShutdown | ByEmpty | ByTimer.
Inductive main : Type :=
| Listening (out inn : waiter)   (* waits for shutdown, and for graceful shutdown *)
| Ending (w : waiter)            (* wait_connections_end *)
| Closed (r : reason).
Record server : Type := Server {
  v_shut : once; v_grace : once; v_end : once;
  v_count : nat;                 (* connection_count *)
  v_workers : list worker;
  v_main : main
}.
Definition init : server :=
  Server (Once false false) (Once false false) (Once false false) 0 [] (Listening Fresh Fresh).

Definition set_worker (l : list worker) (i : nat) (w : worker) : list worker := firstn i l ++ w :: skipn (S i) l.
Definition wake_worker (w : worker) : worker := match w with Running x => Running (wake x) | _ => w end.

Inductive event : Type :=
| CallShutdown | WakeShutdown           (* handle.shutdown(), handle.rs lines 103-105: flag, then wake-up *)
| CallGraceful | WakeGraceful           (* handle.graceful_shutdown(), lines 107-109 *)
| WakeEnd
| OutLoad | OutRegister | InLoad | InRegister
| Accept                                (* server.rs lines 78-93 *)
| TakeShutdown                          (* server.rs lines 110-115 *)
| TakeGraceful                          (* server.rs lines 86-89, 116-120, 126 *)
| EndLoad | EndRegister | TakeEnd       (* handle.rs lines 126-140 *)
| Timer
| WLoad (i : nat) | WRegister (i : nat)
| WShutdown (i : nat)                   (* server.rs lines 99-101 *)
| WFinished (i : nat)                   (* server.rs lines 102-104: the connection is over *)
| WDecrement (i : nat) | WCheck (i : nat).  (* Drop of the watcher, handle.rs lines 156-168 *)

(* [duration]: graceful_shutdown_duration is set *)
Definition step (duration : bool) (v : server) (e : event) : server :=
  let with_main m := Server (v_shut v) (v_grace v) (v_end v) (v_count v) (v_workers v) m in
  let with_worker i w := Server (v_shut v) (v_grace v) (v_end v) (v_count v) (set_worker (v_workers v) i w) (v_main v) in
  match e, v_main v with
  | CallShutdown, _ => Server (signal (v_shut v)) (v_grace v) (v_end v) (v_count v) (v_workers v) (v_main v)
  | WakeShutdown, m =>
      if o_due (v_shut v) then
        Server (Once true false) (v_grace v) (v_end v) (v_count v) (map wake_worker (v_workers v))
          (match m with Listening out inn => Listening (wake out) inn | _ => m end)
      else v
  | CallGraceful, _ => Server (v_shut v) (signal (v_grace v)) (v_end v) (v_count v) (v_workers v) (v_main v)
  | WakeGraceful, m =>
      if o_due (v_grace v) then
        Server (v_shut v) (Once true false) (v_end v) (v_count v) (v_workers v)
          (match m with Listening out inn => Listening out (wake inn) | _ => m end)
      else v
  | WakeEnd, m =>
      if o_due (v_end v) then
        Server (v_shut v) (v_grace v) (Once true false) (v_count v) (v_workers v)
          (match m with Ending w => Ending (wake w) | _ => m end)
      else v
  | OutLoad, Listening out inn => with_main (Listening (load (v_shut v) out) inn)
  | OutRegister, Listening out inn => with_main (Listening (register out) inn)
  | InLoad, Listening out inn => with_main (Listening out (load (v_grace v) inn))
  | InRegister, Listening out inn => with_main (Listening out (register inn))
  | Accept, Listening out _ =>       (* the next turn of the loop waits anew *)
      Server (v_shut v) (v_grace v) (v_end v) (S (v_count v)) (v_workers v ++ [Running Fresh]) (Listening out Fresh)
  | TakeShutdown, Listening Woken _ => with_main (Closed ByShutdown)
  | TakeGraceful, Listening _ Woken =>
      with_main (if Nat.eqb (v_count v) 0 then Closed ByEmpty else Ending Fresh)
  | EndLoad, Ending w => with_main (Ending (load (v_end v) w))
  | EndRegister, Ending w => with_main (Ending (register w))
  | TakeEnd, Ending Woken => with_main (Closed ByEmpty)
  | Timer, Ending _ =>
      if duration then Server (signal (v_shut v)) (v_grace v) (v_end v) (v_count v) (v_workers v) (Closed ByTimer) else v
  | WLoad i, _ =>
      match nth_error (v_workers v) i with Some (Running w) => with_worker i (Running (load (v_shut v) w)) | _ => v end
  | WRegister i, _ =>
      match nth_error (v_workers v) i with Some (Running w) => with_worker i (Running (register w)) | _ => v end
  | WShutdown i, _ =>
      match nth_error (v_workers v) i with Some (Running Woken) => with_worker i Leaving | _ => v end
  | WFinished i, _ =>
      match nth_error (v_workers v) i with Some (Running _) => with_worker i Leaving | _ => v end
  | WDecrement i, _ =>
      match nth_error (v_workers v) i with
      | Some Leaving =>
          Server (v_shut v) (v_grace v) (v_end v) (v_count v - 1)
            (set_worker (v_workers v) i (Dropping (v_count v - 1))) (v_main v)
      | _ => v
      end
  | WCheck i, _ =>
      match nth_error (v_workers v) i with
      | Some (Dropping n) =>
          Server (v_shut v) (v_grace v) (if Nat.eqb n 0 && o_flag (v_grace v) then signal (v_end v) else v_end v)
            (v_count v) (set_worker (v_workers v) i Left) (v_main v)
      | _ => v
      end
  | _, _ => v
  end.
Definition run (duration : bool) (v : server) (es : list event) : server := fold_left (step duration) es v.

(* ---------------- one connection ---------------- *)
(* what try_next gives: a message, the end, or a decoding error *)
Inductive item : Type := Message (m : N) | End | Failure (e : N).
(* what the service says to its k-th request *)
Inductive reply : Type := NotReady | CallFails | Continue | CloseConnection.
(* server.rs lines 138-176; the requests the service is called with.  A stream that
   yields nothing more leaves the worker waiting. *)
Fixpoint serve (svc : nat -> reply) (k : nat) (items : list item) : list item :=
  match items with
  | [] => []
  | x :: r =>
      match svc k with
      | NotReady => []
      | CallFails => [x]
      | CloseConnection => [x]
      | Continue => match x with Message _ => x :: serve svc (S k) r | _ => [x] end
      end
  end.
