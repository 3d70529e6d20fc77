(* What the BMP server promises about its handle and its connections. *)
From Coq Require Import List Bool Arith NArith.
From Verif Require Import BvModel.
Import ListNotations.

Definition after (d : bool) (es : list event) : server := run d init es.
(* a connection that has not given back its share of the count *)
Definition open (w : worker) : bool := match w with Running _ | Leaving => true | _ => false end.
Definition open_connections (v : server) : nat := length (filter open (v_workers v)).
(* the call of shutdown() returned *)
Definition shut_down (v : server) : Prop := o_flag (v_shut v) = true /\ o_due (v_shut v) = false.

(* no connection is between looking at the flag and waiting for the signal when
   shutdown() sends it *)
Definition clear_of_window (d : bool) (es : list event) : Prop :=
  forall pre post, es = pre ++ WakeShutdown :: post ->
  forall w, In (Running w) (v_workers (after d pre)) -> w <> Loaded.
(* no connection is accepted after graceful_shutdown() was called, and none is just
   leaving when it is *)
Definition settled (d : bool) (es : list event) : Prop :=
  forall pre post, es = pre ++ CallGraceful :: post ->
  ~ In Accept post /\ forall n, ~ In (Dropping n) (v_workers (after d pre)).

(* the items of a stream that a service may see: up to the first that is no message *)
Fixpoint to_the_end (items : list item) : list item :=
  match items with
  | [] => []
  | Message m :: r => Message m :: to_the_end r
  | x :: _ => [x]
  end.
