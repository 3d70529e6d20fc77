(* What the BMP collector service promises, in terms of the commands it was sent,
   the connections it accepted and what became of each message. *)
From Coq Require Import List NArith Bool.
From Verif Require Import BsModel.
Import ListNotations.
Local Open Scope N_scope.

(* the state after a history of events *)
Definition state (hash : N -> N) (es : list event) : actor := fst (run hash init es).

(* the commands that were taken: those before the service was stopped *)
Fixpoint before_stop (es : list event) : list event :=
  match es with
  | [] => []
  | Shutdown :: _ => []
  | e :: r => e :: before_stop r
  end.
Definition stopped (es : list event) : Prop := In Shutdown es.
(* the channels of each subscription, in order *)
Fixpoint subscriptions (es : list event) : list (list N) :=
  match es with
  | [] => []
  | Subscribe senders :: r => senders :: subscriptions r
  | _ :: r => subscriptions r
  end.
(* subscription [id] was made with these channels and not revoked since *)
Definition subscribed (es : list event) (id : N) (senders : list N) : Prop :=
  exists pre post, before_stop es = pre ++ Subscribe senders :: post /\
    id = N.of_nat (length (subscriptions pre)) /\ ~ In (Unsubscribe id) post.

(* a connection the service is still serving *)
Definition live (x : task) : Prop := match t_phase x with Idle | Sending _ _ _ => True | _ => False end.
(* it is at the point where it waits for messages and updates *)
Definition waiting (x : task) : Prop := t_phase x = Idle.
(* ... and has taken all the updates there are *)
Definition up_to_date (a : actor) (x : task) : Prop := t_cursor x = length (a_pub a).
(* the last message was cut short: being sent, aborted, or crashed on *)
Definition interrupted (x : task) : Prop :=
  match t_phase x with Sending _ _ _ | Crashed => True | Gone => t_abort x = true | _ => False end.

(* the service was not asked to end it *)
Definition wanted (x : task) : Prop := t_abort x = false.

(* histories in which a notice that a connection closed is taken before the next
   connection from the same address is accepted *)
Fixpoint in_time (hash : N -> N) (a : actor) (es : list event) : Prop :=
  match es with
  | [] => True
  | e :: r =>
      match e, a_closed a with
      | TakeClosed, addr :: _ => forall x, In x (a_tasks a) -> t_addr x = addr -> wanted x -> ~ live x
      | _, _ => True
      end /\ in_time hash (fst (step hash a e)) r
  end.
(* histories in which the queue of notices never overflows *)
Fixpoint roomy (hash : N -> N) (a : actor) (es : list event) : Prop :=
  match es with
  | [] => True
  | e :: r =>
      match e with Notice _ => (length (a_closed a) < closed_capacity)%nat | _ => True end /\
      roomy hash (fst (step hash a e)) r
  end.
