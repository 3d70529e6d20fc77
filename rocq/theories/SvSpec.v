(* Predicates for the properties of the supervisors. *)
From Coq Require Import List Bool Arith.
From Verif Require Import SvModel.
Import ListNotations.

Section Spec.
Variable v : service.
Variable order : list nat.
Variable buffer : nat.

(* the states that a supervisor over the listeners [order] can reach *)
Definition reachable (s : state) : Prop := exists es, s = after v order buffer (init order) es.

(* a caller that did not drop the future of its call *)
Definition waits (s : state) (c : nat) : Prop := ~ In c (s_gone s).
Definition every_listener_runs (s : state) : Prop :=
  forall a, In a order -> l_end (s_listeners s a) = None.
Definition supervisor_runs (s : state) : Prop := s_control s <> Ended.

(* the listeners that answered, in the order of their answers *)
Definition answerer (r : reply) : list nat :=
  match r with Subscribed a _ => [a] | Answered a => [a] | _ => [] end.
Definition answerers (l : list reply) : list nat := flat_map answerer l.

Definition is_broadcast (k : call) : bool := match k with CSubscribe => true | CQuery => true | _ => false end.
(* the kind of answer a call collects *)
Definition right_kind (k : call) (r : reply) : Prop :=
  match k, r with
  | CSubscribe, Subscribed _ _ => True
  | CQuery, Answered _ => True
  | CUnsubscribe _, Unsubscribed _ => True
  | CShutdown, ShutDone => True
  | _, _ => False
  end.

(* the calls for every listener that the supervisor's queue accepted, oldest first *)
Definition accepted_broadcasts (s : state) : list nat :=
  filter (fun c => match nth_error (s_calls s) c with
                   | Some k => is_broadcast k
                   | None => false
                   end && negb (has c (s_refused s)) && negb (has c (s_panicked s)))
         (seq 0 (length (s_calls s))).

(* the steps of the tasks themselves *)
Definition internal (e : event) : Prop := match e with Sup => True | Act _ => True | _ => False end.
Definition quiet (s : state) : Prop := forall e, internal e -> step v order buffer s e = None.
(* a schedule each of whose events can happen *)
Inductive runs : state -> list event -> state -> Prop :=
| runs_nil s : runs s [] s
| runs_cons s e s1 es s2 : step v order buffer s e = Some s1 -> runs s1 es s2 -> runs s (e :: es) s2.

(* a subscription that listener [a] reported to a caller *)
Definition reported (s : state) (a id : nat) : Prop := exists c, In (c, Subscribed a id) (s_replies s).
(* an Unsubscribe call that names it was made *)
Definition named_by_a_call (s : state) (a id : nat) : Prop :=
  exists subs, In (CUnsubscribe subs) (s_calls s) /\ In (a, id) subs.
Definition registered (s : state) (a id : nat) : Prop := In id (l_subs (s_listeners s a)).
(* the answer to an Unsubscribe: one entry per listener, in the map's order *)
Definition expected_unsubscribe (subs : list (nat * nat)) (l : list reply) : Prop :=
  Forall2 (fun a r => (In a (map fst subs) /\ r = Unsubscribed (Some a)) \/
                      (~ In a (map fst subs) /\ r = Unsubscribed None)) order l.
End Spec.
