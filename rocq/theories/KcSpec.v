(** * What a user expects of the Kafka consumer

    Read off a history of what happened: the messages the consumer took and
    the calls made by users, in order. *)

From Coq Require Import List Arith NArith Bool.
From Verif Require Import KcModel.
Import ListNotations.

Section Spec.
Variables Op Payload HState : Type.
Variable handle : HState -> Payload -> HState * option (list Op).

(** The operations that the taken messages carry, in order. *)
Fixpoint operations (h : HState) (xs : list (input Payload)) : list Op :=
  match xs with
  | [] => []
  | Message (Some p) :: rest =>
      match snd (handle h p) with
      | Some ops => ops
      | None => []
      end ++ operations (fst (handle h p)) rest
  | _ :: rest => operations h rest
  end.

(** How many of the taken messages the handler rejects. *)
Fixpoint rejected (h : HState) (xs : list (input Payload)) : nat :=
  match xs with
  | [] => 0
  | Message (Some p) :: rest =>
      match snd (handle h p) with
      | Some _ => 0
      | None => 1
      end + rejected (fst (handle h p)) rest
  | _ :: rest => rejected h rest
  end.

Definition without_payload (x : input Payload) : bool :=
  match x with Message None => true | _ => false end.

Definition prefix {A} (p l : list A) : Prop := exists r, l = p ++ r.

(** What a history shows. *)
Fixpoint yielded (ls : list (label Payload)) : list (input Payload) :=
  match ls with
  | [] => []
  | Yield x :: rest => x :: yielded rest
  | _ :: rest => yielded rest
  end.

Definition is_retry (l : label Payload) : bool :=
  match l with Retry _ => true | _ => false end.

(** A step of the consumer itself, as against one of its environment. *)
Definition own (l : label Payload) : bool :=
  match l with
  | Yield _ | Command | Turn | Wake | Retry _ => true
  | _ => false
  end.

(** A task with an empty channel and nothing received. *)
Definition fresh (t : task Op) : Prop :=
  waiting t = 0 /\ running t = true /\ accepted t = [].

(** States that some history leads to. *)
Definition reachable (ts : list (task Op)) (h : HState)
  (ls : list (label Payload)) (s : state Op Payload HState) : Prop :=
  Forall fresh ts /\ run handle (start ts h) ls = Some s.

End Spec.

Arguments operations {_ _ _} _ _ _.
Arguments rejected {_ _ _} _ _ _.
Arguments without_payload {_} _.
Arguments yielded {_} _.
Arguments is_retry {_} _.
Arguments own {_} _.
Arguments fresh {_} _.
Arguments reachable {_ _ _} _ _ _ _ _.
