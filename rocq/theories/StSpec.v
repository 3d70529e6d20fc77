(** * What a user expects of a stage *)

From Coq Require Import List Arith Bool.
From Verif Require Import StModel.
Import ListNotations.

Section Spec.
Variables In Out Op Cache : Type.
Variable apply : Cache -> Op -> Cache.
Variable enrich : Cache -> In -> option Out.

(** What comes of updates and flows in a given order: a flow is worked on
    with the updates before it, and left out when that fails. *)
Fixpoint outputs (c : Cache) (log : list (Op + In)) : list Out :=
  match log with
  | [] => []
  | inl op :: rest => outputs (apply c op) rest
  | inr x :: rest =>
      match enrich c x with
      | Some o => o :: outputs c rest
      | None => outputs c rest
      end
  end.

(** How many flows fail. *)
Fixpoint failures (c : Cache) (log : list (Op + In)) : nat :=
  match log with
  | [] => 0
  | inl op :: rest => failures (apply c op) rest
  | inr x :: rest =>
      match enrich c x with
      | Some _ => failures c rest
      | None => S (failures c rest)
      end
  end.

Fixpoint flows_of (log : list (Op + In)) : list In :=
  match log with
  | [] => []
  | inl _ :: rest => flows_of rest
  | inr x :: rest => x :: flows_of rest
  end.

Fixpoint updates_of (log : list (Op + In)) : list Op :=
  match log with
  | [] => []
  | inl op :: rest => op :: updates_of rest
  | inr _ :: rest => updates_of rest
  end.

(** What a history shows. *)
Fixpoint offered (ls : list (label In Op)) : list In :=
  match ls with
  | [] => []
  | Offer x :: rest => x :: offered rest
  | _ :: rest => offered rest
  end.

Fixpoint updates (ls : list (label In Op)) : list Op :=
  match ls with
  | [] => []
  | Update op :: rest => op :: updates rest
  | _ :: rest => updates rest
  end.

Definition is_turn (l : label In Op) : bool :=
  match l with Turn => true | _ => false end.

Definition prefix {A} (p l : list A) : Prop := exists r, l = p ++ r.

(** In order, with gaps. *)
Inductive subseq {A} : list A -> list A -> Prop :=
| sub_nil : subseq [] []
| sub_skip : forall x p l, subseq p l -> subseq p (x :: l)
| sub_keep : forall x p l, subseq p l -> subseq (x :: p) (x :: l).

End Spec.

Arguments outputs {_ _ _ _} _ _ _ _.
Arguments failures {_ _ _ _} _ _ _ _.
Arguments flows_of {_ _} _.
Arguments updates_of {_ _} _.
Arguments offered {_ _} _.
Arguments updates {_ _} _.
Arguments is_turn {_ _} _.
