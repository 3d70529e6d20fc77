(* What windowed aggregation promises, said without the aggregator. *)
From Verif Require Import Base WinModel.
From Coq Require Import ZArith.

Section WinSpec.
Context {K I V : Type} (keqb : K -> K -> bool) (key_of : I -> K) (ts_of : I -> Z) (late : Z).

(* the items a source delivers, whenever it does *)
Definition items (src : list (option I)) : list I :=
  flat_map (fun o => match o with Some x => [x] | None => [] end) src.
(* what a consumer was given *)
Definition windows_of (l : list (answer (I := I) (V := V))) : list (window * V) :=
  flat_map (fun a => match a with Ready (Some (inl w)) => [w] | _ => [] end) l.
Definition lates_of (l : list (answer (I := I) (V := V))) : list I :=
  flat_map (fun a => match a with Ready (Some (inr x)) => [x] | _ => [] end) l.
(* what a consumer was given, in order *)
Definition given (l : list (answer (I := I) (V := V))) : list ((window * V) + I) :=
  flat_map (fun a => match a with Ready (Some o) => [o] | _ => [] end) l.

(* an item is late when an item of its key seen before is more than the
   lateness ahead of it *)
Definition is_late (seen : list I) (x : I) : bool :=
  existsb (fun y => keqb (key_of y) (key_of x) && (ts_of x <? ts_of y - late)%Z) seen.
Fixpoint judge (seen xs : list I) : list (I * bool) :=
  match xs with
  | [] => []
  | x :: r => (x, is_late seen x) :: judge (seen ++ [x]) r
  end.
Definition late_items (xs : list I) : list I := map fst (filter snd (judge [] xs)).
Definition on_time (xs : list I) : list I := map fst (filter (fun p => negb (snd p)) (judge [] xs)).
(* the on-time items of one key in the minute starting at s, in order *)
Definition group (xs : list I) (k : K) (s : Z) : list I :=
  filter (fun x => keqb (key_of x) k && (s <=? ts_of x)%Z && (ts_of x <? s + minute)%Z) (on_time xs).
Definition minute_start (s : Z) : Prop := exists n : Z, s = (n * minute)%Z.
(* the largest time among the items of a key *)
Definition newest (xs : list I) (k : K) (t : Z) : Prop :=
  (exists x, In x xs /\ key_of x = k /\ ts_of x = t) /\
  (forall x, In x xs -> key_of x = k -> (ts_of x <= t)%Z).
(* the minute starting at s of key k is over: its end (s + dur) is not after
   the start of the minute that holds the oldest time still acceptable *)
Definition over (dur : Z) (xs : list I) (k : K) (s : Z) : Prop :=
  exists t m, newest xs k t /\ minute_start m /\ (m <= t - late < m + minute)%Z /\ (s + dur <= m)%Z.
End WinSpec.
