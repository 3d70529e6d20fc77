(* Specification vocabulary for the byte reader (C07, C08), independent of
   the helpers of Base.v. *)
From Coq Require Import List NArith ZArith.
Import ListNotations.
Open Scope N_scope.

(* Positional value of a big-endian octet string. *)
Fixpoint positional (l : list N) : N :=
  match l with
  | [] => 0
  | b :: rest => b * 256 ^ N.of_nat (length rest) + positional rest
  end.

(* Two's-complement value of a big-endian octet string: negative iff the top
   bit of the first octet is set. *)
Definition twos_complement (l : list N) : Z :=
  match l with
  | [] => 0%Z
  | b :: _ => if b <? 128 then Z.of_N (positional l)
              else (Z.of_N (positional l) - 256 ^ Z.of_nat (length l))%Z
  end.
