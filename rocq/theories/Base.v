(* Base vocabulary shared by every model file: bytes, big-endian integers,
   outcomes, and the parser monad over crates/parse-utils SliceReader. *)
From Coq Require Export List Arith NArith ZArith Lia Bool.
From Coq Require Export ZifyBool ZifyNat ZifyN.
Export ListNotations.
Ltac Zify.zify_post_hook ::= Z.div_mod_to_equations.
Global Arguments N.add : simpl never.
Global Arguments N.mul : simpl never.
Global Arguments N.sub : simpl never.
Global Arguments N.div : simpl never.
Global Arguments N.modulo : simpl never.
Global Arguments N.pow : simpl never.
Global Arguments N.of_nat : simpl never.
Global Arguments N.to_nat : simpl never.
Global Arguments N.eqb : simpl never.
Global Arguments N.ltb : simpl never.
Global Arguments N.leb : simpl never.
Global Arguments N.land : simpl never.
Global Arguments N.lor : simpl never.
Global Arguments N.shiftl : simpl never.
Global Arguments N.shiftr : simpl never.
Open Scope N_scope.

(* A byte is an [N] below 256; a buffer is a list of bytes. *)
Definition byte_ok (b : N) : bool := b <? 256.
Definition bytes_ok (l : list N) : bool := forallb byte_ok l.

(* Length of a buffer as a machine size ([usize] is taken as unbounded: a
   buffer that does not fit in memory cannot exist). *)
Definition blen {A} (l : list A) : N := N.of_nat (length l).
Definition take {A} (n : N) (l : list A) : list A := firstn (N.to_nat n) l.
Definition drop {A} (n : N) (l : list A) : list A := skipn (N.to_nat n) l.

(* [uN::from_be_bytes]: base-256 value, most significant byte first. *)
Definition be_val (l : list N) : N := fold_left (fun a b => a * 256 + b) l 0.

(* [uN::to_be_bytes] restricted to k octets: the k low-order octets of v,
   most significant first. *)
Fixpoint be_enc (k : nat) (v : N) : list N :=
  match k with
  | O => []
  | S k' => be_enc k' (v / 256) ++ [v mod 256]
  end.

(* Outcome of a Rust computation. [Panic] is an explicit panic (slice out of
   range, unwrap on None, unreachable!, arithmetic overflow in a checked
   build); [Diverge] is a loop that ran out of the model's fuel. *)
Inductive res (E A : Type) : Type :=
| Ok (a : A)
| Err (e : E)
| Panic
| Diverge.
Arguments Ok {E A} a.
Arguments Err {E A} e.
Arguments Panic {E A}.
Arguments Diverge {E A}.

Definition rbind {E A B} (x : res E A) (f : A -> res E B) : res E B :=
  match x with
  | Ok a => f a
  | Err e => Err e
  | Panic => Panic
  | Diverge => Diverge
  end.
Definition map_err {E F A} (g : E -> F) (x : res E A) : res F A :=
  match x with
  | Ok a => Ok a
  | Err e => Err (g e)
  | Panic => Panic
  | Diverge => Diverge
  end.

(* ------------------------------------------------------------------ *)
(* crates/parse-utils/src/error.rs: ParseError (the two variants that the
   reader produces). *)
Inductive perr : Type :=
| Eof (offset needed available : N)
| BadPadding (offset requested ret_len : N).

(* crates/parse-utils/src/reader.rs:33-37 SliceReader { buf, offset } *)
Record reader : Type := mkR { rbuf : list N; roff : N }.

(* reader.rs:41-43 SliceReader::new *)
Definition rnew (b : list N) : reader := mkR b 0.
(* reader.rs:56-58 remaining *)
Definition remaining (r : reader) : N := blen (rbuf r).
(* reader.rs:61-63 is_empty *)
Definition ris_empty (r : reader) : bool :=
  match rbuf r with [] => true | _ => false end.

(* A parser takes [&mut SliceReader]; the reader state is returned also on
   error, because Rust code can observe it after a failed call. *)
Definition parser (E A : Type) : Type := reader -> reader * res E A.

Definition ret {E A} (a : A) : parser E A := fun r => (r, Ok a).
Definition fail {E A} (e : E) : parser E A := fun r => (r, Err e).
Definition bind {E A B} (p : parser E A) (f : A -> parser E B) : parser E B :=
  fun r => match p r with
           | (r', Ok a) => f a r'
           | (r', Err e) => (r', Err e)
           | (r', Panic) => (r', Panic)
           | (r', Diverge) => (r', Diverge)
           end.
Definition pmap_err {E F A} (g : E -> F) (p : parser E A) : parser F A :=
  fun r => let (r', x) := p r in (r', map_err g x).
Definition get_reader {E} : parser E reader := fun r => (r, Ok r).

Declare Scope parse_scope.
Delimit Scope parse_scope with parse.
Notation "'do' x <- p ;; q" := (bind p (fun x => q))
  (at level 200, x name, p at level 100, q at level 200, right associativity) : parse_scope.
Notation "'do_' p ;; q" := (bind p (fun _ => q))
  (at level 200, p at level 100, q at level 200, right associativity) : parse_scope.
Open Scope parse_scope.

(* reader.rs:72-81 read_u8 *)
Definition read_u8 : parser perr N :=
  fun r => match rbuf r with
           | v :: rest => (mkR rest (roff r + 1), Ok v)
           | [] => (r, Err (Eof (roff r) 1 0))
           end.

(* reader.rs:143-152 read_bytes, and 85-94 read_array (same behaviour with a
   constant length) *)
Definition read_bytes (len : N) : parser perr (list N) :=
  fun r => if blen (rbuf r) <? len
           then (r, Err (Eof (roff r) len (blen (rbuf r))))
           else (mkR (drop len (rbuf r)) (roff r + len), Ok (take len (rbuf r))).

(* reader.rs:97-114 read_u16_be .. read_u128_be *)
Definition read_be (n : N) : parser perr N :=
  do b <- read_bytes n;; ret (be_val b).
Definition read_u16 : parser perr N := read_be 2.
Definition read_u32 : parser perr N := read_be 4.
Definition read_u64 : parser perr N := read_be 8.
Definition read_u128 : parser perr N := read_be 16.

(* reader.rs:157-161 take_slice: sub-reader with the absolute offset *)
Definition take_slice (len : N) : parser perr reader :=
  fun r => match read_bytes len r with
           | (r', Ok b) => (r', Ok (mkR b (roff r)))
           | (r', Err e) => (r', Err e)
           | (r', Panic) => (r', Panic)
           | (r', Diverge) => (r', Diverge)
           end.

(* reader.rs:164-188 peek_u8, peek_u16_be, peek_u32_be, peek_array *)
Definition peek_u8 : parser perr N :=
  fun r => match rbuf r with
           | v :: _ => (r, Ok v)
           | [] => (r, Err (Eof (roff r) 1 0))
           end.
Definition peek_be (n : N) : parser perr N :=
  fun r => if blen (rbuf r) <? n
           then (r, Err (Eof (roff r) n (blen (rbuf r))))
           else (r, Ok (be_val (take n (rbuf r)))).

(* reader.rs:192-200 read_padded::<N>: left-aligned, zero padded *)
Definition read_padded (n len : N) : parser perr (list N) :=
  if n <? len
  then (fun r => (r, Err (BadPadding (roff r) len n)))
  else (do src <- read_bytes len;;
        ret (src ++ repeat 0 (N.to_nat (n - len)))).

(* reader.rs:214-226 read_unsigned32_be: the match arms 0..4 all read len
   bytes and zero-extend on the left. *)
Definition read_unsigned32_be (len : N) : parser perr N :=
  match len with
  | 0 => ret 0
  | 1 | 2 | 3 | 4 => read_be len
  | _ => fun r => (r, Err (BadPadding (roff r) len 4))
  end.
(* reader.rs:239-264 read_unsigned64_be *)
Definition read_unsigned64_be (len : N) : parser perr N :=
  match len with
  | 0 => ret 0
  | 1 | 2 | 3 | 4 | 5 | 6 | 7 | 8 => read_be len
  | _ => fun r => (r, Err (BadPadding (roff r) len 8))
  end.

(* [v as iW]: reinterpretation of a W-bit pattern as two's complement. *)
Definition to_signed (w : N) (v : N) : Z :=
  if v <? 2 ^ (w - 1) then Z.of_N v else (Z.of_N v - 2 ^ Z.of_N w)%Z.
(* [(v as uW)]: bit pattern of a signed value. *)
Definition of_signed (w : N) (z : Z) : N := Z.to_N (z mod 2 ^ Z.of_N w).
(* Rust [<<] on iW drops the high bits; [>>] on iW is arithmetic. *)
Definition shl_signed (w : N) (z : Z) (s : N) : Z :=
  to_signed w (of_signed w (Z.shiftl z (Z.of_N s))).
Definition shr_signed (z : Z) (s : N) : Z := Z.shiftr z (Z.of_N s).

(* reader.rs:272-279 read_signed32_be. [4 - len] cannot underflow: larger
   lengths were rejected by the line above. *)
Definition read_signed32_be (len : N) : parser perr Z :=
  do u <- read_unsigned32_be len;;
  let v := to_signed 32 u in
  let shift := N.land ((4 - len) * 8) 31 in
  ret (shr_signed (shl_signed 32 v shift) shift).
(* reader.rs:288-295 read_signed64_be *)
Definition read_signed64_be (len : N) : parser perr Z :=
  do u <- read_unsigned64_be len;;
  let v := to_signed 64 u in
  let shift := N.land ((8 - len) * 8) 63 in
  ret (shr_signed (shl_signed 64 v shift) shift).

(* [while !cur.is_empty() { xs.push(p(cur)?) }], a loop shape used by most
   list parsers in the repository. *)
Fixpoint many {E A} (fuel : nat) (p : parser E A) : parser E (list A) :=
  fun r =>
    if ris_empty r then (r, Ok [])
    else match fuel with
         | O => (r, Diverge)
         | S f => (do x <- p;; do xs <- many f p;; ret (x :: xs)) r
         end.
(* The fuel used: one more than the number of remaining bytes is always
   enough when p consumes at least one byte. *)
Definition many_all {E A} (p : parser E A) : parser E (list A) :=
  fun r => many (S (length (rbuf r))) p r.

(* Run a parser on a sub-reader (Rust passes [&mut sub]); only the result is
   kept, the outer reader is unchanged by the call. *)
Definition on_sub {E A} (sub : reader) (p : parser E A) : parser E A :=
  fun r => (r, snd (p sub)).

(* Casts. *)
Definition as_u8 (v : N) : N := v mod 256.
Definition as_u16 (v : N) : N := v mod 65536.
Definition as_u32 (v : N) : N := v mod 4294967296.
Definition as_u64 (v : N) : N := v mod 18446744073709551616.
