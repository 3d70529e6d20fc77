(* A streaming decoder driven the way tokio_util::codec::Framed drives it
   (tokio-util is not in /repo; the loop is the documented contract of
   Decoder: decode is called until it answers Ok(None), then more bytes are
   read and appended; the stream ends after the first Err). *)
From Verif Require Import Base.

(* One call of Decoder::decode: Ok(None), Ok(Some item), Err e, or a panic. *)
Inductive dout (I E : Type) : Type :=
| DNone
| DItem (i : I)
| DErr (e : E)
| DPanic.
Arguments DNone {I E}.
Arguments DItem {I E} i.
Arguments DErr {I E} e.
Arguments DPanic {I E}.

(* decode(&mut self, buf: &mut BytesMut): new decoder state, what is left in
   the buffer, and the answer. *)
Definition decoder (S I E : Type) : Type := S -> list N -> S * list N * dout I E.

(* Answers after which the reading loop stops for good. *)
Definition halts {I E} (o : dout I E) : bool :=
  match o with DErr _ | DPanic => true | _ => false end.

Inductive dstatus : Type :=
| Waiting     (* decode answered Ok(None): the loop waits for bytes *)
| Halted      (* the stream ended with an error or a panic *)
| Looping.    (* the model's fuel ran out: decode answers forever without
                 consuming anything *)

Definition is_none {I E} (o : dout I E) : bool :=
  match o with DNone => true | _ => false end.

Fixpoint drain_fuel {S I E} (D : decoder S I E) (fuel : nat) (s : S) (b : list N)
  : S * list N * list (dout I E) * dstatus :=
  match fuel with
  | O => (s, b, [], Looping)
  | Datatypes.S f =>
      match D s b with
      | (s', b', o) =>
          if is_none o then (s', b', [], Waiting)
          else if halts o then (s', b', [o], Halted)
          else match drain_fuel D f s' b' with
               | (s2, b2, os, st) => (s2, b2, o :: os, st)
               end
      end
  end.
(* Decode until nothing more can be decoded. *)
Definition drain {S I E} (D : decoder S I E) (s : S) (b : list N) :=
  drain_fuel D (Datatypes.S (length b)) s b.

(* State of a connection: decoder, unread bytes, everything decoded so far. *)
Record conn (S I E : Type) : Type := mkConn
  { c_st : S; c_buf : list N; c_out : list (dout I E); c_status : dstatus }.
Arguments mkConn {S I E} _ _ _ _.
Arguments c_st {S I E} _.
Arguments c_buf {S I E} _.
Arguments c_out {S I E} _.
Arguments c_status {S I E} _.

Definition conn_new {S I E} (s : S) : conn S I E := mkConn s [] [] Waiting.
(* One read of the socket returned the bytes [x]. After the stream ended the
   bytes stay undecoded. *)
Definition feed {S I E} (D : decoder S I E) (c : conn S I E) (x : list N) : conn S I E :=
  match c_status c with
  | Waiting =>
      match drain D (c_st c) (c_buf c ++ x) with
      | (s', b', os, st) => mkConn s' b' (c_out c ++ os) st
      end
  | _ => mkConn (c_st c) (c_buf c ++ x) (c_out c) (c_status c)
  end.
Definition feed_all {S I E} (D : decoder S I E) (c : conn S I E) (xs : list (list N)) : conn S I E :=
  fold_left (feed D) xs c.
