(* The NETCONF-over-SSH codec, crates/netconf-proto/src/codec.rs.
   XML itself (quick-xml, and the typed readers and writers of protocol.rs) is
   not modelled: the codec is generic in the functions that turn a payload
   into a message and back. *)
From Verif Require Import Base FramingModel.

(* codec.rs:29-32 "]]>]]>", "\n#", "\n##\n"; codec.rs:28 XML_HEADER *)
Definition hello_term : list N := [93; 93; 62; 93; 93; 62].
Definition chunk_mark : list N := [10; 35].
Definition msg_term : list N := [10; 35; 35; 10].
Definition xml_header : list N :=
  [60;63;120;109;108;32;118;101;114;115;105;111;110;61;34;49;46;48;34;32;101;110;99;111;100;105;110;103;61;34;117;116;102;45;56;34;63;62].
(* codec.rs:35,38 *)
Definition max_chunk : N := 4294967295.
Definition max_chunk_len : N := 10.

(* [u8]::starts_with / slice equality *)
Fixpoint bytes_eqb (a b : list N) : bool :=
  match a, b with
  | [], [] => true
  | x :: a', y :: b' => (x =? y) && bytes_eqb a' b'
  | _, _ => false
  end.
Definition starts_with (p l : list N) : bool := bytes_eqb (take (blen p) l) p.
(* windows(n).position(|w| w == p): first place where p occurs *)
Fixpoint find_at (p l : list N) : option N :=
  if starts_with p l then Some 0
  else match l with
       | [] => None
       | _ :: l' => match find_at p l' with Some n => Some (n + 1) | None => None end
       end.
(* l[a..b] and Buf::advance: they panic out of range *)
Definition slice (a b : N) (l : list N) : option (list N) :=
  if (a <=? b) && (b <=? blen l) then Some (take (b - a) (drop a l)) else None.
Definition advance (n : N) (l : list N) : option (list N) := if n <=? blen l then Some (drop n l) else None.
(* iter().position(|b| b == x) *)
Fixpoint position (x : N) (l : list N) : option N :=
  match l with
  | [] => None
  | y :: l' => if y =? x then Some 0 else match position x l' with Some n => Some (n + 1) | None => None end
  end.

(* format!("{size}"): decimal digits of a usize. The recursion is on the
   number of bits, which is at least the number of digits. *)
Fixpoint dec_fuel (k : nat) (n : N) : list N :=
  match k with
  | O => [48 + n mod 10]
  | S k' => if n <? 10 then [48 + n] else dec_fuel k' (n / 10) ++ [48 + n mod 10]
  end.
Definition dec (n : N) : list N := dec_fuel (N.size_nat n) n.
(* str::parse::<usize>(): an optional plus sign and at least one digit, below
   2^64. Text that is not UTF-8 is refused as well (codec.rs:189): such bytes
   are not digits. *)
Definition digit (b : N) : bool := (48 <=? b) && (b <=? 57).
Definition dec_val (l : list N) : N := fold_left (fun a b => a * 10 + (b - 48)) l 0.
Definition parse_digits (l : list N) : option N :=
  match l with
  | [] => None
  | _ => if forallb digit l && (dec_val l <? 2 ^ 64) then Some (dec_val l) else None
  end.
Definition parse_usize (l : list N) : option N :=
  match l with
  | 43 :: l' => parse_digits l'
  | _ => parse_digits l
  end.

(* codec.rs:61-77 SshCodecError, with the reason of the IO variant *)
Inductive nc_err : Type :=
| NoBase11            (* codec.rs:148-151 *)
| NoChunkStart        (* codec.rs:166-169 *)
| NoSizeEnd           (* codec.rs:180-185 *)
| BadSizeText         (* codec.rs:190-191: Utf or Int *)
| BadSize (n : N)     (* codec.rs:194-199 *)
| BadXml.             (* Parsing *)

(* codec.rs:43-46 SshCodec { in_hello, buf } *)
Record nc_state : Type := mkNc { in_hello : bool; nc_buf : list N }.
Definition nc_new : nc_state := mkNc true [].

Section Codec.
(* M: NetConfMessage. hello_of/msg_of: Hello::xml_deserialize wrapped in
   NetConfMessage::Hello, and NetConfMessage::xml_deserialize, None when they
   fail. base11: the capability test of codec.rs:143-146. *)
Context {M : Type}.
Variable hello_of : list N -> option M.
Variable base11 : M -> bool.
Variable msg_of : list N -> option M.

(* codec.rs:158-230: the chunk loop. Result: accumulated chunks, what is left
   in the buffer, answer. Fuel: each round but the last consumes a chunk. *)
Fixpoint chunks (fuel : nat) (acc src : list N) : list N * list N * dout M nc_err :=
  match fuel with
  | O => (acc, src, DNone)
  | S f =>
      if blen src <? blen chunk_mark + max_chunk_len + 1 then (acc, src, DNone)
      else if negb (starts_with chunk_mark src) then (acc, src, DErr NoChunkStart)
      else
      let size_start := blen chunk_mark in
      match slice size_start (size_start + max_chunk_len + 1) src with
      | None => (acc, src, DPanic)
      | Some field =>
      match position 10 field with
      | None => (acc, src, DErr NoSizeEnd)
      | Some p =>
      let size_end := size_start + p in
      match slice size_start size_end src with
      | None => (acc, src, DPanic)
      | Some text =>
      match parse_usize text with
      | None => (acc, src, DErr BadSizeText)
      | Some n =>
      if (n =? 0) || (max_chunk <? n) then (acc, src, DErr (BadSize n))
      else
      let start := size_end + 1 in
      if blen src <? start + n then (acc, src, DNone)
      else
      match slice start (start + n) src, advance (start + n) src with
      | Some data, Some src' =>
          let acc' := acc ++ data in
          if starts_with msg_term src' then
            match msg_of acc' with
            | None => ([], src', DErr BadXml)
            | Some m =>
                match advance (blen msg_term) src' with
                | Some src2 => ([], src2, DItem m)
                | None => ([], src', DPanic)
                end
            end
          else chunks f acc' src'
      | _, _ => (acc, src, DPanic)
      end
      end
      end
      end
      end
  end.

(* codec.rs:132-231 SshCodec::decode *)
Definition nc_decode : decoder nc_state M nc_err := fun s src =>
  if in_hello s && (blen hello_term <=? blen src) then
    match find_at hello_term src with
    | Some p =>
        match advance (p + blen hello_term) src with
        | None => (s, src, DPanic)
        | Some rest =>
            match hello_of (take p src) with
            | None => (s, rest, DErr BadXml)
            | Some h => if base11 h then (mkNc false (nc_buf s), rest, DItem h) else (s, rest, DErr NoBase11)
            end
        end
    | None => (s, src, DNone)
    end
  else
    match chunks (S (length src)) (nc_buf s) src with
    | (acc, src', o) => (mkNc (in_hello s) acc, src', o)
    end.

(* codec.rs:236-256 SshCodec::encode. is_hello: the message is
   NetConfMessage::Hello; xml_of: its serialization. *)
Variable is_hello : M -> bool.
Variable xml_of : M -> list N.
Definition nc_encode (m : M) : list N :=
  if is_hello m then xml_header ++ xml_of m ++ hello_term
  else chunk_mark ++ dec (blen (xml_of m)) ++ [10] ++ xml_of m ++ msg_term.
End Codec.
