(* BGP message framing: crates/bgp-pkt/src/codec.rs,
   wire/deserializer/mod.rs and wire/serializer/mod.rs.
   The parsers and writers of the message bodies are arguments here, so the
   framing theorems hold for whatever the bodies do; BgpModel.v supplies the
   modelled bodies. *)
From Verif Require Import Base FramingModel.

(* A parser that also threads [&mut BgpParsingContext]. *)
Definition cparser (C E A : Type) : Type := C -> reader -> C * reader * res E A.
Definition cret {C E A} (a : A) : cparser C E A := fun c r => (c, r, Ok a).
Definition cfail {C E A} (e : E) : cparser C E A := fun c r => (c, r, Err e).
Definition cbind {C E A B} (p : cparser C E A) (f : A -> cparser C E B) : cparser C E B :=
  fun c r => match p c r with
             | (c', r', Ok a) => f a c' r'
             | (c', r', Err e) => (c', r', Err e)
             | (c', r', Panic) => (c', r', Panic)
             | (c', r', Diverge) => (c', r', Diverge)
             end.
Definition clift {C E A} (p : parser E A) : cparser C E A :=
  fun c r => let (r', x) := p r in (c, r', x).
Definition cmap_err {C E F A} (g : E -> F) (p : cparser C E A) : cparser C F A :=
  fun c r => match p c r with (c', r', x) => (c', r', map_err g x) end.
Definition con_sub {C E A} (sub : reader) (p : cparser C E A) : cparser C E A :=
  fun c r => match p c sub with (c', _, x) => (c', r, x) end.

(* iana.rs:26-60 BgpMessageType *)
Inductive mtype : Type := TOpen | TUpdate | TNotification | TKeepAlive | TRouteRefresh.
Definition mtype_code (t : mtype) : N :=
  match t with
  | TOpen => 1 | TUpdate => 2 | TNotification => 3 | TKeepAlive => 4 | TRouteRefresh => 5
  end.
Definition mtype_of (v : N) : option mtype :=
  if v =? 1 then Some TOpen
  else if v =? 2 then Some TUpdate
  else if v =? 3 then Some TNotification
  else if v =? 4 then Some TKeepAlive
  else if v =? 5 then Some TRouteRefresh
  else None.

(* deserializer/mod.rs:52, 58 *)
Definition bgp_min_len : N := 19.
Definition bgp_max_len : N := 4096.

(* deserializer/mod.rs:215-262 BgpMessageParsingError, without the byte
   offsets; the four body errors are one constructor. *)
Inductive bgp_err (E : Type) : Type :=
| BE_Parse (e : perr)
| BE_NotSynchronized (header : N)
| BE_UndefinedType (code : N)
| BE_Length (length : N)
| BE_Unparsed (length unparsed : N)
| BE_Body (e : E).
Arguments BE_Parse {E} e.
Arguments BE_NotSynchronized {E} header.
Arguments BE_UndefinedType {E} code.
Arguments BE_Length {E} length.
Arguments BE_Unparsed {E} length unparsed.
Arguments BE_Body {E} e.

Definition u128_max : N := 2 ^ 128 - 1.

(* deserializer/mod.rs:284-326 parse_bgp_message_length_and_type *)
Definition parse_length_and_type {E} : parser (bgp_err E) (N * mtype * reader) :=
  do length <- pmap_err BE_Parse read_u16;;
  if length <? bgp_min_len then fail (BE_Length length)
  else
    do sub <- pmap_err (fun _ => BE_Length length) (take_slice (length - 18));;
    match pmap_err BE_Parse read_u8 sub with
    | (sub', Ok code) =>
        match mtype_of code with
        | None => fail (BE_UndefinedType code)
        | Some t =>
            match t with
            | TOpen | TKeepAlive =>
                if (bgp_min_len <=? length) && (length <=? bgp_max_len)
                then ret (length, t, sub')
                else fail (BE_Length length)
            | _ => ret (length, t, sub')
            end
        end
    | (_, Err e) => fail e
    | (_, Panic) => fun r => (r, Panic)
    | (_, Diverge) => fun r => (r, Diverge)
    end.

(* deserializer/mod.rs:328-392 BgpMessage::parse *)
Definition parse_message {C E M} (body : mtype -> cparser C E M)
  : cparser C (bgp_err E) M :=
  cbind (clift (pmap_err BE_Parse read_u128)) (fun header =>
  if negb (header =? u128_max) then cfail (BE_NotSynchronized header)
  else
    cbind (clift parse_length_and_type) (fun lts =>
    match lts with
    | (length, t, sub) =>
        fun c r =>
          match cmap_err BE_Body (body t) c sub with
          | (c', sub', Ok m) =>
              if ris_empty sub' then (c', r, Ok m)
              else (c', r, Err (BE_Unparsed length (remaining sub')))
          | (c', _, Err e) => (c', r, Err e)
          | (c', _, Panic) => (c', r, Panic)
          | (c', _, Diverge) => (c', r, Diverge)
          end
    end)).

(* codec.rs:36-40 BgpCodec; [x_...] are the operations of the parsing
   context that the codec uses. *)
Record codec (C : Type) : Type := mkCodec
  { k_sent : option bool; k_recv : option bool; k_ctx : C }.
Arguments mkCodec {C} _ _ _.
Arguments k_sent {C} _.
Arguments k_recv {C} _.
Arguments k_ctx {C} _.

Record ctx_ops (C I : Type) : Type := mkOps
  { op_set_asn4 : bool -> C -> C;          (* set_asn4 *)
    op_reset : C -> C * I }.               (* reset_parsing_errors *)
Arguments mkOps {C I} _ _.
Arguments op_set_asn4 {C I} _ _ _.
Arguments op_reset {C I} _ _.

Definition unwrap_or_false (o : option bool) : bool :=
  match o with Some b => b | None => false end.

(* codec.rs:92-131 Decoder::decode. [asn4_of m] is Some b when m is an OPEN
   whose capabilities do (b = true) or do not contain FourOctetAs. *)
Definition bgp_decode {C E M I} (ops : ctx_ops C I) (body : mtype -> cparser C E M)
  (asn4_of : M -> option bool) : decoder (codec C) (M * I) (bgp_err E) :=
  fun k buf =>
    if 19 <=? blen buf then
      let length := be_val (take 2 (drop 16 buf)) in
      if blen buf <? length then (k, buf, DNone)
      else
        let asn4 := unwrap_or_false (k_recv k) && unwrap_or_false (k_sent k) in
        let ctx := op_set_asn4 ops asn4 (k_ctx k) in
        let frame := take length buf in
        let buf' := drop length buf in
        match parse_message body ctx (rnew frame) with
        | (ctx', _, Ok m) =>
            let recv := match asn4_of m with Some b => Some b | None => k_recv k end in
            let (ctx'', ignored) := op_reset ops ctx' in
            (mkCodec (k_sent k) recv ctx'', buf', DItem (m, ignored))
        | (ctx', _, Err e) => (mkCodec (k_sent k) (k_recv k) ctx', buf', DErr e)
        | (ctx', _, Panic) => (mkCodec (k_sent k) (k_recv k) ctx', buf', DPanic)
        | (ctx', _, Diverge) => (mkCodec (k_sent k) (k_recv k) ctx', buf', DPanic)
        end
    else (k, buf, DNone).

(* serializer/mod.rs:73-118 BgpMessage::len and write. [blen_of] is the
   body's len(), [bwrite] its write(). No body octets follow a KEEPALIVE.
   Simplification: on an error the bytes already written are not returned. *)
Inductive bgp_werr (W : Type) : Type := LengthOverflow (len : N) | WBody (w : W).
Arguments LengthOverflow {W} len.
Arguments WBody {W} w.
Definition write_message {M W} (type_of : M -> mtype) (body_len : M -> N)
  (body_write : M -> res W (list N)) (m : M) : res (bgp_werr W) (list N) :=
  let len := bgp_min_len + body_len m in
  if (match type_of m with TOpen | TKeepAlive => bgp_max_len <? len | _ => false end)
  then Err (LengthOverflow len)
  else rbind (map_err WBody (body_write m)) (fun b =>
       Ok (be_enc 16 u128_max ++ be_enc 2 (as_u16 len) ++ [mtype_code (type_of m)] ++ b)).
