(* IPFIX / NetFlow v9 information elements and field values:
   crates/ipfix-code-generator/src/generator.rs (the generated parsers and
   writers, GEN below), crates/flow-pkt/src/ie.rs, crates/flow-pkt/src/lib.rs,
   crates/flow-pkt/src/wire/{de,}serializer/mod.rs.
   The registries (crates/flow-pkt/registry, xml files) are parameters. *)
From Verif Require Import Base AfModel.
From Coq Require Import Floats.SpecFloat.

(* crates/flow-pkt/src/ie.rs:18-109 InformationElementDataType; octetArray is
   split because GEN is_mpls_type picks another representation for MPLS label
   stack sections, unsigned16 because tcpControlBits holds a flags struct. *)
Inductive dtype : Type :=
| TOctets | TMpls | TU8 | TU16 | TTcp | TU32 | TU64 | TI8 | TI16 | TI32 | TI64
| TF32 | TF64 | TBool | TMac | TStr | TSecs | TMillis | TMicros | TNanos
| TV4 | TV6 | TList | TU256.

(* The values held by the variants of the generated enum Field, by type:
   unsigned numbers, IP addresses (as numbers), bit patterns of floats and
   numbers of enumerations are VNum; DateTime<Utc> is VTime seconds nanoseconds
   (chrono: whole seconds since 1970, sub-second nanoseconds, 1e9 and more only
   in a leap second). *)
Inductive value : Type :=
| VBytes (b : list N) | VNum (n : N) | VInt (z : Z) | VBool (b : bool)
| VStr (b : list N) | VTime (secs : Z) (nanos : N).

(* FieldSpecifier { element_id, length }: an IE is its (pen, id). *)
Record fspec : Type := mkSpec { fs_pen : N; fs_id : N; fs_len : N }.
(* enum Field: FVal pen id v is the variant of that IE (vendor Unknown{id}
   included), FUnknown the variant Field::Unknown { pen, id, value }. *)
Inductive field : Type :=
| FVal (pen id : N) (v : value)
| FUnknown (pen id : N) (b : list N).

Inductive ferr : Type :=
| FE_Parse (e : perr)
| FE_Version (v : N) | FE_Length (l : N) | FE_SetId (i : N) | FE_SetLength (l : N)
| FE_NoTemplate (i : N) | FE_Padding (v : N) | FE_TemplateId (i : N)
| FE_ScopeCount (s t : N) | FE_UndefinedIE (i : N) | FE_SpecLength (p i l : N)
| FE_FieldLength (l : N) | FE_Timestamp | FE_Utf8 | FE_Count (c : N).
Notation lift := (pmap_err FE_Parse).

(* IE::try_from result: an IANA or vendor IE of a type, a vendor's
   IE::Unknown{id}, or IE::Unknown{pen, id}. *)
Inductive ie_class : Type := Known (t : dtype) | VendorUnknown | Foreign.

(* crates/iana/src/tcp.rs:163-230 TCPHeaderFlags: From<u16> keeps the low
   octet only; the eight booleans are kept as that octet. *)
Definition tcp_flags (v : N) : N := as_u8 v.

(* ie.rs:114-156 length_range: half open *)
Definition length_range (t : dtype) : option (N * N) :=
  match t with
  | TOctets | TMpls | TStr | TList => None
  | TU8 | TI8 | TBool => Some (1, 2)
  | TU16 | TTcp | TI16 => Some (1, 3)
  | TU32 | TI32 => Some (1, 5)
  | TU64 | TI64 => Some (1, 9)
  | TF32 | TSecs | TV4 => Some (4, 5)
  | TF64 | TMillis | TMicros | TNanos => Some (8, 9)
  | TMac => Some (6, 7)
  | TV6 => Some (16, 17)
  | TU256 => Some (1, 33)
  end.
Definition class_range (c : ie_class) : option (N * N) :=
  match c with Known t => length_range t | _ => None end.
Definition in_range (r : option (N * N)) (l : N) : bool :=
  match r with None => true | Some (a, b) => (a <=? l) && (l <? b) end.

(* GEN 1717-1719: (1e9 f64 * (fraction as f64 / u32::MAX as f64)) as u32 *)
Definition f64_of (n : N) : spec_float := binary_normalize 53 1024 (Z.of_N n) 0 false.
Definition f64_to_u32 (x : spec_float) : N :=
  match x with
  | S754_zero _ | S754_nan | S754_infinity true | S754_finite true _ _ => 0
  | S754_infinity false => 4294967295
  | S754_finite false m e =>
    N.min 4294967295 (match e with
                      | Zneg k => N.shiftr (Npos m) (Npos k)
                      | Zpos k => N.shiftl (Npos m) (Npos k)
                      | Z0 => Npos m
                      end)
  end.
Definition nanos_of_fraction (f : N) : N :=
  f64_to_u32 (SFmul 53 1024 (f64_of 1000000000) (SFdiv 53 1024 (f64_of f) (f64_of 4294967295))).
(* GEN 2306-2308: (nanos as u64 * u32::MAX as u64) / 1e9, then as u32 *)
Definition fraction_of_nanos (n : N) : N := as_u32 (n * 4294967295 / 1000000000).
(* chrono: a time of day has less than 1e9 nanoseconds, or less than 2e9 in
   the last second of a minute *)
Definition chrono_ok (secs nanos : N) : bool :=
  (nanos <? 1000000000) || ((nanos <? 2000000000) && (secs mod 60 =? 59)).

(* GEN 1601-1609, 1742-1750: length prefix of a variable length field *)
Definition read_varlen : parser ferr N :=
  do s <- lift read_u8;; if s =? 255 then lift (read_unsigned32_be 3) else ret s.
(* octets to read for a field of declared length len *)
Definition read_len (len : N) : parser ferr N := if len =? 65535 then read_varlen else ret len.
(* iter().position(|c| c == 0), then the prefix *)
Fixpoint until_nul (b : list N) : list N :=
  match b with [] => [] | x :: b' => if x =? 0 then [] else x :: until_nul b' end.

Section Registry.
(* the generated tables: IANA IEs, and for each vendor's PEN its IEs *)
Context (iana : N -> option dtype) (vendor : N -> option (N -> option dtype)).
(* chrono::Utc.timestamp_millis_opt yields a single time *)
Context (millis_ok : Z -> bool).

(* GEN 283-294, 390-431 IE::try_from((pen, code)); a vendor code has its
   enterprise bit removed already. None is Err(UndefinedIANAIE). *)
Definition classify (pen id : N) : option ie_class :=
  if pen =? 0 then match iana id with Some t => Some (Known t) | None => None end
  else match vendor pen with
       | Some tbl => match tbl id with Some t => Some (Known t) | None => Some VendorUnknown end
       | None => Some Foreign
       end.

(* lib.rs:152-160 FieldSpecifier::new and wire/deserializer/mod.rs:50-68 *)
Definition p_fspec : parser ferr fspec :=
  do code <- lift read_u16;;
  do len <- lift read_u16;;
  do pi <- (if N.land code 32768 =? 0 then ret (0, code)
            else do pen <- lift read_u32;; ret (pen, N.land code 32767));;
  match classify (fst pi) (snd pi) with
  | None => fail (FE_UndefinedIE (snd pi))
  | Some c => if in_range (class_range c) len then ret (mkSpec (fst pi) (snd pi) len)
              else fail (FE_SpecLength (fst pi) (snd pi) len)
  end.
(* wire/serializer/mod.rs:46-72 *)
Definition fspec_len (s : fspec) : N := 4 + (if fs_pen s =? 0 then 0 else 4).
Definition w_fspec (s : fspec) : list N :=
  be_enc 2 (if fs_pen s =? 0 then fs_id s else N.lor (fs_id s) 32768)
  ++ be_enc 2 (fs_len s)
  ++ (if fs_pen s =? 0 then [] else be_enc 4 (fs_pen s)).

(* GEN 1448-1791: the parser of each type; the offset, name and values put in
   the errors are left out, enumerations are kept as their number. *)
Definition p_value (t : dtype) (len : N) : parser ferr value :=
  match t with
  | TU8 => if negb (len =? 1) then fail (FE_FieldLength len)
           else do v <- lift read_u8;; ret (VNum v)
  | TU16 => if len =? 1 then (do v <- lift read_u8;; ret (VNum v))
            else if len =? 2 then (do v <- lift read_u16;; ret (VNum v))
            else fail (FE_FieldLength len)
  | TTcp => if len =? 1 then (do v <- lift read_u8;; ret (VNum (tcp_flags v)))
            else if len =? 2 then (do v <- lift read_u16;; ret (VNum (tcp_flags v)))
            else fail (FE_FieldLength len)
  | TU32 => if 4 <? len then fail (FE_FieldLength len)
            else do v <- lift (read_unsigned32_be len);; ret (VNum v)
  | TU64 => if 8 <? len then fail (FE_FieldLength len)
            else do v <- lift (read_unsigned64_be len);; ret (VNum v)
  | TU256 => if 32 <? len then fail (FE_FieldLength len)
             else do b <- lift (read_padded 32 len);; ret (VBytes b)
  | TI8 => if negb (len =? 1) then fail (FE_FieldLength len)
           else do v <- lift read_u8;; ret (VInt (to_signed 8 v))
  (* GEN 1552-1565: the one octet arm is not sign extended (it would not even
     have the type of the other arm: no IE of this type is in the registries) *)
  | TI16 => if len =? 1 then (do v <- lift read_u8;; ret (VInt (Z.of_N v)))
            else if len =? 2 then (do v <- lift read_u16;; ret (VInt (to_signed 16 v)))
            else fail (FE_FieldLength len)
  | TI32 => if 8 <? len then fail (FE_FieldLength len)
            else do v <- lift (read_signed32_be len);; ret (VInt v)
  | TI64 => if 8 <? len then fail (FE_FieldLength len)
            else do v <- lift (read_signed64_be len);; ret (VInt v)
  | TF32 => if negb (len =? 4) then fail (FE_FieldLength len)
            else do v <- lift read_u32;; ret (VNum v)
  | TF64 => if negb (len =? 8) then fail (FE_FieldLength len)
            else do v <- lift read_u64;; ret (VNum v)
  | TBool => if negb (len =? 1) then fail (FE_FieldLength len)
             else do v <- lift read_u8;; ret (VBool (negb (v =? 0)))
  | TMac => if negb (len =? 6) then fail (FE_FieldLength len)
            else do b <- lift (read_bytes 6);; ret (VBytes b)
  | TStr => do b <- (if len =? 65535 then do n <- read_varlen;; lift (read_bytes n)
                     else do b <- lift (read_bytes len);; ret (until_nul b));;
            if utf8_ok b then ret (VStr b) else fail FE_Utf8
  | TV4 => if negb (len =? 4) then fail (FE_FieldLength len)
           else do v <- lift read_u32;; ret (VNum v)
  | TV6 => if negb (len =? 16) then fail (FE_FieldLength len)
           else do v <- lift read_u128;; ret (VNum v)
  | TSecs => if negb (len =? 4) then fail (FE_FieldLength len)
             else do v <- lift read_u32;; ret (VTime (Z.of_N v) 0)
  | TMillis => if negb (len =? 8) then fail (FE_FieldLength len)
               else do v <- lift read_u64;;
                    let m := to_signed 64 v in
                    if millis_ok m then ret (VTime (m / 1000) (Z.to_N (m mod 1000) * 1000000))
                    else fail FE_Timestamp
  | TMicros | TNanos =>
               if negb (len =? 8) then fail (FE_FieldLength len)
               else do s <- lift read_u32;; do f <- lift read_u32;;
                    let n := nanos_of_fraction f in
                    if chrono_ok s n then ret (VTime (Z.of_N s) n) else fail FE_Timestamp
  | TOctets | TList => do n <- read_len len;; do b <- lift (read_bytes n);; ret (VBytes b)
  | TMpls => if negb (len =? 3) then fail (FE_FieldLength len)
             else do b <- lift (read_bytes 3);; ret (VBytes b)
  end.
(* GEN 2870-2895 (vendor Unknown), 2955-2975 (any other IE) *)
Definition p_field (pen id len : N) : parser ferr field :=
  match classify pen id with
  | Some (Known t) => do v <- p_value t len;; ret (FVal pen id v)
  | Some VendorUnknown => do n <- read_len len;; do b <- lift (read_bytes n);; ret (FVal pen id (VBytes b))
  | _ => do b <- lift (read_bytes len);; ret (FUnknown pen id b)
  end.
Definition p_fspec_field (s : fspec) : parser ferr field := p_field (fs_pen s) (fs_id s) (fs_len s).

(* Writing. WE_Type stands for a value of another type than the variant's:
   such a Field cannot be built. *)
Inductive werr : Type := WE_Length (l : N) | WE_Type.
(* GEN 2003-2010: u8 length, or 255 and the low three octets of len as u32 *)
Definition w_varlen (b : list N) : list N :=
  (if blen b <? 255 then [blen b] else 255 :: be_enc 3 (as_u32 (blen b))) ++ b.
(* GEN 2012-2018: no truncation of a longer value *)
Definition w_filled (len : N) (b : list N) : list N := b ++ repeat 0 (N.to_nat (len - blen b)).
(* GEN 2056-2064 etc.: the last len octets of the big-endian encoding *)
Definition w_reduced (w : nat) (v : N) (len : option N) : res werr (list N) :=
  match len with
  | None => Ok (be_enc w v)
  | Some l => if N.of_nat w <? l then Err (WE_Length l) else Ok (be_enc (N.to_nat l) v)
  end.
Definition w_bytes (len : option N) (b : list N) : list N :=
  match len with
  | None => b
  | Some l => if l =? 65535 then w_varlen b else w_filled l b
  end.
Definition w_text (len : option N) (b : list N) : list N :=
  match len with
  | None => w_varlen b
  | Some l => if l =? 65535 then w_varlen b else w_filled l b
  end.
(* GEN 1989-2350 (vendors), 3028-3355 (IANA): identical *)
Definition w_value (t : dtype) (v : value) (len : option N) : res werr (list N) :=
  match t, v with
  | TU8, VNum n => Ok (be_enc 1 n)
  | TU16, VNum n => w_reduced 2 n len
  | TTcp, VNum n => w_reduced 2 n len
  | TU32, VNum n => w_reduced 4 n len
  | TU64, VNum n => w_reduced 8 n len
  | TI8, VInt z => Ok (be_enc 1 (of_signed 8 z))
  | TI16, VInt z => w_reduced 2 (of_signed 16 z) len
  | TI32, VInt z => w_reduced 4 (of_signed 32 z) len
  | TI64, VInt z => w_reduced 8 (of_signed 64 z) len
  | TF32, VNum n => w_reduced 4 n len
  | TF64, VNum n => w_reduced 8 n len
  | TBool, VBool b => Ok [if b then 1 else 0]
  | TMac, VBytes b => Ok b
  | TStr, VStr b => Ok (w_text len b)
  | TSecs, VTime s _ => Ok (be_enc 4 (of_signed 32 s))
  | TMillis, VTime s n => Ok (be_enc 8 (of_signed 64 (s * 1000 + Z.of_N (n / 1000000))))
  | (TMicros | TNanos), VTime s n => Ok (be_enc 4 (of_signed 32 s) ++ be_enc 4 (fraction_of_nanos n))
  | TV4, VNum n => Ok (be_enc 4 n)
  | TV6, VNum n => Ok (be_enc 16 n)
  | TList, VBytes b => Ok b
  | (TOctets | TMpls), VBytes b => Ok (w_bytes len b)
  | TU256, VBytes b =>
      let l := match len with None => blen b | Some l => l end in
      if blen b <? l then Panic else Ok (take l b)
  | _, _ => Err WE_Type
  end.
(* GEN 2366-2392, 3528-3555 for the Unknown variants *)
Definition w_field (f : field) (len : option N) : res werr (list N) :=
  match f with
  | FUnknown _ _ b => Ok (w_text len b)
  | FVal pen id v =>
    match classify pen id with
    | Some (Known t) => w_value t v len
    | Some VendorUnknown => match v with VBytes b => Ok (w_text len b) | _ => Err WE_Type end
    | _ => Err WE_Type
    end
  end.
(* GEN 1870-1985, 3363-3495: the length announced for a value *)
Definition varlen_len (b : list N) : N := if blen b <? 255 then blen b + 1 else blen b + 4.
Definition opt_len (len : option N) (d : N) : N := match len with None => d | Some l => l end.
Definition bytes_len (len : option N) (b : list N) : N :=
  match len with None => blen b | Some l => if l =? 65535 then varlen_len b else l end.
Definition value_len (t : dtype) (v : value) (len : option N) : N :=
  match t, v with
  | (TOctets | TMpls), VBytes b => bytes_len len b
  | (TMac | TList), VBytes b => blen b
  | (TU8 | TI8 | TBool), _ => 1
  | (TU16 | TTcp | TI16), _ => opt_len len 2
  | (TU32 | TI32 | TF32), _ => opt_len len 4
  | (TU64 | TI64 | TF64), _ => opt_len len 8
  | TStr, VStr b => match len with None => varlen_len b | Some l => if l =? 65535 then varlen_len b else l end
  | (TSecs | TV4), _ => 4
  | (TMillis | TMicros | TNanos), _ => 8
  | TV6, _ => 16
  | TU256, VBytes b => opt_len len (blen b)
  | _, _ => 0
  end.
Definition field_len (f : field) (len : option N) : N :=
  match f with
  | FUnknown _ _ b => bytes_len len b
  | FVal pen id v =>
    match classify pen id with
    | Some (Known t) => value_len t v len
    | Some VendorUnknown => match v with VBytes b => bytes_len len b | _ => 0 end
    | _ => 0
    end
  end.
End Registry.
