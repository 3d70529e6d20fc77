(* BGP-LS attribute (RFC 7752, RFC 9086), BGP-LS NLRI, and PREFIX_SID
   attribute (RFC 8669, RFC 9252) of crates/bgp-pkt. Paths below are relative
   to crates/bgp-pkt/src. Error values keep their kind but not the offset they
   carry, except for the reader's own errors. Floating-point fields are kept
   as their 32-bit patterns, addresses as integers. Capacity hints
   (wire/deserializer/mod.rs:477-520 count_tlvs) have no effect on results
   and are left out. *)
From Verif Require Import Base AfModel BgpNlriModel BgpAttrModel.

(* wire/deserializer/path_attribute/bgp_ls.rs:36-57,
   wire/deserializer/nlri/bgp_ls.rs:38-89,
   wire/deserializer/path_attribute/bgp_sid.rs:34-86 *)
Inductive ls_err : Type :=
| LE_Parse (e : perr)
| LE_Type (code : N)
| LE_Utf8
| LE_IpLength (len : N)
| LE_Sid (flags : N)
| LE_Protocol (code : N)
| LE_Position (code : N)
| LE_RouteType (code : N)
| LE_Nlri (e : nlri_err).
Definition lrd {A} (p : parser perr A) : parser ls_err A := pmap_err LE_Parse p.
Definition lnl {A} (p : parser nlri_err A) : parser ls_err A := pmap_err LE_Nlri p.
(* data.read_bytes(data.remaining()) *)
Definition lrest : parser ls_err (list N) := fun r => lrd (read_bytes (remaining r)) r.

(* wire/deserializer/mod.rs:448-459 read_tlv_header_t16_l16 *)
Definition read_tlv16 : parser ls_err (N * N * reader) :=
  do t <- lrd read_u16;; do l <- lrd read_u16;; do d <- lrd (take_slice l);; ret (t, l, d).
(* wire/deserializer/mod.rs:461-473 read_tlv_header_t8_l16 *)
Definition read_tlv8 : parser ls_err (N * N * reader) :=
  do t <- lrd read_u8;; do l <- lrd read_u16;; do d <- lrd (take_slice l);; ret (t, l, d).

(* wire/serializer/path_attribute/bgp_ls.rs:44-46; the other writing errors
   are I/O errors of the output, which is a buffer here *)
Inductive lw_err : Type := LW_NodeName (len : N).
(* wire/serializer/mod.rs:177-190 write_tlv_header_t16_l16, called with
   [self.len() as u16]: the subtraction panics in a checked build *)
Definition hdr16 (code len : N) : res lw_err (list N) :=
  if as_u16 len <? 4 then Panic else Ok (be_enc 2 code ++ be_enc 2 (as_u16 len - 4)).
(* wire/serializer/mod.rs:205-218 write_tlv_header_t8_l16 *)
Definition hdr8 (code len : N) : res lw_err (list N) :=
  if as_u16 len <? 3 then Panic else Ok (code :: be_enc 2 (as_u16 len - 3)).
(* a header followed by its value *)
Definition tlv (h body : res lw_err (list N)) : res lw_err (list N) :=
  rbind h (fun a => rbind body (fun b => Ok (a ++ b))).
(* for x in xs { x.write(writer)? } *)
Fixpoint write_each {A} (w : A -> res lw_err (list N)) (xs : list A) : res lw_err (list N) :=
  match xs with
  | [] => Ok []
  | x :: r => rbind (w x) (fun a => rbind (write_each w r) (fun b => Ok (a ++ b)))
  end.

(* ------------------------------------------------------------------ *)
(* BGP-LS attribute *)

(* path_attribute/bgp_ls.rs BgpLsAttributeValue, the variants with the same
   payload grouped by kind *)
Inductive num_kind : Type :=
| LocalV4 | LocalV6 | RemoteV4 | RemoteV6 | Color | MaxBandwidth | MaxReservable | TeMetric | PrefixMetric.
Inductive raw_kind : Type := IgpMetric | OpaqueLink | OpaqueNode | IsIsArea | OpaquePrefix.
Inductive text_kind : Type := NodeName | LinkName.
Inductive sid_kind : Type := PeerNode | PeerAdj | PeerSet.
(* path_attribute/bgp_ls.rs BgpLsPeerSid *)
Inductive peer_sid : Type :=
| SidLabel (flags weight : N) (l : label)
| SidIndex (flags weight index : N).
Inductive ls_value : Type :=
| LsNum (k : num_kind) (v : N)
| LsRaw (k : raw_kind) (v : list N)
| LsText (k : text_kind) (v : list N)
| LsPeerSid (k : sid_kind) (s : peer_sid)
| LsUnreserved (v : list N)
| LsProtection (extra unprotected shared dedicated1c1 dedicated1p1 enhanced : bool)
| LsMask (ldp rsvp : bool)
| LsSrlg (v : list N)
| LsIgpFlags (isis_up_down no_unicast local_address propagate_nssa : bool)
| LsRouteTag (v : list N)
| LsExtRouteTag (v : list N)
| LsForwarding (a : ipaddr)
| LsMtid (v : list N)
| LsNodeFlags (overload attached external abr router v6 : bool)
| LsUnknown (code : N) (v : list N).

(* iana.rs:1713-1743 BgpLsAttributeType *)
Inductive ls_type : Type :=
| TNum (k : num_kind) | TRaw (k : raw_kind) | TText (k : text_kind) | TSid (k : sid_kind)
| TUnreserved | TProtection | TMask | TSrlg | TIgpFlags | TRouteTag | TExtRouteTag
| TForwarding | TMtid | TNodeFlags.
Definition ls_code (t : ls_type) : N :=
  match t with
  | TMtid => 263
  | TNodeFlags => 1024
  | TRaw OpaqueNode => 1025
  | TText NodeName => 1026
  | TRaw IsIsArea => 1027
  | TNum LocalV4 => 1028
  | TNum LocalV6 => 1029
  | TNum RemoteV4 => 1030
  | TNum RemoteV6 => 1031
  | TNum Color => 1088
  | TNum MaxBandwidth => 1089
  | TNum MaxReservable => 1090
  | TUnreserved => 1091
  | TNum TeMetric => 1092
  | TProtection => 1093
  | TMask => 1094
  | TRaw IgpMetric => 1095
  | TSrlg => 1096
  | TRaw OpaqueLink => 1097
  | TText LinkName => 1098
  | TIgpFlags => 1152
  | TRouteTag => 1153
  | TExtRouteTag => 1154
  | TNum PrefixMetric => 1155
  | TForwarding => 1156
  | TRaw OpaquePrefix => 1157
  | TSid PeerNode => 1101
  | TSid PeerAdj => 1102
  | TSid PeerSet => 1103
  end.
Definition ls_types : list ls_type :=
  [ TMtid; TNodeFlags; TRaw OpaqueNode; TText NodeName; TRaw IsIsArea; TNum LocalV4; TNum LocalV6;
    TNum RemoteV4; TNum RemoteV6; TNum Color; TNum MaxBandwidth; TNum MaxReservable; TUnreserved;
    TNum TeMetric; TProtection; TMask; TRaw IgpMetric; TSrlg; TRaw OpaqueLink; TText LinkName;
    TIgpFlags; TRouteTag; TExtRouteTag; TNum PrefixMetric; TForwarding; TRaw OpaquePrefix;
    TSid PeerNode; TSid PeerAdj; TSid PeerSet ].
(* iana.rs:1772-1787 from_repr *)
Definition ls_type_of (code : N) : option ls_type := find (fun t => ls_code t =? code) ls_types.

(* width of the fixed-size integer and float payloads *)
Definition num_width (k : num_kind) : nat :=
  match k with LocalV6 | RemoteV6 => 16%nat | _ => 4%nat end.

(* nlri/bgp_ls.rs From<u16> for MultiTopologyId, and
   wire/deserializer/nlri/bgp_ls.rs:459-470 *)
Definition mtid_mask : N := 4095.
Definition parse_mtids : parser ls_err (list N) :=
  many_all (do v <- lrd read_u16;; ret (N.land v mtid_mask)).

(* path_attribute/bgp_ls.rs flags_have_v_flag *)
Definition v_flag (flags : N) : bool := flag_set 128 flags.
(* wire/deserializer/path_attribute/bgp_ls.rs:305-335 *)
Definition parse_peer_sid (len : N) : parser ls_err peer_sid :=
  do flags <- lrd read_u8;;
  do weight <- lrd read_u8;;
  do_ lrd read_u16;;
  if (len =? 7) && v_flag flags then (do l <- lrd (read_bytes 3);; ret (SidLabel flags weight l))
  else if (len =? 8) && negb (v_flag flags) then (do i <- lrd read_u32;; ret (SidIndex flags weight i))
  else fail (LE_Sid flags).

(* wire/deserializer/path_attribute/bgp_ls.rs:239-254. The loop tests the
   TLV's own slice but reads from the reader behind it, so the slice never
   shrinks. *)
Fixpoint tag_loop (fuel : nat) (w : N) (data : reader) : parser ls_err (list N) :=
  fun r =>
    if ris_empty data then (r, Ok [])
    else match fuel with
         | O => (r, Diverge)
         | S f => (do v <- lrd (read_be w);; do vs <- tag_loop f w data;; ret (v :: vs)) r
         end.
Definition parse_tags (w : N) (data : reader) : parser ls_err (list N) :=
  fun r => tag_loop (S (length (rbuf r))) w data r.

(* wire/deserializer/path_attribute/bgp_ls.rs:99-292 *)
Definition parse_ls_body (t : ls_type) (len : N) (data : reader) : parser ls_err ls_value :=
  match t with
  | TMtid => on_sub data (do ids <- parse_mtids;; ret (LsMtid ids))
  | TNodeFlags =>
      on_sub data (do f <- lrd read_u8;;
        ret (LsNodeFlags (flag_set 128 f) (flag_set 64 f) (flag_set 32 f) (flag_set 16 f)
               (flag_set 8 f) (flag_set 4 f)))
  | TRaw k => on_sub data (do v <- lrest;; ret (LsRaw k v))
  | TText k =>
      on_sub data (do v <- lrd (read_bytes len);; if utf8_ok v then ret (LsText k v) else fail LE_Utf8)
  | TNum k => on_sub data (do v <- lrd (read_be (N.of_nat (num_width k)));; ret (LsNum k v))
  | TUnreserved => on_sub data (do vs <- times 8 (lrd read_u32);; ret (LsUnreserved vs))
  | TProtection =>
      on_sub data (do f <- lrd read_u16;;
        ret (LsProtection (flag_set 1 f) (flag_set 2 f) (flag_set 4 f) (flag_set 8 f)
               (flag_set 16 f) (flag_set 32 f)))
  | TMask => on_sub data (do f <- lrd read_u8;; ret (LsMask (flag_set 128 f) (flag_set 64 f)))
  | TSrlg => on_sub data (do vs <- many_all (lrd read_u32);; ret (LsSrlg vs))
  | TIgpFlags =>
      on_sub data (do f <- lrd read_u8;;
        ret (LsIgpFlags (flag_set 128 f) (flag_set 64 f) (flag_set 32 f) (flag_set 16 f)))
  | TRouteTag => do vs <- parse_tags 4 data;; ret (LsRouteTag vs)
  | TExtRouteTag => do vs <- parse_tags 8 data;; ret (LsExtRouteTag vs)
  | TForwarding =>
      on_sub data
        (if len =? 4 then (do o <- lrd (read_bytes 4);; ret (LsForwarding (V4 o)))
         else if len =? 16 then (do o <- lrd (read_bytes 16);; ret (LsForwarding (V6 o)))
         else fail (LE_IpLength len))
  | TSid k => on_sub data (do s <- parse_peer_sid len;; ret (LsPeerSid k s))
  end.
(* wire/deserializer/path_attribute/bgp_ls.rs:79-97 *)
Definition parse_ls_value : parser ls_err ls_value :=
  do h <- read_tlv16;;
  let '(code, len, data) := h in
  match ls_type_of code with
  | Some t => parse_ls_body t len data
  | None => if code <=? 255 then fail (LE_Type code)
            else on_sub data (do v <- lrest;; ret (LsUnknown code v))
  end.
(* wire/deserializer/path_attribute/bgp_ls.rs:59-77 *)
Definition parse_ls_attr (ext : bool) : parser ls_err (list ls_value) :=
  do n <- lrd (read_len ext);; do buf <- lrd (take_slice n);; on_sub buf (many_all parse_ls_value).

(* path_attribute/bgp_ls.rs code, raw_code *)
Definition ls_raw_code (v : ls_value) : N :=
  match v with
  | LsNum k _ => ls_code (TNum k)
  | LsRaw k _ => ls_code (TRaw k)
  | LsText k _ => ls_code (TText k)
  | LsPeerSid k _ => ls_code (TSid k)
  | LsUnreserved _ => ls_code TUnreserved
  | LsProtection _ _ _ _ _ _ => ls_code TProtection
  | LsMask _ _ => ls_code TMask
  | LsSrlg _ => ls_code TSrlg
  | LsIgpFlags _ _ _ _ => ls_code TIgpFlags
  | LsRouteTag _ => ls_code TRouteTag
  | LsExtRouteTag _ => ls_code TExtRouteTag
  | LsForwarding _ => ls_code TForwarding
  | LsMtid _ => ls_code TMtid
  | LsNodeFlags _ _ _ _ _ _ => ls_code TNodeFlags
  | LsUnknown c _ => c
  end.
(* wire/serializer/path_attribute/bgp_ls.rs:311-317 *)
Definition peer_sid_len (s : peer_sid) : N := 4 + match s with SidLabel _ _ _ => 3 | SidIndex _ _ _ => 4 end.
(* wire/serializer/path_attribute/bgp_ls.rs:78-112 *)
Definition ls_len (v : ls_value) : N :=
  4 + match v with
      | LsNum k _ => N.of_nat (num_width k)
      | LsRaw _ b | LsText _ b | LsUnknown _ b => blen b
      | LsPeerSid _ s => peer_sid_len s
      | LsUnreserved _ => 4 * 8
      | LsProtection _ _ _ _ _ _ => 2
      | LsMask _ _ | LsIgpFlags _ _ _ _ | LsNodeFlags _ _ _ _ _ _ => 1
      | LsSrlg vs | LsRouteTag vs => 4 * blen vs
      | LsExtRouteTag vs => 8 * blen vs
      | LsForwarding a => ip_len a
      | LsMtid vs => 2 * blen vs
      end.
(* if *x { flags |= mask }, in order *)
Definition or_flags (fs : list (bool * N)) : N :=
  fold_left (fun (a : N) (f : bool * N) => if fst f then N.lor a (snd f) else a) fs 0.
(* wire/serializer/path_attribute/bgp_ls.rs:319-332 *)
Definition enc_peer_sid (s : peer_sid) : list N :=
  match s with
  | SidLabel f w l => f :: w :: be_enc 2 0 ++ l
  | SidIndex f w i => f :: w :: be_enc 2 0 ++ be_enc 4 i
  end.
(* wire/serializer/path_attribute/bgp_ls.rs:117-292. LinkProtectionType
   writes one octet although its length counts two; OspfForwardingAddress
   writes the address through wire/serializer/mod.rs:132-156, which puts a
   length octet in front that its own length does not count. *)
Definition ls_body (v : ls_value) : res lw_err (list N) :=
  match v with
  | LsNum k n => Ok (be_enc (num_width k) n)
  | LsRaw _ b | LsUnknown _ b => Ok b
  | LsText LinkName b => Ok b
  | LsText NodeName b => if 255 <? blen b then Err (LW_NodeName (blen b)) else Ok b
  | LsPeerSid _ s => Ok (enc_peer_sid s)
  | LsUnreserved vs | LsSrlg vs | LsRouteTag vs => Ok (flat_map (be_enc 4) vs)
  | LsExtRouteTag vs => Ok (flat_map (be_enc 8) vs)
  | LsProtection e u s c p h =>
      Ok [or_flags [(e, 1); (u, 2); (s, 4); (c, 8); (p, 16); (h, 32)]]
  | LsMask l r => Ok [or_flags [(l, 128); (r, 64)]]
  | LsIgpFlags a b c d => Ok [or_flags [(a, 128); (b, 64); (c, 32); (d, 16)]]
  | LsNodeFlags a b c d e f => Ok [or_flags [(a, 128); (b, 64); (c, 32); (d, 16); (e, 8); (f, 4)]]
  | LsForwarding a => Ok (ip_len a :: ip_octets a)
  | LsMtid vs => Ok (flat_map (be_enc 2) vs)
  end.
Definition write_ls_value (v : ls_value) : res lw_err (list N) :=
  tlv (hdr16 (ls_raw_code v) (ls_len v)) (ls_body v).
(* wire/serializer/path_attribute/bgp_ls.rs:50-73 *)
Definition write_ls_attr (ext : bool) (vs : list ls_value) : res lw_err (list N) :=
  rbind (write_each write_ls_value vs) (fun b => Ok (enc_length ext (sum_len ls_len vs) ++ b)).

(* ------------------------------------------------------------------ *)
(* PREFIX_SID attribute *)

(* path_attribute/bgp_sid.rs *)
Inductive subsub : Type :=
| SsStructure (block node func arg tlen toff : N)
| SsUnknown (code : N) (v : list N).
Inductive subtlv : Type :=
| SubInfo (reserved1 sid flags behaviour reserved2 : N) (ss : list subsub)
| SubUnknown (code : N) (v : list N).
Inductive sid_tlv : Type :=
| SidLabelIndex (flags index : N)
| SidOriginator (flags : N) (srgbs : list (label * list N))
| SidL3 (reserved : N) (subs : list subtlv)
| SidL2 (reserved : N) (subs : list subtlv)
| SidUnknown (code : N) (v : list N).

(* wire/deserializer/path_attribute/bgp_sid.rs:227-275; iana.rs:2014-2030 *)
Definition parse_subsub : parser ls_err subsub :=
  do h <- read_tlv8;;
  let '(code, _, data) := h in
  if code =? 1 then
    on_sub data (do a <- lrd read_u8;; do b <- lrd read_u8;; do c <- lrd read_u8;;
                 do d <- lrd read_u8;; do e <- lrd read_u8;; do f <- lrd read_u8;;
                 ret (SsStructure a b c d e f))
  else if (code =? 0) || (code =? 255) then fail (LE_Type code)
  else on_sub data (do v <- lrest;; ret (SsUnknown code v)).
(* wire/deserializer/path_attribute/bgp_sid.rs:175-225; iana.rs:1979-1995 *)
Definition parse_subtlv : parser ls_err subtlv :=
  do h <- read_tlv8;;
  let '(code, _, data) := h in
  if code =? 1 then
    on_sub data (do r1 <- lrd read_u8;; do sid <- lrd read_u128;; do f <- lrd read_u8;;
                 do bh <- lrd read_u16;; do r2 <- lrd read_u8;; do ss <- many_all parse_subsub;;
                 ret (SubInfo r1 sid f bh r2 ss))
  else if (code =? 0) || (code =? 255) then fail (LE_Type code)
  else on_sub data (do v <- lrest;; ret (SubUnknown code v)).
(* wire/deserializer/path_attribute/bgp_sid.rs:285-293 *)
Definition parse_srgb : parser ls_err (label * list N) :=
  do l <- lrd (read_bytes 3);; do s <- lrd (read_bytes 3);; ret (l, s).
(* wire/deserializer/path_attribute/bgp_sid.rs:106-173; iana.rs:1941-1960 *)
Definition parse_sid_tlv : parser ls_err sid_tlv :=
  do h <- read_tlv8;;
  let '(code, _, data) := h in
  if code =? 1 then
    on_sub data (do_ lrd read_u8;; do f <- lrd read_u16;; do i <- lrd read_u32;; ret (SidLabelIndex f i))
  else if code =? 3 then
    on_sub data (do f <- lrd read_u16;; do bs <- many_all parse_srgb;; ret (SidOriginator f bs))
  else if code =? 5 then
    on_sub data (do r1 <- lrd read_u8;; do ss <- many_all parse_subtlv;; ret (SidL3 r1 ss))
  else if code =? 6 then
    on_sub data (do r1 <- lrd read_u8;; do ss <- many_all parse_subtlv;; ret (SidL2 r1 ss))
  else if (code =? 0) || (code =? 255) || (code =? 2) then fail (LE_Type code)
  else on_sub data (do v <- lrest;; ret (SidUnknown code v)).
(* wire/deserializer/path_attribute/bgp_sid.rs:88-104 *)
Definition parse_prefix_sid (ext : bool) : parser ls_err (list sid_tlv) :=
  do n <- lrd (read_len ext);; do buf <- lrd (take_slice n);; on_sub buf (many_all parse_sid_tlv).

(* wire/serializer/path_attribute/bgp_sid.rs:206-212, 150-165, 64-75 *)
Definition subsub_len (s : subsub) : N :=
  3 + match s with SsStructure _ _ _ _ _ _ => 6 | SsUnknown _ v => blen v end.
Definition subtlv_len (s : subtlv) : N :=
  3 + match s with
      | SubInfo _ _ _ _ _ ss => 1 + 16 + 1 + 2 + 1 + sum_len subsub_len ss
      | SubUnknown _ v => blen v
      end.
Definition sid_tlv_len (s : sid_tlv) : N :=
  3 + match s with
      | SidLabelIndex _ _ => 7
      | SidOriginator _ bs => 2 + 6 * blen bs
      | SidL3 _ ss | SidL2 _ ss => 1 + sum_len subtlv_len ss
      | SidUnknown _ v => blen v
      end.
(* wire/serializer/path_attribute/bgp_sid.rs:214-239 *)
Definition write_subsub (s : subsub) : res lw_err (list N) :=
  match s with
  | SsStructure a b c d e f => tlv (hdr8 1 (subsub_len s)) (Ok [a; b; c; d; e; f])
  | SsUnknown code v => tlv (hdr8 code (subsub_len s)) (Ok v)
  end.
(* wire/serializer/path_attribute/bgp_sid.rs:167-194 *)
Definition write_subtlv (s : subtlv) : res lw_err (list N) :=
  match s with
  | SubInfo r1 sid f bh r2 ss =>
      tlv (hdr8 1 (subtlv_len s))
        (rbind (write_each write_subsub ss) (fun b =>
           Ok (r1 :: be_enc 16 sid ++ f :: be_enc 2 bh ++ r2 :: b)))
  | SubUnknown code v => tlv (hdr8 code (subtlv_len s)) (Ok v)
  end.
(* wire/serializer/path_attribute/bgp_sid.rs:77-108, 129-134 *)
Definition write_sid_tlv (s : sid_tlv) : res lw_err (list N) :=
  match s with
  | SidLabelIndex f i => tlv (hdr8 1 (sid_tlv_len s)) (Ok (0 :: be_enc 2 f ++ be_enc 4 i))
  | SidOriginator f bs =>
      tlv (hdr8 3 (sid_tlv_len s)) (Ok (be_enc 2 f ++ flat_map (fun b => fst b ++ snd b) bs))
  | SidL3 r1 ss => tlv (hdr8 5 (sid_tlv_len s)) (rbind (write_each write_subtlv ss) (fun b => Ok (r1 :: b)))
  | SidL2 r1 ss => tlv (hdr8 6 (sid_tlv_len s)) (rbind (write_each write_subtlv ss) (fun b => Ok (r1 :: b)))
  | SidUnknown code v => tlv (hdr8 code (sid_tlv_len s)) (Ok v)
  end.
(* wire/serializer/path_attribute/bgp_sid.rs:23-47 *)
Definition write_prefix_sid (ext : bool) (ts : list sid_tlv) : res lw_err (list N) :=
  rbind (write_each write_sid_tlv ts) (fun b => Ok (enc_length ext (sum_len sid_tlv_len ts) ++ b)).

(* ------------------------------------------------------------------ *)
(* BGP-LS NLRI *)

(* nlri/bgp_ls.rs BgpLsNodeDescriptorSubTlv; iana.rs:1541-1549 *)
Inductive node_num : Type := NodeAs | NodeLsId | NodeArea | NodeBgpId | NodeMember.
Inductive node_sub : Type :=
| NsNum (k : node_num) (v : N)
| NsRouterId (v : list N)
| NsUnknown (code : N) (v : list N).
Definition node_num_code (k : node_num) : N :=
  match k with NodeAs => 512 | NodeLsId => 513 | NodeArea => 514 | NodeBgpId => 516 | NodeMember => 517 end.
Definition node_num_of (code : N) : option node_num :=
  find (fun k => node_num_code k =? code) [NodeAs; NodeLsId; NodeArea; NodeBgpId; NodeMember].
(* wire/deserializer/nlri/bgp_ls.rs:330-380 *)
Definition parse_node_sub : parser ls_err node_sub :=
  do h <- read_tlv16;;
  let '(code, _, data) := h in
  match node_num_of code with
  | Some k => on_sub data (do v <- lrd read_u32;; ret (NsNum k v))
  | None =>
      if code =? 515 then on_sub data (do v <- lrest;; ret (NsRouterId v))
      else if code <=? 255 then fail (LE_Type code)
      else on_sub data (do v <- lrest;; ret (NsUnknown code v))
  end.
(* wire/deserializer/nlri/bgp_ls.rs:277-328; want is 256 (local) or 257
   (remote), iana.rs:1498-1501 *)
Definition parse_descriptors (want : N) : parser ls_err (list node_sub) :=
  do code <- lrd (peek_be 2);;
  if negb ((code =? 256) || (code =? 257)) then fail (LE_Type code)
  else if negb (code =? want) then fail (LE_Position code)
  else (do_ lrd read_u16;; do n <- lrd read_u16;; do data <- lrd (take_slice n);;
        on_sub data (many_all parse_node_sub)).

(* nlri/bgp_ls.rs BgpLsLinkDescriptor *)
Inductive link_desc : Type :=
| LdIds (loc remote : N)
| LdV4Interface (a : N) | LdV4Neighbor (a : N)
| LdV6Interface (a : N) | LdV6Neighbor (a : N)
| LdMtid (v : list N)
| LdUnknown (code : N) (v : list N).
(* wire/deserializer/nlri/bgp_ls.rs:201-253; iana.rs:1626-1633 *)
Definition parse_link_desc : parser ls_err link_desc :=
  do h <- read_tlv16;;
  let '(code, _, data) := h in
  if code =? 258 then on_sub data (do a <- lrd read_u32;; do b <- lrd read_u32;; ret (LdIds a b))
  else if code =? 259 then on_sub data (do a <- lrd read_u32;; ret (LdV4Interface a))
  else if code =? 260 then on_sub data (do a <- lrd read_u32;; ret (LdV4Neighbor a))
  else if code =? 261 then on_sub data (do a <- lrd read_u128;; ret (LdV6Interface a))
  else if code =? 262 then on_sub data (do a <- lrd read_u128;; ret (LdV6Neighbor a))
  else if code =? 263 then on_sub data (do v <- parse_mtids;; ret (LdMtid v))
  else if code <=? 255 then fail (LE_Type code)
  else on_sub data (do v <- lrest;; ret (LdUnknown code v)).

(* nlri/bgp_ls.rs BgpLsPrefixDescriptor; the reachability address is an IpNet
   of either family *)
Inductive prefix_desc : Type :=
| PdMtid (v : list N)
| PdRouteType (t : N)
| PdReach (v6 : bool) (n : net)
| PdUnknown (code : N) (v : list N).
(* wire/deserializer/nlri/bgp_ls.rs:497-521 *)
Definition parse_reach (v6 : bool) : parser ls_err prefix_desc :=
  do n <- lnl (parse_net (if v6 then 16 else 4));; ret (PdReach v6 n).
(* wire/deserializer/nlri/bgp_ls.rs:409-451, 481-495; iana.rs:1585-1589 *)
Definition parse_prefix_desc (v6 : bool) : parser ls_err prefix_desc :=
  do h <- read_tlv16;;
  let '(code, _, data) := h in
  if code =? 263 then on_sub data (do v <- parse_mtids;; ret (PdMtid v))
  else if code =? 264 then
    on_sub data (do t <- lrd peek_u8;;
                 if (1 <=? t) && (t <=? 6) then (do_ lrd read_u8;; ret (PdRouteType t))
                 else fail (LE_RouteType t))
  else if code =? 265 then on_sub data (parse_reach v6)
  else if code <=? 255 then fail (LE_Type code)
  else on_sub data (do v <- lrest;; ret (PdUnknown code v)).

(* nlri/bgp_ls.rs BgpLsNlriValue; protocol identifiers are 1 to 9,
   iana.rs:1452-1462 *)
Inductive ls_nlri : Type :=
| LnNode (proto id : N) (loc : list node_sub)
| LnLink (proto id : N) (loc rem : list node_sub) (links : list link_desc)
| LnPrefix (v6 : bool) (proto id : N) (loc : list node_sub) (pds : list prefix_desc)
| LnUnknown (code : N) (v : list N).
Definition known_protocol (c : N) : bool := (1 <=? c) && (c <=? 9).
Definition parse_protocol : parser ls_err N :=
  do c <- lrd peek_u8;;
  if known_protocol c then (do_ lrd read_u8;; ret c) else fail (LE_Protocol c).
(* wire/deserializer/nlri/bgp_ls.rs:137-168, 170-199, 255-275, 382-407 *)
Definition parse_ls_nlri_value (code : N) : parser ls_err ls_nlri :=
  if code =? 1 then
    (do p <- parse_protocol;; do i <- lrd read_u64;; do l <- parse_descriptors 256;; ret (LnNode p i l))
  else if code =? 2 then
    (do p <- parse_protocol;; do i <- lrd read_u64;; do l <- parse_descriptors 256;;
     do m <- parse_descriptors 257;; do ds <- many_all parse_link_desc;; ret (LnLink p i l m ds))
  else if (code =? 3) || (code =? 4) then
    (do p <- lrd read_u8;;
     if known_protocol p then
       (do i <- lrd read_u64;; do l <- parse_descriptors 256;;
        do ds <- many_all (parse_prefix_desc (code =? 4));; ret (LnPrefix (code =? 4) p i l ds))
     else fail (LE_Protocol p))
  else (do v <- lrest;; ret (LnUnknown code v)).
(* wire/deserializer/nlri/bgp_ls.rs:91-111 BgpLsNlri; NLRI types 1 to 6,
   iana.rs:1412-1419 *)
Definition known_nlri_type (c : N) : bool := (1 <=? c) && (c <=? 6).
Definition parse_ls_path_id (add_path : bool) : parser ls_err (option N) :=
  if add_path then (do v <- lrd read_u32;; ret (Some v)) else ret None.
Definition parse_ls_nlri (add_path : bool) : parser ls_err (option N * ls_nlri) :=
  do pid <- parse_ls_path_id add_path;;
  do code <- lrd read_u16;;
  if known_nlri_type code then
    (do n <- lrd read_u16;; do data <- lrd (take_slice n);;
     on_sub data (do x <- parse_ls_nlri_value code;; ret (pid, x)))
  else fail (LE_Type code).
(* wire/deserializer/nlri/bgp_ls.rs:113-135 BgpLsVpnNlri *)
Definition parse_ls_vpn_nlri (add_path : bool) : parser ls_err (option N * rd * ls_nlri) :=
  do pid <- parse_ls_path_id add_path;;
  do code <- lrd read_u16;;
  if known_nlri_type code then
    (do n <- lrd read_u16;; do data <- lrd (take_slice n);;
     on_sub data (do d <- lnl parse_rd;; do x <- parse_ls_nlri_value code;; ret (pid, d, x)))
  else fail (LE_Type code).

(* wire/serializer/nlri/bgp_ls.rs:309-320 *)
Definition node_sub_code (s : node_sub) : N :=
  match s with NsNum k _ => node_num_code k | NsRouterId _ => 515 | NsUnknown c _ => c end.
Definition node_sub_len (s : node_sub) : N :=
  4 + match s with NsNum _ _ => 4 | NsRouterId v | NsUnknown _ v => blen v end.
(* wire/serializer/nlri/bgp_ls.rs:322-346 *)
Definition write_node_sub (s : node_sub) : res lw_err (list N) :=
  tlv (hdr16 (node_sub_code s) (node_sub_len s))
    (Ok match s with NsNum _ v => be_enc 4 v | NsRouterId v | NsUnknown _ v => v end).
(* wire/serializer/nlri/bgp_ls.rs:240-261 *)
Definition descriptors_len (ss : list node_sub) : N := 4 + sum_len node_sub_len ss.
Definition write_descriptors (code : N) (ss : list node_sub) : res lw_err (list N) :=
  tlv (hdr16 code (descriptors_len ss)) (write_each write_node_sub ss).
(* wire/serializer/nlri/bgp_ls.rs:263-304 *)
Definition link_desc_code (d : link_desc) : N :=
  match d with
  | LdIds _ _ => 258 | LdV4Interface _ => 259 | LdV4Neighbor _ => 260 | LdV6Interface _ => 261
  | LdV6Neighbor _ => 262 | LdMtid _ => 263 | LdUnknown c _ => c
  end.
Definition link_desc_len (d : link_desc) : N :=
  4 + match d with
      | LdIds _ _ => 8 | LdV4Interface _ | LdV4Neighbor _ => 4 | LdV6Interface _ | LdV6Neighbor _ => 16
      | LdMtid v => 2 * blen v | LdUnknown _ v => blen v
      end.
Definition write_link_desc (d : link_desc) : res lw_err (list N) :=
  tlv (hdr16 (link_desc_code d) (link_desc_len d))
    (Ok match d with
        | LdIds a b => be_enc 4 a ++ be_enc 4 b
        | LdV4Interface a | LdV4Neighbor a => be_enc 4 a
        | LdV6Interface a | LdV6Neighbor a => be_enc 16 a
        | LdMtid v => flat_map (be_enc 2) v
        | LdUnknown _ v => v
        end).
(* nlri/bgp_ls.rs IpReachabilityInformationData::most_significant_bytes *)
Definition most_significant_bytes (plen : N) : N := if plen =? 0 then 0 else 1 + (plen - 1) / 8.
(* wire/serializer/nlri/bgp_ls.rs:138-193 *)
Definition prefix_desc_code (d : prefix_desc) : N :=
  match d with PdMtid _ => 263 | PdRouteType _ => 264 | PdReach _ _ => 265 | PdUnknown c _ => c end.
Definition prefix_desc_len (d : prefix_desc) : N :=
  4 + match d with
      | PdMtid v => 2 * blen v | PdRouteType _ => 1
      | PdReach _ n => 1 + most_significant_bytes (snd n) | PdUnknown _ v => blen v
      end.
Definition write_prefix_desc (d : prefix_desc) : res lw_err (list N) :=
  tlv (hdr16 (prefix_desc_code d) (prefix_desc_len d))
    (Ok match d with
        | PdMtid v => flat_map (be_enc 2) v
        | PdRouteType t => [t]
        | PdReach _ n => snd n :: take (most_significant_bytes (snd n)) (network n)
        | PdUnknown _ v => v
        end).
(* wire/serializer/nlri/bgp_ls.rs:87-136, 195-210, 349-376 *)
Definition ls_nlri_code (x : ls_nlri) : N :=
  match x with
  | LnNode _ _ _ => 1 | LnLink _ _ _ _ _ => 2 | LnPrefix false _ _ _ _ => 3 | LnPrefix true _ _ _ _ => 4
  | LnUnknown c _ => c
  end.
Definition ls_nlri_len (x : ls_nlri) : N :=
  match x with
  | LnNode _ _ l => 9 + descriptors_len l
  | LnLink _ _ l m ds => 9 + descriptors_len l + descriptors_len m + sum_len link_desc_len ds
  | LnPrefix _ _ _ l ds => 9 + descriptors_len l + sum_len prefix_desc_len ds
  | LnUnknown _ v => blen v
  end.
Definition write_ls_nlri_value (x : ls_nlri) : res lw_err (list N) :=
  match x with
  | LnNode p i l => rbind (write_descriptors 256 l) (fun a => Ok (p :: be_enc 8 i ++ a))
  | LnLink p i l m ds =>
      rbind (write_descriptors 256 l) (fun a => rbind (write_descriptors 257 m) (fun b =>
        rbind (write_each write_link_desc ds) (fun c => Ok (p :: be_enc 8 i ++ a ++ b ++ c))))
  | LnPrefix _ p i l ds =>
      rbind (write_descriptors 256 l) (fun a =>
        rbind (write_each write_prefix_desc ds) (fun c => Ok (p :: be_enc 8 i ++ a ++ c)))
  | LnUnknown _ v => Ok v
  end.
(* wire/serializer/nlri/bgp_ls.rs:41-62 and 64-85: the length is cast to u16
   before the path identifier's four octets are taken off *)
Definition nlri_hdr (pid : option N) (code len : N) : res lw_err (list N) :=
  if as_u16 len <? path_id_len pid then Panic else hdr16 code (as_u16 len - path_id_len pid).
Definition write_ls_nlri (x : option N * ls_nlri) : res lw_err (list N) :=
  let '(pid, v) := x in
  rbind (tlv (nlri_hdr pid (ls_nlri_code v) (4 + path_id_len pid + ls_nlri_len v)) (write_ls_nlri_value v))
    (fun b => Ok (enc_path_id pid ++ b)).
Definition write_ls_vpn_nlri (x : option N * rd * ls_nlri) : res lw_err (list N) :=
  let '(pid, d, v) := x in
  rbind (tlv (nlri_hdr pid (ls_nlri_code v) (12 + path_id_len pid + ls_nlri_len v))
           (rbind (write_ls_nlri_value v) (fun b => Ok (enc_rd d ++ b))))
    (fun b => Ok (enc_path_id pid ++ b)).
