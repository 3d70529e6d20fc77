(* BGP path attributes: crates/bgp-pkt/src/path_attribute/path_attribute.rs and
   wire/{deserializer,serializer}/path_attribute/path_attribute.rs.
   Simplifications: the error enums are one type that keeps the attribute they
   belong to and whether they are a plain read error; offsets are dropped.
   An extended community is its 8 (or 20) octets. The values of the BGP-LS
   attribute, of BGP_PREFIX_SID and of the BGP-LS families in MP_REACH_NLRI
   and MP_UNREACH_NLRI are opaque octets (their nested errors are not
   modelled). *)
From Verif Require Import Base MapLib AfModel BgpNlriModel.

Inductive akind : Type :=
| KOrigin | KAsPath | KNextHop | KMed | KLocalPref | KAtomicAggregate | KAggregator
| KCommunities | KExtComm | KExtComm6 | KLargeComm | KOriginator | KClusterList
| KMpReach | KMpUnreach | KOtc | KAigp | KUnknown | KFlags | KBgpLs | KSid.
(* PathAttributeParsingError, deserializer 67-116. [AE_Attr k (Some e)] is the
   variant that handle_path_error recognises as a plain read error of k. *)
Inductive attr_err : Type :=
| AE_Header (e : perr)
| AE_Attr (k : akind) (e : option perr).
Definition ard {A} (k : akind) (p : parser perr A) : parser attr_err A :=
  pmap_err (fun e => AE_Attr k (Some e)) p.
Definition aother {E A} (k : akind) (p : parser E A) : parser attr_err A :=
  pmap_err (fun _ => AE_Attr k None) p.
Definition afail {A} (k : akind) : parser attr_err A := fail (AE_Attr k None).

(* one AS_PATH segment: its type (1 set, 2 sequence) and AS numbers *)
Definition segment : Type := (N * list N)%type.
Inductive nexthop : Type :=
| NhIp (a : ipaddr) (local : option (list N))
| NhLabeled (r : rd) (a : ipaddr).
Inductive mpreach : Type :=
| MrKnown (t : addr_type) (nh : nexthop) (xs : list nlri)
| MrOpaque (t : addr_type) (nh : nexthop) (v : list N)
| MrUnknown (afi safi : N) (v : list N).
Inductive mpunreach : Type :=
| MuKnown (t : addr_type) (xs : list nlri)
| MuOpaque (t : addr_type) (v : list N)
| MuUnknown (afi safi : N) (v : list N).
(* PathAttributeValue, path_attribute.rs:160-196 *)
Inductive attr_value : Type :=
| AOrigin (v : N)
| AAsPath (four : bool) (segs : list segment)
| AAs4Path (segs : list segment)
| ANextHop (ip : N)
| AMed (v : N)
| ALocalPref (v : N)
| AAtomicAggregate
| AAggregator (four : bool) (asn ip : N)
| ACommunities (cs : list N)
| AExtComm (cs : list (list N))
| AExtComm6 (cs : list (list N))
| ALargeComm (cs : list (N * N * N))
| AOriginator (ip : N)
| AClusterList (ids : list N)
| AMpReach (m : mpreach)
| AMpUnreach (m : mpunreach)
| AOtc (asn : N)
| AAigp (metric : N)
| ABgpLs (v : list N)
| APrefixSid (v : list N)
| AUnknown (code : N) (v : list N).
Record pattr : Type := mkPattr {
  pa_opt : bool; pa_trans : bool; pa_partial : bool; pa_ext : bool; pa_val : attr_value }.

(* deserializer: the length field, one octet or two *)
Definition read_len (ext : bool) : parser perr N := if ext then read_u16 else read_u8.
(* the "take_slice of the declared length" prologue *)
Definition in_slice {A} (k : akind) (ext : bool) (p : parser attr_err A) : parser attr_err A :=
  do len <- ard k (read_len ext);;
  do sub <- ard k (take_slice len);;
  on_sub sub p.
(* the "declared length must be n" prologue: the value is then read from the
   same cursor *)
Definition fixed_len {A} (k : akind) (ext : bool) (n : N) (p : parser attr_err A) : parser attr_err A :=
  do len <- ard k (read_len ext);;
  if len =? n then p else afail k.
(* n reads in a row *)
Fixpoint times {E A} (n : nat) (p : parser E A) : parser E (list A) :=
  match n with
  | O => ret []
  | S m => do x <- p;; do xs <- times m p;; ret (x :: xs)
  end.

(* 254-275 *)
Definition parse_origin (ext : bool) : parser attr_err attr_value :=
  fixed_len KOrigin ext 1
    (do v <- ard KOrigin read_u8;;
     if v <=? 2 then ret (AOrigin v) else afail KOrigin).
(* 332-389 As2PathSegment and As4PathSegment; w is the AS number width *)
Definition parse_segment (w : N) : parser attr_err segment :=
  do ty <- ard KAsPath read_u8;;
  if (1 <=? ty) && (ty <=? 2) then
    do n <- ard KAsPath read_u8;;
    if n =? 0 then afail KAsPath
    else
      do r <- get_reader;;
      if remaining r <? n * w then afail KAsPath
      else
        do asns <- times (N.to_nat n) (ard KAsPath (read_be w));;
        ret (ty, asns)
  else afail KAsPath.
Definition asn_width (four : bool) : N := if four then 4 else 2.
(* 299-329 *)
Definition parse_as_path (ext asn4 : bool) : parser attr_err attr_value :=
  in_slice KAsPath ext (do ss <- many_all (parse_segment (asn_width asn4));; ret (AAsPath asn4 ss)).
(* 391-408 *)
Definition parse_as4_path (ext : bool) : parser attr_err attr_value :=
  in_slice KAsPath ext (do ss <- many_all (parse_segment 4);; ret (AAs4Path ss)).
(* 423-441, 456-474, 489-507 *)
Definition parse_u32_attr (k : akind) (mk : N -> attr_value) (ext : bool) : parser attr_err attr_value :=
  fixed_len k ext 4 (do v <- ard k read_u32;; ret (mk v)).
(* 522-538 *)
Definition parse_atomic (ext : bool) : parser attr_err attr_value :=
  fixed_len KAtomicAggregate ext 0 (ret AAtomicAggregate).
(* 553-613 *)
Definition parse_aggregator (ext asn4 : bool) : parser attr_err attr_value :=
  fixed_len KAggregator ext (if asn4 then 8 else 6)
    (do a <- ard KAggregator (read_be (asn_width asn4));;
     do o <- ard KAggregator read_u32;; ret (AAggregator asn4 a o)).
(* 1351-1371 *)
Definition parse_communities (ext : bool) : parser attr_err attr_value :=
  in_slice KCommunities ext
    (do cs <- many_all (ard KCommunities read_u32);; ret (ACommunities cs)).
(* 1378-1431; community.rs:80-…, 323-344: the type octet and the rest of a
   fixed-size community; a short community is an error of the inner enum *)
Definition parse_ext_comm (k : akind) (n : N) : parser attr_err (list N) :=
  do t <- ard k read_u8;; do v <- aother k (read_bytes (n - 1));; ret (t :: v).
Definition parse_ext_comms (ext : bool) : parser attr_err attr_value :=
  in_slice KExtComm ext (do cs <- many_all (parse_ext_comm KExtComm 8);; ret (AExtComm cs)).
Definition parse_ext_comms6 (ext : bool) : parser attr_err attr_value :=
  in_slice KExtComm6 ext (do cs <- many_all (parse_ext_comm KExtComm6 20);; ret (AExtComm6 cs)).
(* 1433-1455; community.rs:217-225 *)
Definition parse_large_comms (ext : bool) : parser attr_err attr_value :=
  in_slice KLargeComm ext
    (do cs <- many_all
       (do a <- ard KLargeComm read_u32;; do b <- ard KLargeComm read_u32;;
        do c <- ard KLargeComm read_u32;; ret (a, b, c));;
     ret (ALargeComm cs)).
(* 1458-1473: octets after the identifier are ignored *)
Definition parse_originator (ext : bool) : parser attr_err attr_value :=
  in_slice KOriginator ext (do v <- ard KOriginator read_u32;; ret (AOriginator v)).
(* 1496-1515 *)
Definition parse_cluster_list (ext : bool) : parser attr_err attr_value :=
  in_slice KClusterList ext
    (do cs <- many_all (ard KClusterList read_u32);; ret (AClusterList cs)).
(* 1530-1565 *)
Definition parse_aigp (ext : bool) : parser attr_err attr_value :=
  in_slice KAigp ext
    (do t <- ard KAigp read_u8;;
     if t =? 1 then
       do l <- ard KAigp read_u16;;
       if l =? 11 then (do m <- ard KAigp read_u64;; ret (AAigp m)) else afail KAigp
     else afail KAigp).
(* 1569-1585 *)
Definition parse_otc (ext : bool) : parser attr_err attr_value :=
  in_slice KOtc ext (do v <- ard KOtc read_u32;; ret (AOtc v)).
Definition parse_opaque (k : akind) (mk : list N -> attr_value) (ext : bool) : parser attr_err attr_value :=
  in_slice k ext (do r <- get_reader;; do v <- ard k (read_bytes (remaining r));; ret (mk v)).
(* 1317-1340 *)
Definition parse_unknown (code : N) (ext : bool) : parser attr_err attr_value :=
  do len <- ard KUnknown (read_len ext);;
  do r <- get_reader;;
  if remaining r <? len then afail KUnknown
  else do v <- ard KUnknown (read_bytes len);; ret (AUnknown code v).

(* --- MP_REACH_NLRI and MP_UNREACH_NLRI --- *)
Inductive nh_kind : Type := NhkEither | NhkV6 | NhkLabeled | NhkPlain.
(* which next hop parser each arm uses: 751-976 *)
Definition nh_kind_of (t : addr_type) : option nh_kind :=
  match t with
  | Ipv4Unicast | Ipv4Multicast | Ipv4NlriMplsLabels | Ipv6NlriMplsLabels => Some NhkEither
  | Ipv6Unicast | Ipv6Multicast => Some NhkV6
  | Ipv4MplsLabeledVpn | Ipv6MplsLabeledVpn | BgpLsVpn => Some NhkLabeled
  | L2VpnBgpEvpn | RouteTargetConstrains | BgpLs => Some NhkPlain
  | _ => None
  end.
Definition parse_nexthop (k : nh_kind) : parser attr_err nexthop :=
  match k with
  | NhkEither => (* 1006-1038 parse_ip4_or_ipv6_next_hop *)
      do n <- ard KMpReach read_u8;;
      if n =? 4 then (do o <- ard KMpReach (read_bytes 4);; ret (NhIp (V4 o) None))
      else if n =? 16 then (do o <- ard KMpReach (read_bytes 16);; ret (NhIp (V6 o) None))
      else if n =? 32 then
        (do o <- ard KMpReach (read_bytes 16);; do l <- ard KMpReach (read_bytes 16);;
         ret (NhIp (V6 o) (Some l)))
      else afail KMpReach
  | NhkV6 => (* 817-864: the length octet is compared with 32 only *)
      do n <- ard KMpReach read_u8;;
      do o <- ard KMpReach (read_bytes 16);;
      if n =? 32 then (do l <- ard KMpReach (read_bytes 16);; ret (NhIp (V6 o) (Some l)))
      else ret (NhIp (V6 o) None)
  | NhkLabeled => (* 1040-1056 and nlri.rs:171-191, 110-158 *)
      do n <- aother KMpReach read_u8;;
      do sub <- aother KMpReach (take_slice n);;
      on_sub sub
        (if n =? 12 then
           (do r <- aother KMpReach parse_rd;; do o <- aother KMpReach (read_bytes 4);; ret (NhLabeled r (V4 o)))
         else if n =? 24 then
           (do r <- aother KMpReach parse_rd;; do o <- aother KMpReach (read_bytes 16);; ret (NhLabeled r (V6 o)))
         else afail KMpReach)
  | NhkPlain => (* 991-1004 and parse-utils common.rs:136-156 *)
      do n <- aother KMpReach read_u8;;
      if n =? 4 then (do o <- aother KMpReach (read_bytes 4);; ret (NhIp (V4 o) None))
      else if n =? 16 then (do o <- aother KMpReach (read_bytes 16);; ret (NhIp (V6 o) None))
      else afail KMpReach
  end.

Definition label_limits : Type := list (addr_type * N).
Definition add_paths : Type := list (addr_type * bool).
(* multiple_labels.get(&t).unwrap_or(1) and add_path_map.get(&t) *)
Definition limit_of (m : label_limits) (t : addr_type) : N :=
  match mget at_eqb t m with Some n => n | None => 1 end.
Definition add_path_of (m : add_paths) (t : addr_type) : bool :=
  match mget at_eqb t m with Some b => b | None => false end.

(* the AFI and SAFI octets: 735-750, 1114-1130 *)
Definition parse_af (k : akind) : parser attr_err (N * N) :=
  do afi <- ard k read_u16;;
  if afi_ok afi then
    do safi <- ard k read_u8;;
    if safi_ok safi then ret (afi, safi) else afail k
  else afail k.
Definition rest_octets (k : akind) : parser attr_err (list N) :=
  do r <- get_reader;; ard k (read_bytes (remaining r)).
(* 722-986 *)
Definition parse_mp_reach (labels : label_limits) (ap : add_paths) (ext : bool) : parser attr_err attr_value :=
  in_slice KMpReach ext
    (do af <- parse_af KMpReach;;
     match from_afi_safi (fst af) (snd af) with
     | Some t =>
         match nh_kind_of t with
         | Some k =>
             do nh <- parse_nexthop k;;
             do_ ard KMpReach read_u8;;
             if modelled_family t then
               do xs <- many_all (aother KMpReach (parse_nlri_of t (add_path_of ap t) (limit_of labels t)));;
               ret (AMpReach (MrKnown t nh xs))
             else
               do v <- rest_octets KMpReach;; ret (AMpReach (MrOpaque t nh v))
         | None => do v <- rest_octets KMpReach;; ret (AMpReach (MrUnknown (fst af) (snd af) v))
         end
     | None => do v <- rest_octets KMpReach;; ret (AMpReach (MrUnknown (fst af) (snd af) v))
     end).
(* 1102-1300 *)
Definition parse_mp_unreach (labels : label_limits) (ap : add_paths) (ext : bool) : parser attr_err attr_value :=
  in_slice KMpUnreach ext
    (do af <- parse_af KMpUnreach;;
     match from_afi_safi (fst af) (snd af) with
     | Some t =>
         match nh_kind_of t with
         | Some k =>
             if modelled_family t then
               do xs <- many_all (aother KMpUnreach (parse_nlri_of t (add_path_of ap t) (limit_of labels t)));;
               ret (AMpUnreach (MuKnown t xs))
             else
               do v <- rest_octets KMpUnreach;; ret (AMpUnreach (MuOpaque t v))
         | None => do v <- rest_octets KMpUnreach;; ret (AMpUnreach (MuUnknown (fst af) (snd af) v))
         end
     | None => do v <- rest_octets KMpUnreach;; ret (AMpUnreach (MuUnknown (fst af) (snd af) v))
     end).

(* path_attribute.rs:199-275 and the per-type implementations: the required
   value of the optional, transitive and partial flags *)
Definition flag_rule (v : attr_value) : option bool * option bool * option bool :=
  match v with
  | AOrigin _ | AAsPath _ _ | ANextHop _ | ALocalPref _ | AAtomicAggregate =>
      (Some false, Some true, Some false)
  | AAs4Path _ | AAggregator _ _ _ | ACommunities _ | AExtComm _ | AExtComm6 _ | ALargeComm _
  | APrefixSid _ => (Some true, Some true, None)
  | AMed _ | AOriginator _ | AClusterList _ | AMpReach _ | AMpUnreach _ | ABgpLs _ | AAigp _ =>
      (Some true, Some false, Some false)
  | AOtc _ => (Some true, Some true, Some false)
  | AUnknown _ _ => (None, None, None)
  end.
Definition rule_ok (r : option bool) (b : bool) : bool :=
  match r with Some x => Bool.eqb x b | None => true end.
(* path_attribute.rs:90-135 PathAttribute::from *)
Definition flags_ok (opt trans part : bool) (v : attr_value) : bool :=
  let '(ro, rt, rp) := flag_rule v in rule_ok ro opt && rule_ok rt trans && rule_ok rp part.

(* deserializer 119-235, dispatch on the type code *)
Definition parse_value (asn4 : bool) (labels : label_limits) (ap : add_paths) (code : N) (ext : bool)
  : parser attr_err attr_value :=
  match code with
  | 1 => parse_origin ext
  | 2 => parse_as_path ext asn4
  | 3 => parse_u32_attr KNextHop ANextHop ext
  | 4 => parse_u32_attr KMed AMed ext
  | 5 => parse_u32_attr KLocalPref ALocalPref ext
  | 6 => parse_atomic ext
  | 7 => parse_aggregator ext asn4
  | 8 => parse_communities ext
  | 9 => parse_originator ext
  | 10 => parse_cluster_list ext
  | 14 => parse_mp_reach labels ap ext
  | 15 => parse_mp_unreach labels ap ext
  | 16 => parse_ext_comms ext
  | 17 => parse_as4_path ext
  | 25 => parse_ext_comms6 ext
  | 26 => parse_aigp ext
  | 29 => parse_opaque KBgpLs ABgpLs ext
  | 32 => parse_large_comms ext
  | 35 => parse_otc ext
  | 40 => parse_opaque KSid APrefixSid ext
  | _ => parse_unknown code ext
  end.
Definition flag_set (mask flags : N) : bool := N.land flags mask =? mask.
Definition parse_attr (asn4 : bool) (labels : label_limits) (ap : add_paths) : parser attr_err pattr :=
  do flags <- pmap_err AE_Header read_u8;;
  do code <- pmap_err AE_Header read_u8;;
  let ext := flag_set 16 flags in
  do v <- parse_value asn4 labels ap code ext;;
  if flags_ok (flag_set 128 flags) (flag_set 64 flags) (flag_set 32 flags) v
  then ret (mkPattr (flag_set 128 flags) (flag_set 64 flags) (flag_set 32 flags) ext v)
  else afail KFlags.

(* ---- writers: serializer path_attribute.rs ---- *)
(* 198-… path_attribute_type / raw code of each value *)
Definition attr_code (v : attr_value) : N :=
  match v with
  | AOrigin _ => 1 | AAsPath _ _ => 2 | ANextHop _ => 3 | AMed _ => 4 | ALocalPref _ => 5
  | AAtomicAggregate => 6 | AAggregator _ _ _ => 7 | ACommunities _ => 8 | AOriginator _ => 9
  | AClusterList _ => 10 | AMpReach _ => 14 | AMpUnreach _ => 15 | AExtComm _ => 16
  | AAs4Path _ => 17 | AExtComm6 _ => 25 | AAigp _ => 26 | ABgpLs _ => 29 | ALargeComm _ => 32
  | AOtc _ => 35 | APrefixSid _ => 40 | AUnknown c _ => c
  end.
(* 255-292 *)
Definition enc_segment (w : nat) (s : segment) : list N :=
  fst s :: as_u8 (blen (snd s)) :: flat_map (be_enc w) (snd s).
Definition sum_len {A} (f : A -> N) (xs : list A) : N := fold_right (fun x n => f x + n) 0 xs.
Definition segment_len (w : N) (s : segment) : N := 2 + w * blen (snd s).
Definition enc_nexthop (nh : nexthop) : list N :=
  match nh with
  | NhIp a None => ip_len a :: ip_octets a
  | NhIp a (Some l) => (ip_len a + 16) :: ip_octets a ++ l
  | NhLabeled r a => (8 + ip_len a) :: enc_rd r ++ ip_octets a
  end.
(* the next hop of BGP-LS VPN is written with a zero distinguisher: 1212-1226 *)
Definition enc_nexthop_of (t : addr_type) (nh : nexthop) : list N :=
  match t, nh with
  | BgpLsVpn, NhLabeled r a => (8 + ip_len a) :: repeat 0 8 ++ ip_octets a
  | _, _ => enc_nexthop nh
  end.
Definition nexthop_len (nh : nexthop) : N :=
  match nh with
  | NhIp a None => 1 + ip_len a
  | NhIp a (Some _) => 1 + (ip_len a + 16)
  | NhLabeled r a => 1 + (8 + ip_len a)
  end.
Fixpoint write_nlris (xs : list nlri) : res nlri_werr (list N) :=
  match xs with
  | [] => Ok []
  | x :: r => rbind (write_nlri x) (fun b => rbind (write_nlris r) (fun bs => Ok (b ++ bs)))
  end.
(* the octets after the length field; 216-1476 *)
Definition enc_value (v : attr_value) : res nlri_werr (list N) :=
  match v with
  | AOrigin o => Ok [o]
  | AAsPath four ss => Ok (flat_map (enc_segment (if four then 4 else 2)) ss)
  | AAs4Path ss => Ok (flat_map (enc_segment 4) ss)
  | ANextHop i => Ok (be_enc 4 i)
  | AMed m => Ok (be_enc 4 m)
  | ALocalPref m => Ok (be_enc 4 m)
  | AAtomicAggregate => Ok []
  | AAggregator four a o => Ok (be_enc (if four then 4 else 2) a ++ be_enc 4 o)
  | ACommunities cs => Ok (flat_map (be_enc 4) cs)
  | AExtComm cs => Ok (concat cs)
  | AExtComm6 cs => Ok (concat cs)
  | ALargeComm cs => Ok (flat_map (fun c => be_enc 4 (fst (fst c)) ++ be_enc 4 (snd (fst c)) ++ be_enc 4 (snd c)) cs)
  | AOriginator i => Ok (be_enc 4 i)
  | AClusterList is => Ok (flat_map (be_enc 4) is)
  | AMpReach (MrKnown t nh xs) =>
      rbind (write_nlris xs) (fun bs => Ok (be_enc 2 (at_afi t) ++ at_safi t :: enc_nexthop_of t nh ++ 0 :: bs))
  | AMpReach (MrOpaque t nh o) => Ok (be_enc 2 (at_afi t) ++ at_safi t :: enc_nexthop_of t nh ++ 0 :: o)
  | AMpReach (MrUnknown afi safi o) => Ok (be_enc 2 afi ++ safi :: o)
  | AMpUnreach (MuKnown t xs) => rbind (write_nlris xs) (fun bs => Ok (be_enc 2 (at_afi t) ++ at_safi t :: bs))
  | AMpUnreach (MuOpaque t o) => Ok (be_enc 2 (at_afi t) ++ at_safi t :: o)
  | AMpUnreach (MuUnknown afi safi o) => Ok (be_enc 2 afi ++ safi :: o)
  | AOtc a => Ok (be_enc 4 a)
  | AAigp m => Ok (1 :: be_enc 2 11 ++ be_enc 8 m)
  | ABgpLs o | APrefixSid o | AUnknown _ o => Ok o
  end.
(* the value length each [len] method computes, without the length field:
   len(extended) = 1 + extended + value_len *)
Definition value_len (v : attr_value) : N :=
  match v with
  | AOrigin _ => 1
  | AAsPath four ss => sum_len (segment_len (asn_width four)) ss
  | AAs4Path ss => sum_len (segment_len 4) ss
  | ANextHop _ | AMed _ | ALocalPref _ | AOriginator _ | AOtc _ => 4
  | AAtomicAggregate => 0
  | AAggregator four _ _ => if four then 8 else 6
  | ACommunities cs | AClusterList cs => 4 * blen cs
  | AExtComm cs => 8 * blen cs
  | AExtComm6 cs => 20 * blen cs
  | ALargeComm cs => 12 * blen cs
  | AMpReach (MrKnown _ nh xs) => 4 + (nexthop_len nh + sum_len nlri_len xs)
  | AMpReach (MrOpaque _ nh o) => 4 + (nexthop_len nh + blen o)
  | AMpReach (MrUnknown _ _ o) => 4 + blen o
  | AMpUnreach (MuKnown _ xs) => 3 + sum_len nlri_len xs
  | AMpUnreach (MuOpaque _ o) => 3 + blen o
  | AMpUnreach (MuUnknown _ _ o) => 3 + blen o
  | AAigp _ => 11
  | ABgpLs o | APrefixSid o | AUnknown _ o => blen o
  end.
(* 1487-1506 write_length and 645-652 (UnknownAttribute, the same rule):
   the value longer than 255 without the extended flag gets two octets
   holding its length minus one *)
Definition enc_length (ext : bool) (n : N) : list N :=
  let len := n + (if ext then 1 else 0) in
  if ext || (255 <? len) then be_enc 2 (len - 1) else [as_u8 len].
Definition flags_octet (a : pattr) : N :=
  (if pa_opt a then 128 else 0) + (if pa_trans a then 64 else 0)
  + (if pa_partial a then 32 else 0) + (if pa_ext a then 16 else 0).
(* 129-210 *)
Definition write_attr (a : pattr) : res nlri_werr (list N) :=
  rbind (enc_value (pa_val a)) (fun b =>
    Ok (flags_octet a :: attr_code (pa_val a) :: enc_length (pa_ext a) (value_len (pa_val a)) ++ b)).
(* 98-127 *)
Definition attr_len (a : pattr) : N :=
  2 + (1 + (if pa_ext a then 1 else 0) + value_len (pa_val a)).
