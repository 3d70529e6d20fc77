(* Communities: crates/bgp-pkt/src/community.rs and
   wire/{deserializer,serializer}/community.rs; numbers from iana.rs.
   Simplifications: variants of one enum that have the same fields share a
   constructor with their name as an argument; the nested error enums are their
   read error; IP addresses are their number. *)
From Verif Require Import Base NcModel.
From Coq Require Import String Ascii.

(* ---- names: iana.rs sub-type enums ---- *)
(* iana.rs:962-991 TransitiveTwoOctetExtendedCommunitySubType *)
Inductive two_name := T2RouteTarget | T2RouteOrigin | T2OspfDomain | T2DataCollection | T2SourceAs | T2L2Vpn
| T2CiscoVpn | T2RtRecord | T2RtDerived | T2Vni.
Definition two_of (n : N) : option two_name :=
  match n with
  | 0x02 => Some T2RouteTarget | 0x03 => Some T2RouteOrigin | 0x05 => Some T2OspfDomain | 0x08 => Some T2DataCollection
  | 0x09 => Some T2SourceAs | 0x0a => Some T2L2Vpn | 0x10 => Some T2CiscoVpn | 0x13 => Some T2RtRecord
  | 0x15 => Some T2RtDerived | 0x80 => Some T2Vni | _ => None
  end.
(* iana.rs:1011-1019 *)
Inductive ntwo_name := N2LinkBandwidth | N2Vni.
Definition ntwo_of (n : N) : option ntwo_name :=
  match n with 0x04 => Some N2LinkBandwidth | 0x80 => Some N2Vni | _ => None end.
(* iana.rs:1041-1066 *)
Inductive four_name := T4RouteTarget | T4RouteOrigin | T4OspfDomain | T4DataCollection | T4SourceAs | T4CiscoVpn
| T4RtRecord | T4RtDerived.
Definition four_of (n : N) : option four_name :=
  match n with
  | 0x02 => Some T4RouteTarget | 0x03 => Some T4RouteOrigin | 0x05 => Some T4OspfDomain | 0x08 => Some T4DataCollection
  | 0x09 => Some T4SourceAs | 0x10 => Some T4CiscoVpn | 0x13 => Some T4RtRecord | 0x15 => Some T4RtDerived | _ => None
  end.
(* iana.rs:1086-1130 *)
Inductive ip4_name := I4RouteTarget | I4RouteOrigin | I4Ifit | I4OspfDomain | I4OspfRouteId | I4NodeTarget | I4L2Vpn
| I4VrfImport | I4Redirect | I4CiscoVpn | I4P2mp | I4RtRecord | I4VrfNextHop | I4RtDerived | I4MvpnRp.
Definition ip4_of (n : N) : option ip4_name :=
  match n with
  | 0x02 => Some I4RouteTarget | 0x03 => Some I4RouteOrigin | 0x04 => Some I4Ifit | 0x05 => Some I4OspfDomain
  | 0x08 => Some I4OspfRouteId | 0x09 => Some I4NodeTarget | 0x0a => Some I4L2Vpn | 0x0b => Some I4VrfImport
  | 0x0c => Some I4Redirect | 0x10 => Some I4CiscoVpn | 0x12 => Some I4P2mp | 0x13 => Some I4RtRecord
  | 0x14 => Some I4VrfNextHop | 0x15 => Some I4RtDerived | 0x80 => Some I4MvpnRp | _ => None
  end.
(* iana.rs:1150-1179 *)
Inductive ip6_name := I6RouteTarget | I6RouteOrigin | I6Ifit | I6VrfImport | I6Redirect | I6RtRedirect | I6CiscoVpn | I6P2mp | I6RtDerived.
Definition ip6_of (n : N) : option ip6_name :=
  match n with
  | 0x02 => Some I6RouteTarget | 0x03 => Some I6RouteOrigin | 0x05 => Some I6Ifit | 0x0b => Some I6VrfImport
  | 0x0c => Some I6Redirect | 0x0d => Some I6RtRedirect | 0x10 => Some I6CiscoVpn | 0x12 => Some I6P2mp
  | 0x15 => Some I6RtDerived | _ => None
  end.

(* community.rs: a community with a global and a local administrator field *)
Inductive admin (K : Type) : Type :=
| Assigned (k : K) (g l : N)
| Unassigned (st g l : N).
Arguments Assigned {K}. Arguments Unassigned {K}.
(* community.rs:930-946 TransitiveOpaqueExtendedCommunity *)
Inductive opaque := Upa (drop : bool) (router : N) | DefaultGateway | OpUnassigned (st : N) (v : list N).
(* community.rs:1318-1368 EvpnExtendedCommunity *)
Inductive evpn := MacMobility (flags seq : N) | EsiLabel (flags : N) (label : list N) | EsImport (rt : list N)
| RoutersMac (mac : list N) | L2Attribute (flags mtu : N) | EvUnassigned (st : N) (v : list N).
(* community.rs:166-200 ExtendedCommunity, 1077-1088 ExtendedCommunityIpv6 *)
Inductive extcomm :=
| TwoOctet (a : admin two_name) | NTwoOctet (a : admin ntwo_name)
| Ip4 (a : admin ip4_name) | NIp4 (st g l : N)
| Four (a : admin four_name) | NFour (st g l : N)
| Opaque (o : opaque) | NOpaque (st : N) (v : list N)
| Evpn (e : evpn) | Experimental (code st : N) (v : list N) | Unknown (code st : N) (v : list N).
Inductive extcomm6 := Ip6 (a : admin ip6_name) | NIp6 (st g l : N) | Unknown6 (code st : N) (v : list N).

(* ---- reading ---- *)
Definition cparser := parser perr.
(* deserializer/community.rs:233-313, 352-377, 387-491, 523-584, 747-816: all
   of one shape *)
Definition parse_admin {K} (gw lw : N) (of : N -> option K) : cparser (admin K) :=
  do st <- read_u8;; do g <- read_be gw;; do l <- read_be lw;;
  ret (match of st with Some k => Assigned k g l | None => Unassigned st g l end).
(* 501-515, 594-608, 826-840 *)
Definition parse_plain {A} (gw lw : N) (mk : N -> N -> N -> A) : cparser A :=
  do st <- read_u8;; do g <- read_be gw;; do l <- read_be lw;; ret (mk st g l).
(* 615-643 *)
Definition parse_opaque : cparser opaque :=
  do st <- read_u8;;
  match st with
  | 0x09 => do flags <- read_u8;; do_ read_u8;; do ip <- read_u32;; ret (Upa (N.land flags 0x80 =? 0x80) ip)
  | 0x0d => do_ read_bytes 6;; ret DefaultGateway
  | _ => do v <- read_bytes 6;; ret (OpUnassigned st v)
  end.
(* 668-709 *)
Definition parse_evpn : cparser evpn :=
  do st <- read_u8;;
  match st with
  | 0x00 => do flags <- read_u8;; do_ read_u8;; do seq <- read_u32;; ret (MacMobility flags seq)
  | 0x01 => do flags <- read_u8;; do_ read_u16;; do l <- read_bytes 3;; ret (EsiLabel flags l)
  | 0x02 => do rt <- read_bytes 6;; ret (EsImport rt)
  | 0x03 => do mac <- read_bytes 6;; ret (RoutersMac mac)
  | 0x04 => do flags <- read_u16;; do mtu <- read_u16;; do_ read_u16;; ret (L2Attribute flags mtu)
  | _ => do v <- read_bytes 6;; ret (EvUnassigned st v)
  end.
(* 651-658, 717-724, 732-739, 848-855 *)
Definition parse_raw {A} (n : N) (mk : N -> list N -> A) : cparser A :=
  do st <- read_u8;; do v <- read_bytes n;; ret (mk st v).
Definition as_ {A B} (f : A -> B) (p : cparser A) : cparser B := do x <- p;; ret (f x).
(* iana.rs:788-914: the codes 0x83..0x8f and 0xc0..0xcf are the experimental
   ones; the other named codes without a reader of their own and the codes
   without a name are both read as unknown *)
Definition is_experimental (code : N) : bool := ((0x83 <=? code) && (code <=? 0x8f)) || ((0xc0 <=? code) && (code <=? 0xcf)).
(* 80-209 ExtendedCommunity::parse *)
Definition parse_ext : cparser extcomm :=
  do code <- read_u8;;
  match code with
  | 0x00 => as_ TwoOctet (parse_admin 2 4 two_of)
  | 0x40 => as_ NTwoOctet (parse_admin 2 4 ntwo_of)
  | 0x01 => as_ Ip4 (parse_admin 4 2 ip4_of)
  | 0x41 => parse_plain 4 2 NIp4
  | 0x02 => as_ Four (parse_admin 4 2 four_of)
  | 0x42 => parse_plain 4 2 NFour
  | 0x03 => as_ Opaque parse_opaque
  | 0x43 => parse_raw 6 NOpaque
  | 0x06 => as_ Evpn parse_evpn
  | _ => if is_experimental code then parse_raw 6 (Experimental code) else parse_raw 6 (Unknown code)
  end.
(* 323-344 ExtendedCommunityIpv6::parse *)
Definition parse_ext6 : cparser extcomm6 :=
  do code <- read_u8;;
  match code with
  | 0x00 => as_ Ip6 (parse_admin 16 2 ip6_of)
  | 0x40 => parse_plain 16 2 NIp6
  | _ => parse_raw 18 (Unknown6 code)
  end.

(* ---- writing: the sub-type each variant is written with ---- *)
(* serializer/community.rs:260-355 *)
Definition two_code (k : two_name) : N :=
  match k with
  | T2RouteTarget => 0x02 | T2RouteOrigin => 0x03 | T2OspfDomain => 0x05 | T2DataCollection => 0x08
  | T2SourceAs => 0x02 | T2L2Vpn => 0x0a | T2CiscoVpn => 0x10 | T2RtRecord => 0x13 | T2RtDerived => 0x15 | T2Vni => 0x80
  end.
(* 375-404 *)
Definition ntwo_code (k : ntwo_name) : N := match k with N2LinkBandwidth => 0x04 | N2Vni => 0x80 end.
(* 426-557 *)
Definition ip4_code (k : ip4_name) : N :=
  match k with
  | I4RouteTarget => 0x02 | I4RouteOrigin => 0x03 | I4Ifit => 0x04 | I4OspfDomain => 0x05 | I4OspfRouteId => 0x08
  | I4NodeTarget => 0x09 | I4L2Vpn => 0x0a | I4VrfImport => 0x0b | I4Redirect => 0x0c | I4CiscoVpn => 0x10
  | I4P2mp => 0x12 | I4RtRecord => 0x13 | I4VrfNextHop => 0x14 | I4RtDerived => 0x15 | I4MvpnRp => 0x80
  end.
(* 614-693; RtDerivedEc is written with the number of the two-octet enum *)
Definition four_code (k : four_name) : N :=
  match k with
  | T4RouteTarget => 0x02 | T4RouteOrigin => 0x03 | T4OspfDomain => 0x05 | T4DataCollection => 0x08
  | T4SourceAs => 0x02 | T4CiscoVpn => 0x10 | T4RtRecord => 0x13 | T4RtDerived => 0x15
  end.
(* 877-962; VrfRouteImport is written with the number of the IPv4 enum *)
Definition ip6_code (k : ip6_name) : N :=
  match k with
  | I6RouteTarget => 0x02 | I6RouteOrigin => 0x03 | I6Ifit => 0x05 | I6VrfImport => 0x0b | I6Redirect => 0x0c
  | I6RtRedirect => 0x0d | I6CiscoVpn => 0x10 | I6P2mp => 0x12 | I6RtDerived => 0x15
  end.
Definition write_admin {K} (gw lw : nat) (code : K -> N) (a : admin K) : list N :=
  match a with
  | Assigned k g l => code k :: be_enc gw g ++ be_enc lw l
  | Unassigned st g l => st :: be_enc gw g ++ be_enc lw l
  end.
(* 749-778 *)
Definition write_opaque (o : opaque) : list N :=
  match o with
  | Upa d ip => 0x09 :: (if d then 0x80 else 0) :: 0 :: be_enc 4 ip
  | DefaultGateway => 0x0d :: be_enc 2 0 ++ be_enc 4 0
  | OpUnassigned st v => st :: v
  end.
(* 1045-1088 *)
Definition write_evpn (e : evpn) : list N :=
  match e with
  | MacMobility f s => 0x00 :: f :: 0 :: be_enc 4 s
  | EsiLabel f l => 0x01 :: f :: be_enc 2 0 ++ l
  | EsImport rt => 0x02 :: rt
  | RoutersMac m => 0x03 :: m
  | L2Attribute f m => 0x04 :: be_enc 2 f ++ be_enc 2 m ++ be_enc 2 0
  | EvUnassigned st v => st :: v
  end.
(* 97-170 ExtendedCommunity::write *)
Definition write_ext (c : extcomm) : list N :=
  match c with
  | TwoOctet a => 0x00 :: write_admin 2 4 two_code a
  | NTwoOctet a => 0x40 :: write_admin 2 4 ntwo_code a
  | Ip4 a => 0x01 :: write_admin 4 2 ip4_code a
  | NIp4 st g l => 0x41 :: st :: be_enc 4 g ++ be_enc 2 l
  | Four a => 0x02 :: write_admin 4 2 four_code a
  | NFour st g l => 0x42 :: st :: be_enc 4 g ++ be_enc 2 l
  | Opaque o => 0x03 :: write_opaque o
  | NOpaque st v => 0x43 :: st :: v
  | Evpn e => 0x06 :: write_evpn e
  | Experimental code st v | Unknown code st v => code :: st :: v
  end.
(* 187-218 *)
Definition write_ext6 (c : extcomm6) : list N :=
  match c with
  | Ip6 a => 0x00 :: write_admin 16 2 ip6_code a
  | NIp6 st g l => 0x40 :: st :: be_enc 16 g ++ be_enc 2 l
  | Unknown6 code st v => code :: st :: v
  end.

(* ---- properties: community.rs:202-234 and the impl of each kind ---- *)
(* 634-, 663-, 731-, 752-, 877-, 899-, 950-, 967-, 1008-, 1049-, 1370- *)
Definition transitive (c : extcomm) : bool :=
  match c with
  | TwoOctet _ => true | NTwoOctet _ => false | Ip4 _ => true | NIp4 _ _ _ => false
  | Four _ => true | NFour _ _ _ => true | Opaque _ => false | NOpaque _ _ => false | Evpn _ => true
  | Experimental code _ _ | Unknown code _ _ => N.land code 0x40 =? 0
  end.
Definition iana_defined (c : extcomm) : bool :=
  match c with
  | Experimental code _ _ | Unknown code _ _ => negb (N.land code 0x80 =? 0)
  | _ => true
  end.
(* 1090-1105, 1183-, 1205-, 1246- *)
Definition transitive6 (c : extcomm6) : bool :=
  match c with Ip6 _ => true | NIp6 _ _ _ => false | Unknown6 code _ _ => N.land code 0x40 =? 0 end.

(* ---- text: community.rs:58-72, 131-139, 236-… (of the extended communities
   the two- and four-octet AS kinds) ---- *)
Fixpoint txt (s : string) : list N :=
  match s with EmptyString => [] | String c r => N_of_ascii c :: txt r end.
Definition colon : N := 58.
(* iana.rs:727-748, strum's Display: the name of the variant *)
Definition well_known (v : N) : option (list N) :=
  match v with
  | 0xFFFF0000 => Some (txt "GracefulShutdown") | 0xFFFF0001 => Some (txt "AcceptOwn") | 0xFFFF0006 => Some (txt "LlgrStale")
  | 0xFFFF0007 => Some (txt "NoLlgr") | 0xFFFF0009 => Some (txt "StandbyPe") | 0xFFFF029A => Some (txt "BlackHole")
  | 0xFFFFFF01 => Some (txt "NoExport") | 0xFFFFFF02 => Some (txt "NoAdvertise")
  | 0xFFFFFF03 => Some (txt "NoExportSubConfederation") | 0xFFFFFF04 => Some (txt "NoPeer") | _ => None
  end.
Definition show_community (v : N) : list N :=
  match well_known v with
  | Some w => w
  | None => dec (N.land (N.shiftr v 16) 0xFFFF) ++ colon :: dec (N.land v 0xFFFF)
  end.
(* community.rs:48-55 *)
Definition collection_asn (v : N) : N := N.land (N.shiftr v 16) 0xFFFF.
Definition collection_value (v : N) : N := N.land v 0xFFFF.
Definition show_large (a b c : N) : list N := dec a ++ colon :: dec b ++ colon :: dec c.
Definition show_named (name : list N) (g l : N) : list N := name ++ colon :: dec g ++ colon :: dec l.
(* 239-306 *)
Definition two_text (k : two_name) : list N :=
  txt match k with
  | T2RouteTarget => "rt" | T2RouteOrigin => "ro" | T2OspfDomain => "ospf-domain" | T2DataCollection => "bgp-data"
  | T2SourceAs => "source-as" | T2L2Vpn => "l2vpn" | T2CiscoVpn => "cisco-vpn" | T2RtRecord => "rt-record"
  | T2RtDerived => "rt-derived" | T2Vni => "vni"
  end%string.
(* 307-329 *)
Definition ntwo_text (k : ntwo_name) : list N := txt match k with N2LinkBandwidth => "link-bw" | N2Vni => "vni" end%string.
(* 440-497 *)
Definition four_text (k : four_name) : list N :=
  txt match k with
  | T4RouteTarget => "rt" | T4RouteOrigin => "ro" | T4OspfDomain => "ospf-domain" | T4DataCollection => "bgp-data"
  | T4SourceAs => "source-as" | T4CiscoVpn => "cisco-vpn" | T4RtRecord => "rt-record" | T4RtDerived => "rt-derived"
  end%string.
Definition show_admin {K} (name : K -> list N) (a : admin K) : list N :=
  match a with
  | Assigned k g l => show_named (name k) g l
  | Unassigned st g l => show_named (txt "unassigned-" ++ dec st) g l
  end.
(* None: the text of this kind is not modelled *)
Definition show_ext (c : extcomm) : option (list N) :=
  match c with
  | TwoOctet a => Some (show_admin two_text a)
  | NTwoOctet a => Some (show_admin ntwo_text a)
  | Four a => Some (show_admin four_text a)
  | NFour st g l => Some (show_named (txt "unassigned-" ++ dec st) g l)
  | _ => None
  end.
