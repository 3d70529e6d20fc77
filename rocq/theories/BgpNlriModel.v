(* BGP NLRI: crates/bgp-pkt/src/nlri/nlri.rs,
   wire/{deserializer,serializer}/nlri/nlri.rs and
   crates/parse-utils/src/common.rs (prefix parsing).
   Simplifications: addresses are their octets (4 or 16); an IpNet is the pair
   of its address octets and prefix length; the per-family error enums are one
   type without byte offsets; BGP-LS NLRI are not modelled. *)
From Verif Require Import Base AfModel.

Inductive nlri_err : Type :=
| NE_Parse (e : perr)
| NE_PrefixLen (plen : N)
| NE_NotUnicast
| NE_NotMulticast
| NE_RdType (code : N)
| NE_LeafAd (n1 n2 : N)
| NE_Length (len : N)
| NE_MacLen (len : N)
| NE_IpLen (len : N)
| NE_RouteLen (len : N)
| NE_RtPrefixLen (len : N)
| NE_TooManyLabels.
Definition nrd {A} (p : parser perr A) : parser nlri_err A := pmap_err NE_Parse p.

(* ipnet::Ipv4Net / Ipv6Net: address octets (host bits kept) and prefix length *)
Definition net : Type := (list N * N)%type.

(* serializer/mod.rs:43-45 round_len *)
Definition round_len (plen : N) : N := (plen + 7) / 8.

(* ipnet network(): the address with the bits after the prefix length cleared *)
Fixpoint clear_host (plen : N) (addr : list N) : list N :=
  match addr with
  | [] => []
  | b :: r => (b / 2 ^ (8 - plen)) * 2 ^ (8 - plen) :: clear_host (plen - 8) r
  end.
Definition network (n : net) : list N := clear_host (snd n) (fst n).
(* ipnet broadcast(): the address with the bits after the prefix length set *)
Fixpoint set_host (plen : N) (addr : list N) : list N :=
  match addr with
  | [] => []
  | b :: r => (b / 2 ^ (8 - plen)) * 2 ^ (8 - plen) + (2 ^ (8 - plen) - 1)
              :: set_host (plen - 8) r
  end.
Definition broadcast (n : net) : list N := set_host (snd n) (fst n).

(* parse-utils/src/common.rs:35-64 and 92-122, ParseFromWithTwoInputs for
   Ipv4Net (w = 4) and Ipv6Net (w = 16) *)
Definition net_size (w plen : N) : N := N.min (if 248 <=? plen then 255 else round_len plen) w.
Definition parse_net_len (w plen : N) : parser nlri_err net :=
  do b <- nrd (read_bytes (net_size w plen));;
  if 8 * w <? plen then fail (NE_PrefixLen plen)
  else ret (b ++ repeat 0 (N.to_nat (w - blen b)), plen).
(* common.rs:66-74 and 124-132, ParseFrom for Ipv4Net and Ipv6Net *)
Definition parse_net (w : N) : parser nlri_err net :=
  do plen <- nrd read_u8;; parse_net_len w plen.

(* core::net: Ipv4Addr::is_multicast, is_broadcast, Ipv6Addr::is_multicast *)
Definition v4_multicast (a : list N) : bool := let b := hd 0 a in (224 <=? b) && (b <=? 239).
Definition v4_broadcast (a : list N) : bool := forallb (fun b => b =? 255) a.
Definition v6_multicast (a : list N) : bool := hd 0 a =? 255.
(* ipnet Ipv4Net::hosts().last(): the broadcast address for /31 and /32, the
   address below it otherwise. For prefix lengths below 31 the last octet of
   the broadcast address is odd, so only that octet changes. *)
Definition v4_last_host (n : net) : list N :=
  let bc := broadcast n in
  if 31 <=? snd n then bc else removelast bc ++ [last bc 0 - 1].

(* nlri/nlri.rs:241-250 Ipv4Unicast::from_net *)
Definition v4_unicast_ok (n : net) : bool :=
  negb (v4_broadcast (fst n) || v4_multicast (fst n))
  && negb (v4_broadcast (v4_last_host n) || v4_multicast (v4_last_host n)).
(* nlri/nlri.rs:386-391 Ipv4Multicast::from_net *)
Definition v4_multicast_ok (n : net) : bool := v4_multicast (fst n).
(* nlri/nlri.rs:465-470 Ipv6Unicast::from_net *)
Definition v6_unicast_ok (n : net) : bool := negb (v6_multicast (fst n)).
(* nlri/nlri.rs:598-608 Ipv6Multicast::from_net; Ipv6Net::hosts() ends at the
   broadcast address for every prefix length *)
Definition v6_multicast_ok (n : net) : bool :=
  v6_multicast (fst n) && v6_multicast (broadcast n).

(* the check of a plain family and the error it raises *)
Definition family_width (t : addr_type) : N :=
  match t with
  | Ipv6Unicast | Ipv6Multicast | Ipv6MplsLabeledVpn | Ipv6NlriMplsLabels => 16
  | _ => 4
  end.
Definition family_ok (t : addr_type) (n : net) : bool :=
  match t with
  | Ipv4Unicast | Ipv4MplsLabeledVpn => v4_unicast_ok n
  | Ipv4Multicast => v4_multicast_ok n
  | Ipv6Unicast | Ipv6MplsLabeledVpn => v6_unicast_ok n
  | Ipv6Multicast => v6_multicast_ok n
  | _ => true
  end.
Definition family_err (t : addr_type) : nlri_err :=
  match t with Ipv4Multicast | Ipv6Multicast => NE_NotMulticast | _ => NE_NotUnicast end.
Definition chk_net (t : addr_type) (n : net) : parser nlri_err net :=
  if family_ok t n then ret n else fail (family_err t).

(* nlri/nlri.rs:83-131 RouteDistinguisher *)
Inductive rd : Type :=
| RdAs2 (asn number : N)
| RdIp (ip number : N)
| RdAs4 (asn number : N)
| RdLeaf.
(* nlri/nlri.rs:106-131 u64::from(RouteDistinguisher) *)
Definition rd_value (r : rd) : N :=
  match r with
  | RdAs2 a n => N.lor (N.lor (N.shiftl 0 48) (N.shiftl a 32)) n
  | RdIp i n => N.lor (N.lor (N.shiftl 1 48) (N.shiftl i 16)) n
  | RdAs4 a n => N.lor (N.lor (N.shiftl 2 48) (N.shiftl a 16)) n
  | RdLeaf => 18446744073709551615
  end.
(* serializer nlri.rs:41-52 *)
Definition enc_rd (r : rd) : list N := be_enc 8 (rd_value r).
(* deserializer nlri.rs:67-107 *)
Definition parse_rd : parser nlri_err rd :=
  do t <- nrd read_u16;;
  if t =? 0 then (do a <- nrd read_u16;; do n <- nrd read_u32;; ret (RdAs2 a n))
  else if t =? 1 then (do i <- nrd read_u32;; do n <- nrd read_u16;; ret (RdIp i n))
  else if t =? 2 then (do a <- nrd read_u32;; do n <- nrd read_u16;; ret (RdAs4 a n))
  else if t =? 65535 then
    (do n1 <- nrd read_u16;; do n2 <- nrd read_u32;;
     if negb (n1 =? 65535) || negb (n2 =? 4294967295) then fail (NE_LeafAd n1 n2) else ret RdLeaf)
  else fail (NE_RdType t).

(* nlri/nlri.rs MplsLabel: three octets; is_bottom, is_unreach_compatibility *)
Definition label : Type := list N.
Definition label_bottom (l : label) : bool := N.land (nth 2 l 0) 1 =? 1.
(* deserializer nlri.rs:1237-1255 parse_mpls_label_stack. Every caller passes
   is_unreach = false, so that argument is dropped. *)
Fixpoint label_loop (fuel : nat) (limit : N) : parser nlri_err (list label) :=
  fun r =>
    if limit =? 0 then (r, Ok [])
    else match fuel with
         | O => (r, Diverge)
         | S f =>
             (do l <- nrd (read_bytes 3);;
              let limit' := if limit =? 255 then limit else limit - 1 in
              if label_bottom l then ret [l]
              else do ls <- label_loop f limit';; ret (l :: ls)) r
         end.
Definition parse_labels (limit : N) : parser nlri_err (list label) :=
  fun r => label_loop (S (length (rbuf r))) limit r.

(* the optional ADD-PATH identifier at the head of every NLRI parser *)
Definition parse_path_id (add_path : bool) : parser nlri_err (option N) :=
  if add_path then (do i <- nrd read_u32;; ret (Some i)) else ret None.
Definition enc_path_id (p : option N) : list N :=
  match p with Some i => be_enc 4 i | None => [] end.
Definition path_id_len (p : option N) : N := match p with Some _ => 4 | None => 0 end.

(* the octet count of the labelled and VPN parsers: deserializer
   nlri.rs:227-231, 304-308, 1111-1115, 1180-1184 *)
Definition prefix_bytes (plen : N) : N := if 248 <? plen then 255 else round_len plen.

(* u8 arithmetic: a debug build panics on overflow. In a release build the
   operation wraps instead; the model takes the debug behaviour. *)
Definition u8_checked {E} (v : N) : parser E N :=
  if v <? 256 then ret v else fun r => (r, Panic).

(* EVPN: nlri/nlri.rs:730-1160 *)
Inductive ipaddr : Type := V4 (o : list N) | V6 (o : list N).
Definition ip_octets (a : ipaddr) : list N := match a with V4 o | V6 o => o end.
Inductive evpn : Type :=
| EvAutoDiscovery (r : rd) (esi : list N) (tag : N) (l : label)
| EvMacIp (r : rd) (esi : list N) (tag : N) (mac : list N) (ip : option ipaddr)
          (l1 : label) (l2 : option label)
| EvMulticast (r : rd) (tag : N) (ip : ipaddr)
| EvSegment (r : rd) (esi : list N) (ip : ipaddr)
| EvPrefix4 (r : rd) (esi : list N) (tag : N) (n : net) (gw : list N) (l : label)
| EvPrefix6 (r : rd) (esi : list N) (tag : N) (n : net) (gw : list N) (l : label)
| EvUnknown (code : N) (value : list N).

Definition parse_ip_bits : parser nlri_err ipaddr :=
  do n <- nrd read_u8;;
  if n =? 32 then (do o <- nrd (read_bytes 4);; ret (V4 o))
  else if n =? 128 then (do o <- nrd (read_bytes 16);; ret (V6 o))
  else fail (NE_IpLen n).
(* deserializer nlri.rs:621-632 *)
Definition parse_ev_auto : parser nlri_err evpn :=
  do r <- parse_rd;; do esi <- nrd (read_bytes 10);; do tag <- nrd read_u32;;
  do l <- nrd (read_bytes 3);; ret (EvAutoDiscovery r esi tag l).
(* deserializer nlri.rs:663-718 *)
Definition parse_ev_macip : parser nlri_err evpn :=
  do r <- parse_rd;; do esi <- nrd (read_bytes 10);; do tag <- nrd read_u32;;
  do ml <- nrd read_u8;;
  if negb (ml =? 48) then fail (NE_MacLen ml)
  else
    do mac <- nrd (read_bytes 6);;
    do n <- nrd read_u8;;
    do ip <- (if n =? 0 then ret None
              else if n =? 32 then (do o <- nrd (read_bytes 4);; ret (Some (V4 o)))
              else if n =? 128 then (do o <- nrd (read_bytes 16);; ret (Some (V6 o)))
              else fail (NE_IpLen n));;
    do l1 <- nrd (read_bytes 3);;
    do rr <- get_reader;;
    do l2 <- (if ris_empty rr then ret None
              else (do l <- nrd (read_bytes 3);; ret (Some l)));;
    ret (EvMacIp r esi tag mac ip l1 l2).
(* deserializer nlri.rs:736-765 *)
Definition parse_ev_multicast : parser nlri_err evpn :=
  do r <- parse_rd;; do tag <- nrd read_u32;; do ip <- parse_ip_bits;;
  ret (EvMulticast r tag ip).
(* deserializer nlri.rs:782-811 *)
Definition parse_ev_segment : parser nlri_err evpn :=
  do r <- parse_rd;; do esi <- nrd (read_bytes 10);; do ip <- parse_ip_bits;;
  ret (EvSegment r esi ip).
(* deserializer nlri.rs:913-942 and 960-989 *)
Definition parse_ev_prefix (w : N) (mk : rd -> list N -> N -> net -> list N -> label -> evpn)
  : parser nlri_err evpn :=
  do r <- parse_rd;; do esi <- nrd (read_bytes 10);; do tag <- nrd read_u32;;
  do plen <- nrd read_u8;; do a <- nrd (read_bytes w);;
  if 8 * w <? plen then fail (NE_PrefixLen plen)
  else
    do gw <- nrd (read_bytes w);; do l <- nrd (read_bytes 3);;
    ret (mk r esi tag (a, plen) gw l).
(* deserializer nlri.rs:1000-1019 L2EvpnIpPrefixRoute *)
Definition parse_ev_ip_prefix : parser nlri_err evpn :=
  do rr <- get_reader;;
  if remaining rr =? 34 then parse_ev_prefix 4 EvPrefix4
  else if remaining rr =? 58 then parse_ev_prefix 16 EvPrefix6
  else fail (NE_RouteLen (remaining rr)).
(* deserializer nlri.rs:833-869 L2EvpnRoute: octets left over in the route's
   own slice are ignored *)
Definition parse_evpn : parser nlri_err evpn :=
  do code <- nrd read_u8;;
  do len <- nrd read_u8;;
  do sub <- nrd (take_slice len);;
  on_sub sub
    (if code =? 1 then parse_ev_auto
     else if code =? 2 then parse_ev_macip
     else if code =? 3 then parse_ev_multicast
     else if code =? 4 then parse_ev_segment
     else if code =? 5 then parse_ev_ip_prefix
     else (do rr <- get_reader;; do v <- nrd (read_bytes (remaining rr));;
           ret (EvUnknown code v))).

(* One NLRI element of the address families modelled. *)
Inductive nlri : Type :=
| NPlain (pid : option N) (n : net)
| NLabelled (pid : option N) (ls : list label) (n : net)
| NVpn (pid : option N) (r : rd) (ls : list label) (n : net)
| NEvpn (pid : option N) (e : evpn)
| NRtm (pid : option N) (m : option (N * list N)).

(* deserializer nlri.rs:503-514, 549-560, 400-411, 442-453: the plain families *)
Definition parse_plain (t : addr_type) (ap : bool) : parser nlri_err nlri :=
  do pid <- parse_path_id ap;;
  do n <- parse_net (family_width t);;
  do n <- chk_net t n;;
  ret (NPlain pid n).
(* deserializer nlri.rs:1096-1141 and 1164-1209 *)
Definition parse_labelled (t : addr_type) (ap : bool) (limit : N) : parser nlri_err nlri :=
  do pid <- parse_path_id ap;;
  do plen <- nrd read_u8;;
  do sub <- nrd (take_slice (prefix_bytes plen));;
  on_sub sub
    (do ls <- parse_labels limit;;
     do bits <- u8_checked (24 * as_u8 (blen ls));;
     if plen <? bits then fail (NE_Length plen)
     else
       do n <- parse_net_len (family_width t) (plen - bits);;
       (* nlri/nlri.rs Ipv4NlriMplsLabelsAddress::from *)
       if 255 <? 24 * blen ls + snd n then fail NE_TooManyLabels
       else ret (NLabelled pid ls n)).
(* deserializer nlri.rs:211-267 and 287-344 *)
Definition parse_vpn (t : addr_type) (ap : bool) (limit : N) : parser nlri_err nlri :=
  do pid <- parse_path_id ap;;
  do plen <- nrd read_u8;;
  do sub <- nrd (take_slice (prefix_bytes plen));;
  on_sub sub
    (do ls <- parse_labels limit;;
     do r <- parse_rd;;
     do lb <- u8_checked (as_u8 (blen ls) * 24);;
     do bits <- u8_checked (64 + lb);;
     if plen <? bits then fail (NE_Length plen)
     else
       do n <- parse_net_len (family_width t) (plen - bits);;
       do n <- chk_net t n;;
       do rr <- get_reader;;
       if ris_empty rr then ret (NVpn pid r ls n) else fail (NE_Length plen)).
(* deserializer nlri.rs:879-890 *)
Definition parse_ev (ap : bool) : parser nlri_err nlri :=
  do pid <- parse_path_id ap;; do e <- parse_evpn;; ret (NEvpn pid e).
(* deserializer nlri.rs:1035-1074 *)
Definition parse_rtm (ap : bool) : parser nlri_err nlri :=
  do pid <- parse_path_id ap;;
  do plen <- nrd read_u8;;
  if plen =? 0 then ret (NRtm pid None)
  else if negb ((32 <=? plen) && (plen <=? 96)) then fail (NE_RtPrefixLen plen)
  else
    do origin <- nrd read_u32;;
    do rt <- nrd (read_bytes ((plen - 32) / 8));;
    ret (NRtm pid (Some (origin, rt))).

Definition modelled_family (t : addr_type) : bool :=
  match t with
  | Ipv4Unicast | Ipv4Multicast | Ipv6Unicast | Ipv6Multicast
  | Ipv4NlriMplsLabels | Ipv6NlriMplsLabels | Ipv4MplsLabeledVpn | Ipv6MplsLabeledVpn
  | L2VpnBgpEvpn | RouteTargetConstrains => true
  | _ => false
  end.
(* the parser each MP_REACH / MP_UNREACH arm uses:
   path_attribute.rs:751-976 and 1131-1266 *)
Definition parse_nlri_of (t : addr_type) (ap : bool) (limit : N) : parser nlri_err nlri :=
  match t with
  | Ipv4NlriMplsLabels | Ipv6NlriMplsLabels => parse_labelled t ap limit
  | Ipv4MplsLabeledVpn | Ipv6MplsLabeledVpn => parse_vpn t ap limit
  | L2VpnBgpEvpn => parse_ev ap
  | RouteTargetConstrains => parse_rtm ap
  | _ => parse_plain t ap
  end.

(* ---- writers ---- *)
(* serializer nlri.rs:165-181, 214-230, 309-325, 358-374: prefix length and
   the leading octets of network() *)
Definition enc_net_octets (n : net) : list N := take (round_len (snd n)) (network n).
Definition enc_net (n : net) : list N := snd n :: enc_net_octets n.
Definition net_len (n : net) : N := 1 + round_len (snd n).

(* serializer nlri.rs:521-702 *)
Definition enc_ip_bits (a : ipaddr) : list N :=
  match a with V4 o => 32 :: o | V6 o => 128 :: o end.
Definition ip_len (a : ipaddr) : N := match a with V4 _ => 4 | V6 _ => 16 end.
Definition enc_evpn_value (e : evpn) : list N :=
  match e with
  | EvAutoDiscovery r esi tag l => enc_rd r ++ esi ++ be_enc 4 tag ++ l
  | EvMacIp r esi tag mac ip l1 l2 =>
      enc_rd r ++ esi ++ be_enc 4 tag ++ 48 :: mac ++
      (match ip with None => [0] | Some a => enc_ip_bits a end) ++ l1 ++
      (match l2 with None => [] | Some l => l end)
  | EvMulticast r tag ip => enc_rd r ++ be_enc 4 tag ++ enc_ip_bits ip
  | EvSegment r esi ip => enc_rd r ++ esi ++ enc_ip_bits ip
  | EvPrefix4 r esi tag n gw l | EvPrefix6 r esi tag n gw l =>
      enc_rd r ++ esi ++ be_enc 4 tag ++ snd n :: network n ++ gw ++ l
  | EvUnknown _ v => v
  end.
(* the [len] methods of the same types *)
Definition evpn_value_len (e : evpn) : N :=
  match e with
  | EvAutoDiscovery _ _ _ _ => 25
  | EvMacIp _ _ _ _ ip _ l2 =>
      2 + 8 + 10 + 4 + 6 + (match ip with None => 0 | Some a => ip_len a end) + 3
      + (match l2 with None => 0 | Some _ => 3 end)
  | EvMulticast _ _ ip => 1 + 8 + 4 + ip_len ip
  | EvSegment _ _ ip => 1 + 8 + 10 + ip_len ip
  | EvPrefix4 _ _ _ _ _ _ => 34
  | EvPrefix6 _ _ _ _ _ _ => 58
  | EvUnknown _ v => blen v
  end.
Definition evpn_code (e : evpn) : N :=
  match e with
  | EvAutoDiscovery _ _ _ _ => 1
  | EvMacIp _ _ _ _ _ _ _ => 2
  | EvMulticast _ _ _ => 3
  | EvSegment _ _ _ => 4
  | EvPrefix4 _ _ _ _ _ _ | EvPrefix6 _ _ _ _ _ _ => 5
  | EvUnknown c _ => c
  end.
(* serializer nlri.rs:728-762 *)
Definition enc_evpn (e : evpn) : list N :=
  evpn_code e :: as_u8 (evpn_value_len e) :: enc_evpn_value e.

Inductive nlri_werr : Type := NW_PrefixLength (len : N).
(* serializer nlri.rs: 191-205 240-254 335-349 384-398 (plain), 972-998
   1014-1040 (labelled: the path identifier is not written), 272-302 416-444
   (VPN), 774-788 (EVPN), 907-934 (route target) *)
Definition write_nlri (x : nlri) : res nlri_werr (list N) :=
  match x with
  | NPlain pid n => Ok (enc_path_id pid ++ enc_net n)
  | NLabelled pid ls n =>
      let len := blen ls * 24 + snd n in
      if 255 <? len then Err (NW_PrefixLength len)
      else Ok (as_u8 len :: concat ls ++ enc_net_octets n)
  | NVpn pid r ls n =>
      Ok (enc_path_id pid ++ as_u8 (64 + blen ls * 3 * 8 + snd n)
            :: concat ls ++ enc_rd r ++ enc_net_octets n)
  | NEvpn pid e => Ok (enc_path_id pid ++ enc_evpn e)
  | NRtm pid None => Ok (enc_path_id pid ++ [0])
  | NRtm pid (Some (o, rt)) =>
      Ok (enc_path_id pid ++ as_u8 ((4 + blen rt) * 8) :: be_enc 4 o ++ rt)
  end.
(* the [len] methods of the same types *)
Definition nlri_len (x : nlri) : N :=
  match x with
  | NPlain pid n => path_id_len pid + net_len n
  | NLabelled pid ls n => 1 + 3 * blen ls + round_len (snd n)
  | NVpn pid r ls n => path_id_len pid + 8 + net_len n + 3 * blen ls
  | NEvpn pid e => path_id_len pid + (2 + evpn_value_len e)
  | NRtm pid None => 1 + path_id_len pid + 0
  | NRtm pid (Some (o, rt)) => 1 + path_id_len pid + (4 + blen rt)
  end.
