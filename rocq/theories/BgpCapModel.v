(* BGP capabilities: crates/bgp-pkt/src/capabilities.rs, iana.rs and
   wire/{deserializer,serializer}/capabilities.rs.
   Simplification: the error enums of the capability parsers are flattened
   into one type and lose the byte offset, which is diagnostic text. *)
From Verif Require Import Base AfModel.

(* capabilities.rs:58-90 BgpCapability *)
Inductive cap : Type :=
| CMultiProtocol (t : addr_type)
| CRouteRefresh
| CEnhancedRouteRefresh
| CCiscoRouteRefresh
  (* capabilities.rs GracefulRestartCapability: restart, graceful
     notification, time, [(forwarding_state, address type)] *)
| CGracefulRestart (restart notif : bool) (time : N) (fams : list (bool * addr_type))
  (* LongLivedGracefulRestartCapability: [(forwarding_state, type, stale)] *)
| CLongLived (fams : list (bool * addr_type * N))
  (* FqdnCapability: the two strings as their UTF-8 bytes *)
| CFqdn (host domain : list N)
  (* AddPathCapability: [(type, send, receive)] *)
| CAddPath (fams : list (addr_type * bool * bool))
| CExtendedMessage
  (* MultipleLabels: [(type, count)] *)
| CMultipleLabels (ls : list (addr_type * N))
| CRole (role : N)
| CFourOctetAs (asn : N)
  (* ExtendedNextHopEncodingCapability: [(type, next hop AFI)] *)
| CExtNextHop (es : list (addr_type * N))
| CExperimental (code : N) (value : list N)
| CUnrecognized (code : N) (value : list N).

(* deserializer/capabilities.rs:31-84 and the per-capability error enums *)
Inductive cap_err : Type :=
| CE_Parse (e : perr)
| CE_Length (code length : N)
| CE_Afi (afi : N)
| CE_Safi (safi : N)
| CE_AddressType (afi safi : N)
| CE_SendReceive (v : N)
| CE_Utf8
| CE_Role (v : N).

Definition crd {A} (p : parser perr A) : parser cap_err A := pmap_err CE_Parse p.

(* [AddressFamily::try_from(v)], [SubsequentAddressFamily::try_from(v)] and
   [AddressType::from_afi_safi] with their error mapping *)
Definition chk_afi (v : N) : parser cap_err N := if afi_ok v then ret v else fail (CE_Afi v).
Definition chk_safi (v : N) : parser cap_err N := if safi_ok v then ret v else fail (CE_Safi v).
Definition chk_at (afi safi : N) : parser cap_err addr_type :=
  match from_afi_safi afi safi with
  | Some t => ret t
  | None => fail (CE_AddressType afi safi)
  end.

(* deserializer/capabilities.rs:113-121 check_capability_length *)
Definition check_cap_len (code expected : N) : parser cap_err N :=
  do l <- pmap_err (fun _ => CE_Length code 0) peek_u8;;
  if l =? expected then pmap_err (fun _ => CE_Length code 0) read_u8
  else fail (CE_Length code l).

(* deserializer/capabilities.rs:86-108 parse_experimental_capability and
   parse_unrecognized_capability: length octet then that many octets *)
Definition parse_raw_cap : parser cap_err (list N) :=
  do len <- crd read_u8;; crd (read_bytes len).

(* deserializer/capabilities.rs:321-360 MultiProtocolExtensionsCapability *)
Definition parse_multiprotocol : parser cap_err cap :=
  do_ check_cap_len 1 4;;
  do a <- crd read_u16;; do afi <- chk_afi a;;
  do_ crd read_u8;;
  do s <- crd read_u8;; do safi <- chk_safi s;;
  do t <- chk_at afi safi;;
  ret (CMultiProtocol t).

(* deserializer/capabilities.rs:552-586 GracefulRestartAddressFamily: on a
   4-octet sub-slice *)
Definition gr_family_body : parser cap_err (bool * addr_type) :=
  do a <- crd read_u16;; do afi <- chk_afi a;;
  do s <- crd read_u8;; do safi <- chk_safi s;;
  do t <- chk_at afi safi;;
  do flags <- crd read_u8;;
  ret (N.land flags 128 =? 128, t).
Definition parse_gr_family : parser cap_err (bool * addr_type) :=
  do sub <- crd (take_slice 4);; on_sub sub gr_family_body.
(* deserializer/capabilities.rs:377-401 GracefulRestartCapability *)
Definition gr_body : parser cap_err cap :=
  do h <- crd read_u16;;
  do fams <- many_all parse_gr_family;;
  ret (CGracefulRestart (N.land h 32768 =? 32768) (N.land h 16384 =? 16384) (N.land h 4095) fams).
Definition parse_graceful_restart : parser cap_err cap :=
  do len <- crd read_u8;;
  do sub <- crd (take_slice len);; on_sub sub gr_body.

(* deserializer/capabilities.rs:500-550 LongLivedGracefulRestartAddressFamily *)
Definition ll_family_body : parser cap_err (bool * addr_type * N) :=
  do a <- crd read_u16;; do afi <- chk_afi a;;
  do s <- crd read_u8;; do safi <- chk_safi s;;
  do t <- chk_at afi safi;;
  do flags <- crd read_u8;;
  do st <- crd (read_be 3);;
  ret ((N.land flags 128 =? 128, t), st).
Definition parse_ll_family : parser cap_err (bool * addr_type * N) :=
  do sub <- crd (take_slice 7);; on_sub sub ll_family_body.
(* deserializer/capabilities.rs:473-498 LongLivedGracefulRestartCapability *)
Definition parse_long_lived : parser cap_err cap :=
  do len <- crd read_u8;;
  if negb (len mod 7 =? 0) then fail (CE_Length 71 len)
  else (do sub <- crd (take_slice len);;
        on_sub sub (do fams <- many_all parse_ll_family;; ret (CLongLived fams))).

(* deserializer/capabilities.rs:441-471 FqdnCapability *)
Definition read_name : parser cap_err (list N) :=
  do n <- crd read_u8;;
  do b <- crd (read_bytes n);;
  if utf8_ok b then ret b else fail CE_Utf8.
Definition parse_fqdn : parser cap_err cap :=
  do len <- crd read_u8;;
  do sub <- crd (take_slice len);;
  on_sub sub (do h <- read_name;; do d <- read_name;; ret (CFqdn h d)).

(* deserializer/capabilities.rs:622-669 AddPathAddressFamily *)
Definition parse_ap_family : parser cap_err (addr_type * bool * bool) :=
  do a <- crd read_u16;; do afi <- chk_afi a;;
  do s <- crd read_u8;; do safi <- chk_safi s;;
  do t <- chk_at afi safi;;
  do sr <- crd read_u8;;
  if 3 <? sr then fail (CE_SendReceive sr)
  else ret ((t, N.land sr 2 =? 2), N.land sr 1 =? 1).
(* deserializer/capabilities.rs:606-620 AddPathCapability *)
Definition parse_add_path : parser cap_err cap :=
  do len <- crd read_u8;;
  do sub <- crd (take_slice len);;
  on_sub sub (do fams <- many_all parse_ap_family;; ret (CAddPath fams)).

(* deserializer/capabilities.rs:700-746 ExtendedNextHopEncoding: the SAFI is
   16 bits wide and cast with [as u8] *)
Definition enh_body : parser cap_err (addr_type * N) :=
  do a <- crd read_u16;; do afi <- chk_afi a;;
  do s <- crd read_u16;; do safi <- chk_safi (as_u8 s);;
  do t <- chk_at afi safi;;
  do n <- crd read_u16;; do nh <- chk_afi n;;
  ret (t, nh).
Definition parse_enh : parser cap_err (addr_type * N) :=
  do sub <- crd (take_slice 6);; on_sub sub enh_body.
(* deserializer/capabilities.rs:686-698 ExtendedNextHopEncodingCapability *)
Definition parse_ext_next_hop : parser cap_err cap :=
  do len <- crd read_u8;;
  do sub <- crd (take_slice len);;
  on_sub sub (do es <- many_all parse_enh;; ret (CExtNextHop es)).

(* deserializer/capabilities.rs:763-790 MultipleLabel *)
Definition parse_multiple_label : parser cap_err (addr_type * N) :=
  do a <- crd read_u16;; do afi <- chk_afi a;;
  do s <- crd read_u8;; do safi <- chk_safi s;;
  do t <- chk_at afi safi;;
  do c <- crd read_u8;;
  ret (t, c).

(* deserializer/capabilities.rs:808-819 BgpRoleCapability; iana.rs:1339-1357
   BgpRoleValue is 0..4 *)
Definition parse_role : parser cap_err cap :=
  do_ check_cap_len 9 1;;
  do c <- crd peek_u8;;
  if 4 <? c then fail (CE_Role c)
  else (do_ crd read_u8;; ret (CRole c)).

(* deserializer/capabilities.rs:272-286 FourOctetAsCapability *)
Definition parse_four_octet_as : parser cap_err cap :=
  do_ check_cap_len 65 4;;
  do a <- crd read_u32;; ret (CFourOctetAs a).

(* deserializer/capabilities.rs:123-145 and the two inline zero-length cases *)
Definition parse_flag (code : N) (c : cap) : parser cap_err cap :=
  do_ check_cap_len code 0;; ret c.

(* deserializer/capabilities.rs:147-256 BgpCapability::parse; iana.rs:521-622
   BgpCapabilityCode. The arms for 3, 7, 67, 68, 72 and for undefined codes
   all call parse_unrecognized_capability. *)
Definition parse_cap_value (code : N) : parser cap_err cap :=
  if code =? 1 then parse_multiprotocol
  else if code =? 2 then parse_flag 2 CRouteRefresh
  else if code =? 5 then parse_ext_next_hop
  else if code =? 6 then parse_flag 6 CExtendedMessage
  else if code =? 8 then (do ls <- many_all parse_multiple_label;; ret (CMultipleLabels ls))
  else if code =? 9 then parse_role
  else if code =? 64 then parse_graceful_restart
  else if code =? 65 then parse_four_octet_as
  else if code =? 69 then parse_add_path
  else if code =? 70 then parse_flag 70 CEnhancedRouteRefresh
  else if code =? 71 then parse_long_lived
  else if code =? 73 then parse_fqdn
  else if code =? 128 then parse_flag 128 CCiscoRouteRefresh
  else if (239 <=? code) && (code <=? 254)
       then (do v <- parse_raw_cap;; ret (CExperimental code v))
  else (do v <- parse_raw_cap;; ret (CUnrecognized code v)).
Definition parse_cap : parser cap_err cap :=
  do code <- crd read_u8;; parse_cap_value code.

(* ------------------------------------------------------------------ *)
(* capabilities.rs:93-158 BgpCapability::code *)
Definition cap_code (c : cap) : N :=
  match c with
  | CMultiProtocol _ => 1
  | CRouteRefresh => 2
  | CExtNextHop _ => 5
  | CExtendedMessage => 6
  | CMultipleLabels _ => 8
  | CRole _ => 9
  | CGracefulRestart _ _ _ _ => 64
  | CFourOctetAs _ => 65
  | CAddPath _ => 69
  | CEnhancedRouteRefresh => 70
  | CLongLived _ => 71
  | CFqdn _ _ => 73
  | CCiscoRouteRefresh => 128
  | CExperimental code _ => code
  | CUnrecognized code _ => code
  end.

(* serializer/capabilities.rs:63-88 BgpCapability::len, minus BASE_LENGTH *)
Definition cap_value_len (c : cap) : N :=
  match c with
  | CMultiProtocol _ => 4
  | CRouteRefresh | CEnhancedRouteRefresh | CCiscoRouteRefresh | CExtendedMessage => 0
  | CFourOctetAs _ => 4
  | CGracefulRestart _ _ _ fams => (4 + 4 * blen fams) - 2
  | CLongLived fams => 7 * blen fams
  | CFqdn h d => 2 + blen h + blen d
  | CAddPath fams => 4 * blen fams
  | CExtNextHop es => (1 + 6 * blen es) - 1
  | CMultipleLabels ls => 4 * blen ls
  | CRole _ => 1
  | CExperimental _ v => blen v
  | CUnrecognized _ v => blen v
  end.
(* serializer/capabilities.rs:62-88 len *)
Definition cap_len (c : cap) : N := 2 + cap_value_len c.

Inductive cap_werr : Type := NameTooLong (length : N).

(* [2 octets AFI, 1 octet SAFI] *)
Definition enc_afi_safi (t : addr_type) : list N := be_enc 2 (at_afi t) ++ [at_safi t].
(* serializer/capabilities.rs:340-353 GracefulRestartAddressFamily *)
Definition enc_gr_family (f : bool * addr_type) : list N :=
  enc_afi_safi (snd f) ++ [if fst f then 128 else 0].
(* serializer/capabilities.rs:265-290 LongLivedGracefulRestartAddressFamily:
   stale_time.to_be_bytes()[1..] *)
Definition enc_ll_family (f : bool * addr_type * N) : list N :=
  enc_afi_safi (snd (fst f)) ++ [if fst (fst f) then 128 else 0] ++ be_enc 3 (snd f).
(* serializer/capabilities.rs:382-401 AddPathAddressFamily *)
Definition enc_ap_family (f : addr_type * bool * bool) : list N :=
  enc_afi_safi (fst (fst f)) ++
  [N.lor ((if snd (fst f) then 1 else 0) * 2) (if snd f then 1 else 0)].
(* serializer/capabilities.rs:410-426 ExtendedNextHopEncoding *)
Definition enc_enh (e : addr_type * N) : list N :=
  be_enc 2 (at_afi (fst e)) ++ be_enc 2 (at_safi (fst e)) ++ be_enc 2 (snd e).
(* serializer/capabilities.rs:456-468 MultipleLabel *)
Definition enc_multiple_label (l : addr_type * N) : list N :=
  enc_afi_safi (fst l) ++ [snd l].
(* serializer/capabilities.rs:310-337 FqdnCapability: one length-prefixed
   name, error when it does not fit the length octet *)
Definition enc_name (n : list N) : res cap_werr (list N) :=
  if 255 <? blen n then Err (NameTooLong (blen n)) else Ok (as_u8 (blen n) :: n).

(* serializer/capabilities.rs:90-175 BgpCapability::write with the value
   writers it calls. The u16 time of graceful restart is or-ed unmasked. *)
Definition write_cap (c : cap) : res cap_werr (list N) :=
  let code := cap_code c in
  let len := as_u8 (cap_value_len c) in
  match c with
  | CMultiProtocol t => Ok ([code; 4] ++ be_enc 2 (at_afi t) ++ [0; at_safi t])
  | CRouteRefresh | CEnhancedRouteRefresh | CCiscoRouteRefresh | CExtendedMessage =>
      Ok [code; len]
  | CMultipleLabels ls => Ok (code :: flat_map enc_multiple_label ls)
  | CRole r => Ok [code; len; r]
  | CGracefulRestart rs nt tm fams =>
      Ok ([code; len]
          ++ be_enc 2 (N.lor (N.lor (if rs then 32768 else 0) (if nt then 16384 else 0)) tm)
          ++ flat_map enc_gr_family fams)
  | CLongLived fams => Ok ([code; len] ++ flat_map enc_ll_family fams)
  | CFqdn h d =>
      rbind (enc_name h) (fun bh => rbind (enc_name d) (fun bd => Ok ([code; len] ++ bh ++ bd)))
  | CAddPath fams => Ok ([code; len] ++ flat_map enc_ap_family fams)
  | CFourOctetAs a => Ok ([code; 4] ++ be_enc 4 a)
  | CExtNextHop es =>
      (* self.len() as u8 - 1: a checked subtraction on u8 *)
      if as_u8 (1 + 6 * blen es) =? 0 then Panic
      else Ok ([code; as_u8 (1 + 6 * blen es) - 1] ++ flat_map enc_enh es)
  | CExperimental cd v => Ok ([cd; len] ++ v)
  | CUnrecognized cd v => Ok ([cd; len] ++ v)
  end.
