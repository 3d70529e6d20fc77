(* crates/iana/src/address_family.rs: address families, and UTF-8 validity as
   checked by String::from_utf8 (core library, RFC 3629). *)
From Verif Require Import Base.

(* address_family.rs:62-201 AddressFamily, TryFrom<u16> *)
Definition afi_ok (v : N) : bool :=
  ((1 <=? v) && (v <=? 31)) || ((16384 <=? v) && (v <=? 16399)).
(* address_family.rs:223-396 SubsequentAddressFamily, TryFrom<u8> *)
Definition safi_ok (v : N) : bool :=
  ((1 <=? v) && (v <=? 2)) || ((4 <=? v) && (v <=? 6)) || ((8 <=? v) && (v <=? 9))
  || ((64 <=? v) && (v <=? 79)) || ((128 <=? v) && (v <=? 129))
  || ((132 <=? v) && (v <=? 134)) || (v =? 140) || ((241 <=? v) && (v <=? 254)).

(* address_family.rs:405-427 AddressType *)
Inductive addr_type : Type :=
| Ipv4Unicast | Ipv4Multicast | Ipv4MplsLabeledVpn | Ipv4MulticastBgpMplsVpn
| Ipv4Bgp4over6 | Ipv4FlowSpec | Ipv4FlowSpecL3Vpn | Ipv4NlriMplsLabels
| Ipv6Unicast | Ipv6Multicast | Ipv6MplsLabeledVpn | Ipv6MulticastBgpMplsVpn
| Ipv6Bgp6over4 | Ipv6FlowSpec | Ipv6FlowSpecL3Vpn | Ipv6NlriMplsLabels
| L2VpnBgpEvpn | L2VpnVpls | BgpLs | BgpLsVpn | RouteTargetConstrains.

Definition addr_type_eq_dec (a b : addr_type) : {a = b} + {a <> b}.
Proof. decide equality. Defined.
Definition at_eqb (a b : addr_type) : bool :=
  if addr_type_eq_dec a b then true else false.

(* address_family.rs:458-484 address_family *)
Definition at_afi (t : addr_type) : N :=
  match t with
  | Ipv4Unicast | Ipv4Multicast | Ipv4MplsLabeledVpn | Ipv4MulticastBgpMplsVpn
  | Ipv4Bgp4over6 | Ipv4FlowSpec | Ipv4FlowSpecL3Vpn | Ipv4NlriMplsLabels
  | RouteTargetConstrains => 1
  | Ipv6Unicast | Ipv6Multicast | Ipv6MplsLabeledVpn | Ipv6MulticastBgpMplsVpn
  | Ipv6Bgp6over4 | Ipv6FlowSpec | Ipv6FlowSpecL3Vpn | Ipv6NlriMplsLabels => 2
  | L2VpnBgpEvpn | L2VpnVpls => 25
  | BgpLs | BgpLsVpn => 16388
  end.
(* address_family.rs:486-513 subsequent_address_family *)
Definition at_safi (t : addr_type) : N :=
  match t with
  | Ipv4Unicast | Ipv6Unicast => 1
  | Ipv4Multicast | Ipv6Multicast => 2
  | Ipv4MplsLabeledVpn | Ipv6MplsLabeledVpn => 128
  | Ipv4MulticastBgpMplsVpn | Ipv6MulticastBgpMplsVpn => 129
  | Ipv4Bgp4over6 => 67
  | Ipv6Bgp6over4 => 68
  | Ipv4FlowSpec | Ipv6FlowSpec => 133
  | Ipv4FlowSpecL3Vpn | Ipv6FlowSpecL3Vpn => 134
  | Ipv4NlriMplsLabels | Ipv6NlriMplsLabels => 4
  | L2VpnBgpEvpn => 70
  | L2VpnVpls => 65
  | BgpLs => 71
  | BgpLsVpn => 72
  | RouteTargetConstrains => 132
  end.
(* address_family.rs:515-565 from_afi_safi: the match arms as a table, first
   match wins. *)
Definition afi_safi_table : list (N * N * addr_type) :=
  [ (1, 1, Ipv4Unicast); (1, 2, Ipv4Multicast); (1, 128, Ipv4MplsLabeledVpn);
    (1, 129, Ipv4MulticastBgpMplsVpn); (1, 67, Ipv4Bgp4over6); (1, 133, Ipv4FlowSpec);
    (1, 134, Ipv4FlowSpecL3Vpn); (1, 4, Ipv4NlriMplsLabels);
    (2, 1, Ipv6Unicast); (2, 2, Ipv6Multicast); (2, 128, Ipv6MplsLabeledVpn);
    (2, 129, Ipv6MulticastBgpMplsVpn); (2, 68, Ipv6Bgp6over4); (2, 133, Ipv6FlowSpec);
    (2, 134, Ipv6FlowSpecL3Vpn); (2, 4, Ipv6NlriMplsLabels);
    (25, 70, L2VpnBgpEvpn); (25, 65, L2VpnVpls); (16388, 71, BgpLs); (16388, 72, BgpLsVpn);
    (1, 132, RouteTargetConstrains) ].
Definition from_afi_safi (afi safi : N) : option addr_type :=
  match find (fun row => (fst (fst row) =? afi) && (snd (fst row) =? safi)) afi_safi_table with
  | Some row => Some (snd row)
  | None => None
  end.

(* core::str::from_utf8, as used through String::from_utf8: the well-formed
   byte sequences of RFC 3629. *)
Definition cont (b : N) : bool := (128 <=? b) && (b <=? 191).
Definition within (lo hi b : N) : bool := (lo <=? b) && (b <=? hi).
Fixpoint utf8_ok (l : list N) : bool :=
  match l with
  | [] => true
  | a :: l1 =>
      if a <=? 127 then utf8_ok l1
      else match l1 with
           | [] => false
           | b :: l2 =>
               if within 194 223 a then cont b && utf8_ok l2
               else match l2 with
                    | [] => false
                    | c :: l3 =>
                        if within 224 239 a then
                          (if a =? 224 then within 160 191 b
                           else if a =? 237 then within 128 159 b else cont b)
                          && cont c && utf8_ok l3
                        else match l3 with
                             | [] => false
                             | d :: l4 =>
                                 if within 240 244 a then
                                   (if a =? 240 then within 144 191 b
                                    else if a =? 244 then within 128 143 b else cont b)
                                   && cont c && cont d && utf8_ok l4
                                 else false
                             end
                    end
           end
  end.
