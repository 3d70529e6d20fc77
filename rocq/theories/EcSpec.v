(* Which communities the wire format can carry, from the IANA registries and
   RFC 4360, 5668, 5701, 7153, 7432, 8092; not from the codec. *)
From Verif Require Import Base EcModel.

Definition octet (v : N) : Prop := v < 256.
Definition octets (n : N) (l : list N) : Prop := blen l = n /\ Forall octet l.
(* sub-types that have a meaning of their own *)
Definition two_numbers : list N := [2; 3; 5; 8; 9; 10; 16; 19; 21; 128].
Definition ntwo_numbers : list N := [4; 128].
Definition four_numbers : list N := [2; 3; 5; 8; 9; 16; 19; 21].
Definition ip4_numbers : list N := [2; 3; 4; 5; 8; 9; 10; 11; 12; 16; 18; 19; 20; 21; 128].
Definition ip6_numbers : list N := [2; 3; 5; 11; 12; 13; 16; 18; 21].
(* the type octets with a reader of their own, and the experimental ones *)
Definition typed (code : N) : Prop := In code [0; 1; 2; 3; 6; 64; 65; 66; 67].
Definition experimental (code : N) : Prop := 131 <= code <= 143 \/ 192 <= code <= 207.

Definition admin_fits {K} (gmax lmax : N) (numbers : list N) (a : admin K) : Prop :=
  match a with
  | Assigned _ g l => g < gmax /\ l < lmax
  | Unassigned st g l => octet st /\ ~ In st numbers /\ g < gmax /\ l < lmax
  end.
Definition opaque_fits (o : opaque) : Prop :=
  match o with
  | Upa _ ip => ip < 2 ^ 32
  | DefaultGateway => True
  | OpUnassigned st v => octet st /\ st <> 9 /\ st <> 13 /\ octets 6 v
  end.
Definition evpn_fits (e : evpn) : Prop :=
  match e with
  | MacMobility f s => octet f /\ s < 2 ^ 32
  | EsiLabel f l => octet f /\ octets 3 l
  | EsImport v | RoutersMac v => octets 6 v
  | L2Attribute f m => f < 2 ^ 16 /\ m < 2 ^ 16
  | EvUnassigned st v => octet st /\ 4 < st /\ octets 6 v
  end.
(* a value of the Rust types, under the name the registry gives it *)
Definition ext_fits (c : extcomm) : Prop :=
  match c with
  | TwoOctet a => admin_fits (2 ^ 16) (2 ^ 32) two_numbers a
  | NTwoOctet a => admin_fits (2 ^ 16) (2 ^ 32) ntwo_numbers a
  | Ip4 a => admin_fits (2 ^ 32) (2 ^ 16) ip4_numbers a
  | Four a => admin_fits (2 ^ 32) (2 ^ 16) four_numbers a
  | NIp4 st g l | NFour st g l => octet st /\ g < 2 ^ 32 /\ l < 2 ^ 16
  | Opaque o => opaque_fits o
  | NOpaque st v => octet st /\ octets 6 v
  | Evpn e => evpn_fits e
  | Experimental code st v => experimental code /\ octet st /\ octets 6 v
  | Unknown code st v => octet code /\ ~ typed code /\ ~ experimental code /\ octet st /\ octets 6 v
  end.
Definition ext6_fits (c : extcomm6) : Prop :=
  match c with
  | Ip6 a => admin_fits (2 ^ 128) (2 ^ 16) ip6_numbers a
  | NIp6 st g l => octet st /\ g < 2 ^ 128 /\ l < 2 ^ 16
  | Unknown6 code st v => octet code /\ code <> 0 /\ code <> 64 /\ octet st /\ octets 18 v
  end.
(* RFC 6514: the source AS communities *)
Definition source_as (c : extcomm) : Prop :=
  match c with
  | TwoOctet (Assigned T2SourceAs _ _) | Four (Assigned T4SourceAs _ _) => True
  | _ => False
  end.

(* [b] as it goes on the wire has its reserved bits clear *)
Definition reserved_clear (b : list N) : Prop :=
  match b with
  | 3 :: 9 :: f :: r :: _ => (f = 0 \/ f = 128) /\ r = 0            (* unreachable prefix announcement *)
  | 3 :: 13 :: v => v = [0; 0; 0; 0; 0; 0]                           (* default gateway *)
  | 6 :: 0 :: _ :: r :: _ => r = 0                                   (* MAC mobility *)
  | 6 :: 1 :: _ :: r :: s :: _ => r = 0 /\ s = 0                     (* ESI label *)
  | 6 :: 4 :: _ :: _ :: _ :: _ :: r :: s :: _ => r = 0 /\ s = 0      (* L2 attributes *)
  | _ => True
  end.
(* source AS on the wire *)
Definition source_as_octets (b : list N) : Prop :=
  match b with 0 :: 9 :: _ | 2 :: 9 :: _ => True | _ => False end.

(* RFC 4360, section 2: bit 1 of the type octet is clear for a community that
   is transitive across ASes; bit 0 is the IANA authority bit *)
Definition transitive_on_wire (b : list N) : bool := negb (N.testbit (hd 0 b) 6).
Definition authority_on_wire (b : list N) : bool := N.testbit (hd 0 b) 7.
(* the registered type and sub-type of the communities that have a name *)
Definition registered (c : extcomm) : option (N * N) :=
  match c with
  | TwoOctet (Assigned k _ _) =>
      Some (0, match k with T2RouteTarget => 2 | T2RouteOrigin => 3 | T2OspfDomain => 5 | T2DataCollection => 8 | T2SourceAs => 9
                          | T2L2Vpn => 10 | T2CiscoVpn => 16 | T2RtRecord => 19 | T2RtDerived => 21 | T2Vni => 128 end)
  | NTwoOctet (Assigned k _ _) => Some (64, match k with N2LinkBandwidth => 4 | N2Vni => 128 end)
  | Ip4 (Assigned k _ _) =>
      Some (1, match k with I4RouteTarget => 2 | I4RouteOrigin => 3 | I4Ifit => 4 | I4OspfDomain => 5 | I4OspfRouteId => 8
                          | I4NodeTarget => 9 | I4L2Vpn => 10 | I4VrfImport => 11 | I4Redirect => 12 | I4CiscoVpn => 16 | I4P2mp => 18
                          | I4RtRecord => 19 | I4VrfNextHop => 20 | I4RtDerived => 21 | I4MvpnRp => 128 end)
  | Four (Assigned k _ _) =>
      Some (2, match k with T4RouteTarget => 2 | T4RouteOrigin => 3 | T4OspfDomain => 5 | T4DataCollection => 8 | T4SourceAs => 9
                          | T4CiscoVpn => 16 | T4RtRecord => 19 | T4RtDerived => 21 end)
  | Opaque (Upa _ _) => Some (3, 9)
  | Opaque DefaultGateway => Some (3, 13)
  | Evpn (MacMobility _ _) => Some (6, 0) | Evpn (EsiLabel _ _) => Some (6, 1) | Evpn (EsImport _) => Some (6, 2)
  | Evpn (RoutersMac _) => Some (6, 3) | Evpn (L2Attribute _ _) => Some (6, 4)
  | _ => None
  end.
