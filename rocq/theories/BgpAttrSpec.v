(* Which path attributes the wire format can carry, stated from RFC 4271
   (section 4.3 and 5) and the RFC of each attribute, not from the codec. *)
From Verif Require Import Base AfModel BgpNlriModel BgpNlriSpec BgpAttrModel.

(* RFC 4271, section 5: the four kinds of attribute. The partial bit can be
   set only on optional transitive attributes; RFC 9234 excludes it for OTC. *)
Inductive category : Type :=
| WellKnown | OptionalTransitive | OptionalTransitiveComplete | OptionalNonTransitive | Unrecognised.
Definition category_of (v : attr_value) : category :=
  match v with
  | AOrigin _ | AAsPath _ _ | ANextHop _ | ALocalPref _ | AAtomicAggregate => WellKnown
  | AAs4Path _ | AAggregator _ _ _ | ACommunities _ | AExtComm _ | AExtComm6 _ | ALargeComm _
  | APrefixSid _ => OptionalTransitive
  | AOtc _ => OptionalTransitiveComplete
  | AMed _ | AOriginator _ | AClusterList _ | AMpReach _ | AMpUnreach _ | ABgpLs _ | AAigp _ =>
      OptionalNonTransitive
  | AUnknown _ _ => Unrecognised
  end.
Definition flags_conform (c : category) (opt trans part : bool) : Prop :=
  match c with
  | WellKnown => opt = false /\ trans = true /\ part = false
  | OptionalTransitive => opt = true /\ trans = true
  | OptionalTransitiveComplete => opt = true /\ trans = true /\ part = false
  | OptionalNonTransitive => opt = true /\ trans = false /\ part = false
  | Unrecognised => True
  end.

Definition u64 (v : N) : Prop := v < 18446744073709551616.
Definition asn_fits (four : bool) (a : N) : Prop := if four then u32 a else u16 a.
(* a segment has a type of RFC 4271 (set, sequence) and between 1 and 255 AS numbers *)
Definition segment_fits (four : bool) (s : segment) : Prop :=
  1 <= fst s <= 2 /\ 1 <= blen (snd s) <= 255 /\ Forall (asn_fits four) (snd s).
(* the next hop forms of each family (RFC 4760, 2545, 4364, 7432, 4684) *)
Definition nexthop_fits (k : nh_kind) (nh : nexthop) : Prop :=
  match k, nh with
  | NhkEither, NhIp (V4 o) None => octets 4 o
  | NhkEither, NhIp (V6 o) l => octets 16 o /\ match l with None => True | Some x => octets 16 x end
  | NhkV6, NhIp (V6 o) l => octets 16 o /\ match l with None => True | Some x => octets 16 x end
  | NhkLabeled, NhLabeled r a => rd_fits r /\ ip_fits a
  | NhkPlain, NhIp a None => ip_fits a
  | _, _ => False
  end.
Definition nlris_fit (labels : label_limits) (ap : add_paths) (t : addr_type) (xs : list nlri) : Prop :=
  Forall (nlri_fits t (add_path_of ap t) (limit_of labels t)) xs /\ keeps_path_id t (add_path_of ap t).
(* an AFI/SAFI pair without a reader of its own *)
Definition unread_family (afi safi : N) : Prop :=
  afi_ok afi = true /\ safi_ok safi = true /\ safi < 256 /\ afi < 65536 /\
  match from_afi_safi afi safi with Some t => nh_kind_of t = None | None => True end.
(* codes with a value type of their own *)
Definition typed_codes : list N := [1; 2; 3; 4; 5; 6; 7; 8; 9; 10; 14; 15; 16; 17; 25; 26; 29; 32; 35; 40].

(* [value_fits asn4 labels ap v]: v is a value two speakers that negotiated
   the AS number width, label counts and ADD-PATH families can exchange. *)
Definition value_fits (asn4 : bool) (labels : label_limits) (ap : add_paths) (v : attr_value) : Prop :=
  match v with
  | AOrigin o => o <= 2
  | AAsPath four ss => four = asn4 /\ Forall (segment_fits asn4) ss
  | AAs4Path ss => Forall (segment_fits true) ss
  | ANextHop i | AMed i | ALocalPref i | AOriginator i | AOtc i => u32 i
  | AAtomicAggregate => True
  | AAggregator four a o => four = asn4 /\ asn_fits asn4 a /\ u32 o
  | ACommunities cs | AClusterList cs => Forall u32 cs
  | AExtComm cs => Forall (octets 8) cs
  | AExtComm6 cs => Forall (octets 20) cs
  | ALargeComm cs => Forall (fun c => u32 (fst (fst c)) /\ u32 (snd (fst c)) /\ u32 (snd c)) cs
  | AMpReach (MrKnown t nh xs) =>
      modelled_family t = true /\
      (exists k, nh_kind_of t = Some k /\ nexthop_fits k nh) /\ nlris_fit labels ap t xs
  | AMpReach (MrOpaque t nh _) =>
      modelled_family t = false /\
      (exists k, nh_kind_of t = Some k /\ nexthop_fits k nh) /\
      (* written with a zero distinguisher *)
      (t = BgpLsVpn -> exists a, nh = NhLabeled (RdAs2 0 0) a)
  | AMpReach (MrUnknown afi safi _) => unread_family afi safi
  | AMpUnreach (MuKnown t xs) =>
      modelled_family t = true /\ (exists k, nh_kind_of t = Some k) /\ nlris_fit labels ap t xs
  | AMpUnreach (MuOpaque t _) => modelled_family t = false /\ exists k, nh_kind_of t = Some k
  | AMpUnreach (MuUnknown afi safi _) => unread_family afi safi
  | AAigp m => u64 m
  | ABgpLs _ | APrefixSid _ => True
  | AUnknown c _ => c < 256 /\ ~ In c typed_codes
  end.
(* the MP_REACH_NLRI of an unread family: see C14_mp_reach_unknown_refuted *)
Definition not_unread_reach (v : attr_value) : Prop :=
  match v with AMpReach (MrUnknown _ _ _) => False | _ => True end.
(* the value fits the length field chosen by the extended-length flag *)
Definition length_fits (a : pattr) : Prop :=
  if pa_ext a then value_len (pa_val a) < 65536 else value_len (pa_val a) < 256.
Definition attr_fits (asn4 : bool) (labels : label_limits) (ap : add_paths) (a : pattr) : Prop :=
  flags_conform (category_of (pa_val a)) (pa_opt a) (pa_trans a) (pa_partial a) /\
  value_fits asn4 labels ap (pa_val a) /\ length_fits a.
