(* Which BGP-LS and PREFIX_SID values the wire formats can carry, from
   RFC 7752 (sections 3.2 and 3.3), RFC 9086, RFC 8669 and RFC 9252: the range
   of each field, the assigned type codes and the size of each value. None of
   it uses the codec's own tables or length functions. *)
From Verif Require Import Base AfModel BgpNlriModel BgpNlriSpec BgpAttrSpec LsModel.

Definition octet (v : N) : Prop := v < 256.
Definition u128 (v : N) : Prop := v < 2 ^ 128.
Definition total {A} (f : A -> N) (xs : list A) : N := fold_right N.add 0 (map f xs).

(* ---------------- BGP-LS attribute ---------------- *)
(* attribute TLV codes with a meaning of their own *)
Definition assigned_attribute_codes : list N :=
  [263; 1024; 1025; 1026; 1027; 1028; 1029; 1030; 1031; 1088; 1089; 1090; 1091; 1092; 1093; 1094;
   1095; 1096; 1097; 1098; 1101; 1102; 1103; 1152; 1153; 1154; 1155; 1156; 1157].
(* octets of the value field *)
Definition value_octets (v : ls_value) : N :=
  match v with
  | LsNum (LocalV6 | RemoteV6) _ => 16
  | LsNum _ _ => 4
  | LsRaw _ b | LsText _ b | LsUnknown _ b => blen b
  | LsPeerSid _ (SidLabel _ _ _) => 7
  | LsPeerSid _ (SidIndex _ _ _) => 8
  | LsUnreserved _ => 32
  | LsProtection _ _ _ _ _ _ => 2
  | LsMask _ _ | LsIgpFlags _ _ _ _ | LsNodeFlags _ _ _ _ _ _ => 1
  | LsSrlg vs | LsRouteTag vs => 4 * blen vs
  | LsExtRouteTag vs => 8 * blen vs
  | LsForwarding (V4 _) => 4
  | LsForwarding (V6 _) => 16
  | LsMtid vs => 2 * blen vs
  end.
(* the fields are in range *)
Definition value_in_range (v : ls_value) : Prop :=
  match v with
  | LsNum (LocalV6 | RemoteV6) n => u128 n
  | LsNum _ n => u32 n
  | LsRaw _ b => bytes_ok b = true
  | LsText _ b => bytes_ok b = true /\ utf8_ok b = true
  (* RFC 9086, section 5: a label with the V flag, an index without it *)
  | LsPeerSid _ (SidLabel f w l) => octet f /\ octet w /\ octets 3 l /\ N.testbit f 7 = true
  | LsPeerSid _ (SidIndex f w i) => octet f /\ octet w /\ u32 i /\ N.testbit f 7 = false
  | LsUnreserved vs => blen vs = 8 /\ Forall u32 vs
  | LsProtection _ _ _ _ _ _ | LsMask _ _ | LsIgpFlags _ _ _ _ | LsNodeFlags _ _ _ _ _ _ => True
  | LsSrlg vs | LsRouteTag vs => Forall u32 vs
  | LsExtRouteTag vs => Forall u64 vs
  | LsForwarding a => ip_fits a
  (* twelve-bit topology identifiers *)
  | LsMtid vs => Forall (fun i => i < 4096) vs
  | LsUnknown c b => 256 <= c < 65536 /\ ~ In c assigned_attribute_codes /\ bytes_ok b = true
  end.
(* RFC 7752, section 3.3.1.3: at most 255 octets of node name *)
Definition name_fits (v : ls_value) : Prop :=
  match v with LsText NodeName b => blen b <= 255 | _ => True end.
(* type and length take four octets *)
Definition attr_octets (vs : list ls_value) : N := total (fun v => 4 + value_octets v) vs.
Definition fits_length (ext : bool) (n : N) : Prop := if ext then n < 65536 else n < 256.
Definition ls_attr_fits (ext : bool) (vs : list ls_value) : Prop :=
  Forall value_in_range vs /\ Forall name_fits vs /\ fits_length ext (attr_octets vs).
(* the kinds of value the codec does not carry faithfully *)
Definition is_protection (v : ls_value) : Prop :=
  match v with LsProtection _ _ _ _ _ _ => True | _ => False end.
Definition is_forwarding (v : ls_value) : Prop := match v with LsForwarding _ => True | _ => False end.
Definition has_tags (v : ls_value) : Prop :=
  match v with LsRouteTag vs => vs <> [] | LsExtRouteTag vs => vs <> [] | _ => False end.
Definition carried (v : ls_value) : Prop := ~ is_protection v /\ ~ is_forwarding v /\ ~ has_tags v.
(* a TLV as RFC 7752, section 3.1 draws it *)
Definition tlv_octets (code : N) (value : list N) : list N :=
  be_enc 2 code ++ be_enc 2 (blen value) ++ value.
(* the length field of a path attribute *)
Definition length_octets (ext : bool) (n : N) : list N := be_enc (if ext then 2 else 1) n.

(* ---------------- PREFIX_SID attribute ---------------- *)
Definition subsub_octets (s : subsub) : N :=
  3 + match s with SsStructure _ _ _ _ _ _ => 6 | SsUnknown _ v => blen v end.
Definition subtlv_octets (s : subtlv) : N :=
  3 + match s with
      | SubInfo _ _ _ _ _ ss => 21 + total subsub_octets ss
      | SubUnknown _ v => blen v
      end.
Definition sid_tlv_octets (s : sid_tlv) : N :=
  3 + match s with
      | SidLabelIndex _ _ => 7
      | SidOriginator _ bs => 2 + 6 * blen bs
      | SidL3 _ ss | SidL2 _ ss => 1 + total subtlv_octets ss
      | SidUnknown _ v => blen v
      end.
Definition subsub_fits (s : subsub) : Prop :=
  match s with
  | SsStructure a b c d e f => octet a /\ octet b /\ octet c /\ octet d /\ octet e /\ octet f
  | SsUnknown code v => 2 <= code <= 254 /\ bytes_ok v = true
  end.
Definition subtlv_fits (s : subtlv) : Prop :=
  match s with
  | SubInfo r1 sid f bh r2 ss =>
      octet r1 /\ u128 sid /\ octet f /\ u16 bh /\ octet r2 /\ Forall subsub_fits ss
  | SubUnknown code v => 2 <= code <= 254 /\ bytes_ok v = true
  end.
Definition sid_tlv_fits (s : sid_tlv) : Prop :=
  match s with
  | SidLabelIndex f i => u16 f /\ u32 i
  | SidOriginator f bs => u16 f /\ Forall (fun b => octets 3 (fst b) /\ octets 3 (snd b)) bs
  | SidL3 r1 ss | SidL2 r1 ss => octet r1 /\ Forall subtlv_fits ss
  (* 0 and 255 are reserved, 2 is deprecated *)
  | SidUnknown code v => 4 <= code <= 254 /\ code <> 5 /\ code <> 6 /\ bytes_ok v = true
  end.
Definition prefix_sid_fits (ext : bool) (ts : list sid_tlv) : Prop :=
  Forall sid_tlv_fits ts /\ fits_length ext (total sid_tlv_octets ts).

(* ---------------- BGP-LS NLRI ---------------- *)
Definition node_sub_octets (s : node_sub) : N :=
  4 + match s with NsNum _ _ => 4 | NsRouterId v | NsUnknown _ v => blen v end.
Definition link_desc_octets (d : link_desc) : N :=
  4 + match d with
      | LdIds _ _ => 8 | LdV4Interface _ | LdV4Neighbor _ => 4 | LdV6Interface _ | LdV6Neighbor _ => 16
      | LdMtid v => 2 * blen v | LdUnknown _ v => blen v
      end.
Definition prefix_desc_octets (d : prefix_desc) : N :=
  4 + match d with
      | PdMtid v => 2 * blen v | PdRouteType _ => 1
      | PdReach _ n => 1 + (snd n + 7) / 8 | PdUnknown _ v => blen v
      end.
Definition nlri_octets (x : ls_nlri) : N :=
  match x with
  | LnNode _ _ l => 13 + total node_sub_octets l
  | LnLink _ _ l m ds => 17 + total node_sub_octets l + total node_sub_octets m + total link_desc_octets ds
  | LnPrefix _ _ _ l ds => 13 + total node_sub_octets l + total prefix_desc_octets ds
  | LnUnknown _ v => blen v
  end.
Definition node_sub_fits (s : node_sub) : Prop :=
  match s with
  | NsNum _ v => u32 v
  | NsRouterId v => bytes_ok v = true
  | NsUnknown c v => 256 <= c < 65536 /\ ~ 512 <= c <= 517 /\ bytes_ok v = true
  end.
Definition link_desc_fits (d : link_desc) : Prop :=
  match d with
  | LdIds a b => u32 a /\ u32 b
  | LdV4Interface a | LdV4Neighbor a => u32 a
  | LdV6Interface a | LdV6Neighbor a => u128 a
  | LdMtid v => Forall (fun i => i < 4096) v
  | LdUnknown c v => 256 <= c < 65536 /\ ~ 258 <= c <= 263 /\ bytes_ok v = true
  end.
(* v6: the family of the NLRI the descriptor is in *)
Definition prefix_desc_in_range (v6 : bool) (d : prefix_desc) : Prop :=
  match d with
  | PdMtid v => Forall (fun i => i < 4096) v
  | PdRouteType t => 1 <= t <= 6
  | PdReach f n => f = v6 /\ net_wf (if v6 then 16 else 4) n
  | PdUnknown c v => 256 <= c < 65536 /\ ~ 263 <= c <= 265 /\ bytes_ok v = true
  end.
Definition ls_nlri_in_range (x : ls_nlri) : Prop :=
  match x with
  | LnNode p i l => 1 <= p <= 9 /\ u64 i /\ Forall node_sub_fits l
  | LnLink p i l m ds =>
      1 <= p <= 9 /\ u64 i /\ Forall node_sub_fits l /\ Forall node_sub_fits m /\ Forall link_desc_fits ds
  | LnPrefix v6 p i l ds =>
      1 <= p <= 9 /\ u64 i /\ Forall node_sub_fits l /\ Forall (prefix_desc_in_range v6) ds
  | LnUnknown c v => (c = 5 \/ c = 6) /\ bytes_ok v = true
  end.
(* no prefix has a bit set after its length *)
Definition prefix_desc_clean (d : prefix_desc) : Prop :=
  match d with PdReach _ n => no_host_bits n | _ => True end.
Definition nlri_clean (x : ls_nlri) : Prop :=
  match x with LnPrefix _ _ _ _ ds => Forall prefix_desc_clean ds | _ => True end.
Definition ls_nlri_fits (x : ls_nlri) : Prop := ls_nlri_in_range x /\ nlri_clean x.
(* the whole element, path identifier and header included, is shorter than
   2^16 octets; [extra] is 8 for the VPN family's distinguisher *)
Definition nlri_size_fits (extra : N) (x : ls_nlri) : Prop := 8 + extra + nlri_octets x < 65536.

(* ---------------- the layouts ---------------- *)
(* the type code registered for each value *)
Definition attribute_code (v : ls_value) : N :=
  match v with
  | LsMtid _ => 263 | LsNodeFlags _ _ _ _ _ _ => 1024 | LsRaw OpaqueNode _ => 1025
  | LsText NodeName _ => 1026 | LsRaw IsIsArea _ => 1027 | LsNum LocalV4 _ => 1028
  | LsNum LocalV6 _ => 1029 | LsNum RemoteV4 _ => 1030 | LsNum RemoteV6 _ => 1031
  | LsNum Color _ => 1088 | LsNum MaxBandwidth _ => 1089 | LsNum MaxReservable _ => 1090
  | LsUnreserved _ => 1091 | LsNum TeMetric _ => 1092 | LsProtection _ _ _ _ _ _ => 1093
  | LsMask _ _ => 1094 | LsRaw IgpMetric _ => 1095 | LsSrlg _ => 1096 | LsRaw OpaqueLink _ => 1097
  | LsText LinkName _ => 1098 | LsPeerSid PeerNode _ => 1101 | LsPeerSid PeerAdj _ => 1102
  | LsPeerSid PeerSet _ => 1103 | LsIgpFlags _ _ _ _ => 1152 | LsRouteTag _ => 1153
  | LsExtRouteTag _ => 1154 | LsNum PrefixMetric _ => 1155 | LsForwarding _ => 1156
  | LsRaw OpaquePrefix _ => 1157 | LsUnknown c _ => c
  end.
(* an octet of flags, most significant bit first *)
Definition flag_octet (fs : list bool) : N :=
  fst (fold_left (fun (a : N * N) (f : bool) => (fst a + (if f then snd a else 0), snd a / 2)) fs (0, 128)).
Definition value_wire (v : ls_value) : list N :=
  match v with
  | LsNum (LocalV6 | RemoteV6) n => be_enc 16 n
  | LsNum _ n => be_enc 4 n
  | LsRaw _ b | LsText _ b | LsUnknown _ b => b
  | LsPeerSid _ (SidLabel f w l) => f :: w :: 0 :: 0 :: l
  | LsPeerSid _ (SidIndex f w i) => f :: w :: 0 :: 0 :: be_enc 4 i
  | LsUnreserved vs | LsSrlg vs | LsRouteTag vs => flat_map (be_enc 4) vs
  | LsExtRouteTag vs => flat_map (be_enc 8) vs
  | LsProtection extra unprotected shared d1c1 d1p1 enhanced =>
      [flag_octet [false; false; enhanced; d1p1; d1c1; shared; unprotected; extra]; 0]
  | LsMask l r => [flag_octet [l; r]]
  | LsIgpFlags d n l p => [flag_octet [d; n; l; p]]
  | LsNodeFlags o t e b r v6 => [flag_octet [o; t; e; b; r; v6]]
  | LsForwarding a => ip_octets a
  | LsMtid vs => flat_map (be_enc 2) vs
  end.
Definition attr_wire (ext : bool) (vs : list ls_value) : list N :=
  length_octets ext (attr_octets vs) ++ flat_map (fun v => tlv_octets (attribute_code v) (value_wire v)) vs.

(* one-octet type, two-octet length *)
Definition tlv8_octets (code : N) (value : list N) : list N := code :: be_enc 2 (blen value) ++ value.
Definition subsub_wire (s : subsub) : list N :=
  match s with
  | SsStructure lb ln f a tl t => tlv8_octets 1 [lb; ln; f; a; tl; t]
  | SsUnknown c v => tlv8_octets c v
  end.
Definition subtlv_wire (s : subtlv) : list N :=
  match s with
  | SubInfo r1 sid f bh r2 ss =>
      tlv8_octets 1 ([r1] ++ be_enc 16 sid ++ [f] ++ be_enc 2 bh ++ [r2] ++ flat_map subsub_wire ss)
  | SubUnknown c v => tlv8_octets c v
  end.
Definition sid_tlv_wire (s : sid_tlv) : list N :=
  match s with
  | SidLabelIndex f i => tlv8_octets 1 ([0] ++ be_enc 2 f ++ be_enc 4 i)
  | SidOriginator f bs => tlv8_octets 3 (be_enc 2 f ++ flat_map (fun b => fst b ++ snd b) bs)
  | SidL3 r1 ss => tlv8_octets 5 ([r1] ++ flat_map subtlv_wire ss)
  | SidL2 r1 ss => tlv8_octets 6 ([r1] ++ flat_map subtlv_wire ss)
  | SidUnknown c v => tlv8_octets c v
  end.
Definition prefix_sid_wire (ext : bool) (ts : list sid_tlv) : list N :=
  length_octets ext (total sid_tlv_octets ts) ++ flat_map sid_tlv_wire ts.

Definition node_sub_wire (s : node_sub) : list N :=
  match s with
  | NsNum NodeAs v => tlv_octets 512 (be_enc 4 v)
  | NsNum NodeLsId v => tlv_octets 513 (be_enc 4 v)
  | NsNum NodeArea v => tlv_octets 514 (be_enc 4 v)
  | NsRouterId v => tlv_octets 515 v
  | NsNum NodeBgpId v => tlv_octets 516 (be_enc 4 v)
  | NsNum NodeMember v => tlv_octets 517 (be_enc 4 v)
  | NsUnknown c v => tlv_octets c v
  end.
Definition link_desc_wire (d : link_desc) : list N :=
  match d with
  | LdIds a b => tlv_octets 258 (be_enc 4 a ++ be_enc 4 b)
  | LdV4Interface a => tlv_octets 259 (be_enc 4 a)
  | LdV4Neighbor a => tlv_octets 260 (be_enc 4 a)
  | LdV6Interface a => tlv_octets 261 (be_enc 16 a)
  | LdV6Neighbor a => tlv_octets 262 (be_enc 16 a)
  | LdMtid v => tlv_octets 263 (flat_map (be_enc 2) v)
  | LdUnknown c v => tlv_octets c v
  end.
Definition prefix_desc_wire (d : prefix_desc) : list N :=
  match d with
  | PdMtid v => tlv_octets 263 (flat_map (be_enc 2) v)
  | PdRouteType t => tlv_octets 264 [t]
  (* the prefix length and the octets it needs *)
  | PdReach _ n => tlv_octets 265 (snd n :: take ((snd n + 7) / 8) (fst n))
  | PdUnknown c v => tlv_octets c v
  end.
Definition nlri_value_wire (x : ls_nlri) : list N :=
  match x with
  | LnNode p i l => [p] ++ be_enc 8 i ++ tlv_octets 256 (flat_map node_sub_wire l)
  | LnLink p i l m ds =>
      [p] ++ be_enc 8 i ++ tlv_octets 256 (flat_map node_sub_wire l)
      ++ tlv_octets 257 (flat_map node_sub_wire m) ++ flat_map link_desc_wire ds
  | LnPrefix _ p i l ds =>
      [p] ++ be_enc 8 i ++ tlv_octets 256 (flat_map node_sub_wire l) ++ flat_map prefix_desc_wire ds
  | LnUnknown _ v => v
  end.
Definition nlri_type (x : ls_nlri) : N :=
  match x with
  | LnNode _ _ _ => 1 | LnLink _ _ _ _ _ => 2 | LnPrefix false _ _ _ _ => 3 | LnPrefix true _ _ _ _ => 4
  | LnUnknown c _ => c
  end.
Definition path_id_wire (pid : option N) : list N := match pid with Some i => be_enc 4 i | None => [] end.
(* RFC 4364, section 4.2 *)
Definition rd_wire (d : rd) : list N :=
  match d with
  | RdAs2 a n => be_enc 2 0 ++ be_enc 2 a ++ be_enc 4 n
  | RdIp i n => be_enc 2 1 ++ be_enc 4 i ++ be_enc 2 n
  | RdAs4 a n => be_enc 2 2 ++ be_enc 4 a ++ be_enc 2 n
  | RdLeaf => be_enc 2 65535 ++ be_enc 2 65535 ++ be_enc 4 4294967295
  end.
Definition ls_nlri_wire (x : option N * ls_nlri) : list N :=
  path_id_wire (fst x) ++ tlv_octets (nlri_type (snd x)) (nlri_value_wire (snd x)).
Definition ls_vpn_nlri_wire (x : option N * rd * ls_nlri) : list N :=
  path_id_wire (fst (fst x)) ++ tlv_octets (nlri_type (snd x)) (rd_wire (snd (fst x)) ++ nlri_value_wire (snd x)).
