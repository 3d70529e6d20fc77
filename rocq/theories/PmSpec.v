(* What the pmacct records of a BMP message should say, from RFC 4271, 4364,
   4724, 4760, 6793, 7854, 8277 and 8671. Nothing here uses the converter. *)
From Verif Require Import Base AfModel BgpNlriModel BgpAttrModel BgpMsgModel BmpModel PmModel.
From Verif Require NcModel EcModel.
Local Notation dec := NcModel.dec.

(* ---- routes ---- *)
(* what a record says about one route *)
Record fact : Type := mkFact {
  f_log : log_type; f_afi : N; f_safi : N; f_prefix : net; f_rd : option (rd * rd_origin);
  f_nexthop : option ipaddr; f_path_id : option N; f_label : option N }.
(* RFC 3032: the label is the upper 20 bits of a stack entry's first three
   octets *)
Definition label_of (l : BgpNlriModel.label) : N :=
  match l with [a; b; c] => (a * 65536 + b * 256 + c) / 16 | _ => 0 end.
Definition first_label (ls : list BgpNlriModel.label) : option N :=
  match ls with [] => None | l :: _ => Some (label_of l) end.
(* the families whose routes are prefixes *)
Definition prefix_family (t : addr_type) : Prop :=
  In t [Ipv4Unicast; Ipv4Multicast; Ipv6Unicast; Ipv6Multicast; Ipv4NlriMplsLabels; Ipv6NlriMplsLabels;
        Ipv4MplsLabeledVpn; Ipv6MplsLabeledVpn].
(* a route of such a family: plain, with labels, or with labels and a
   distinguisher; a label has three octets *)
Definition label_shape (l : BgpNlriModel.label) : Prop :=
  exists a b c, l = [a; b; c] /\ a < 256 /\ b < 256 /\ c < 256.
Definition route_shape (t : addr_type) (x : nlri) : Prop :=
  match x with
  | NPlain _ _ => In t [Ipv4Unicast; Ipv4Multicast; Ipv6Unicast; Ipv6Multicast]
  | NLabelled _ ls _ => In t [Ipv4NlriMplsLabels; Ipv6NlriMplsLabels] /\ Forall label_shape ls
  | NVpn _ _ ls _ => In t [Ipv4MplsLabeledVpn; Ipv6MplsLabeledVpn] /\ Forall label_shape ls
  | _ => False
  end.
(* the fact an MP_REACH or MP_UNREACH route states: a VPN route has its own
   distinguisher, another has that of the monitored peer *)
Definition with_origin (o : rd_origin) (r : option rd) : option (rd * rd_origin) := option_map (fun d => (d, o)) r.
Definition mp_fact (peer_rd : option rd) (log : log_type) (t : addr_type) (nh : option ipaddr) (x : nlri) : list fact :=
  match x with
  | NPlain pid n => [mkFact log (at_afi t) (at_safi t) n (with_origin OBmp peer_rd) nh pid None]
  | NLabelled pid ls n => [mkFact log (at_afi t) (at_safi t) n (with_origin OBmp peer_rd) nh pid (first_label ls)]
  | NVpn pid d ls n => [mkFact log (at_afi t) (at_safi t) n (Some (d, OBgp)) nh pid (first_label ls)]
  | _ => []
  end.
Definition body_fact (peer_rd : option rd) (log : log_type) (nh : option ipaddr) (x : route) : fact :=
  mkFact log 1 1 (snd x) (with_origin OBmp peer_rd) nh (fst x) None.
Definition hop_addr (nh : nexthop) : ipaddr := match nh with NhIp a _ | NhLabeled _ a => a end.
Definition reach_facts (peer_rd : option rd) (v : attr_value) : list fact :=
  match v with
  | AMpReach (MrKnown t nh xs) => flat_map (mp_fact peer_rd LUpdate t (Some (hop_addr nh))) xs
  | _ => []
  end.
Definition unreach_facts (peer_rd : option rd) (v : attr_value) : list fact :=
  match v with
  | AMpUnreach (MuKnown t xs) => flat_map (mp_fact peer_rd LWithdraw t None) xs
  | _ => []
  end.
Definition values (u : update_msg) : list attr_value := map pa_val (u_attrs u).
(* all routes of an UPDATE: withdrawn, announced, MP_REACH, MP_UNREACH; [nh]
   is its NEXT_HOP *)
Definition routes_of (peer_rd : option rd) (nh : option ipaddr) (u : update_msg) : list fact :=
  map (body_fact peer_rd LWithdraw None) (u_withdrawn u) ++
  map (body_fact peer_rd LUpdate nh) (u_nlri u) ++
  flat_map (reach_facts peer_rd) (values u) ++ flat_map (unreach_facts peer_rd) (values u).
(* RFC 4271 and 5701 type codes *)
Definition code_of (v : attr_value) : N :=
  match v with
  | AOrigin _ => 1 | AAsPath _ _ => 2 | ANextHop _ => 3 | AMed _ => 4 | ALocalPref _ => 5
  | AAtomicAggregate => 6 | AAggregator _ _ _ => 7 | ACommunities _ => 8 | AOriginator _ => 9
  | AClusterList _ => 10 | AMpReach _ => 14 | AMpUnreach _ => 15 | AExtComm _ => 16 | AAs4Path _ => 17
  | AExtComm6 _ => 25 | AAigp _ => 26 | ABgpLs _ => 29 | ALargeComm _ => 32 | AOtc _ => 35
  | APrefixSid _ => 40 | AUnknown code _ => code
  end.
(* no attribute with this code / exactly one, v *)
Definition absent (c : N) (u : update_msg) : Prop := Forall (fun v => code_of v <> c) (values u).
Definition sole (v : attr_value) (u : update_msg) : Prop :=
  exists a b, values u = a ++ v :: b /\ Forall (fun w => code_of w <> code_of v) (a ++ b).
(* the update's NEXT_HOP *)
Definition next_hop_is (u : update_msg) (nh : option ipaddr) : Prop :=
  (absent 3 u /\ nh = None) \/ exists ip, sole (ANextHop ip) u /\ nh = Some (V4 (be_enc 4 ip)).
(* MP_REACH and MP_UNREACH occur at most once (RFC 7606, 3 g) and carry
   prefixes *)
Definition prefix_update (u : update_msg) : Prop :=
  (absent 14 u \/ exists m, sole (AMpReach m) u) /\ (absent 15 u \/ exists m, sole (AMpUnreach m) u) /\
  Forall (fun v => match v with
                   | AMpReach (MrKnown t _ xs) | AMpUnreach (MuKnown t xs) =>
                       prefix_family t /\ Forall (route_shape t) xs
                   | AMpReach _ | AMpUnreach _ => False
                   | _ => True
                   end) (values u).
(* an address in dotted notation: its octets, most significant first *)
Definition dotted (ip : N) : list N :=
  dec (ip / 256 / 256 / 256) ++ 46 :: dec ((ip / 256 / 256) mod 256) ++ 46 :: dec ((ip / 256) mod 256) ++ 46 :: dec (ip mod 256).
(* a record states a fact *)
Definition rd_notation (r : rd) : list N :=
  match r with
  | RdAs2 a n => 48 :: 58 :: dec a ++ 58 :: dec n
  | RdIp ip n => 49 :: 58 :: dotted ip ++ 58 :: dec n
  | RdAs4 a n => 50 :: 58 :: dec a ++ 58 :: dec n
  | RdLeaf => [51; 58; 108; 101; 97; 102; 45; 65; 45; 68; 45; 114; 111; 117; 116; 101]
  end.
Definition states (m : pm_msg) (f : fact) : Prop :=
  match m with
  | PRoute r =>
      rr_log r = f_log f /\ rr_afi r = f_afi f /\ rr_safi r = f_safi f /\ rr_prefix r = Some (f_prefix f) /\
      rr_rd r = option_map (fun p => rd_notation (fst p)) (f_rd f) /\
      rr_rd_origin r = option_map snd (f_rd f) /\ rr_nexthop r = f_nexthop f /\
      rr_path_id r = f_path_id f /\ rr_label r = option_map dec (f_label f)
  | _ => False
  end.

(* ---- the monitored peer ---- *)
(* a record with per-peer fields carries those of the header *)
Definition peer_part (m : pm_msg) : option (peer_fields * env) :=
  match m with
  | PRoute r => Some (rr_peer r, rr_env r) | PStat r => Some (sr_peer r, sr_env r)
  | PUp r => Some (ur_peer r, ur_env r) | PDown r => Some (dr_peer r, dr_env r)
  | PInit _ | PTerm _ => None
  end.
Definition env_part (m : pm_msg) : env :=
  match m with
  | PRoute r => rr_env r | PStat r => sr_env r | PUp r => ur_env r | PDown r => dr_env r
  | PInit r => ir_env r | PTerm r => tr_env r
  end.
Definition header_of (m : bmp_msg) : option peer_header :=
  match m with
  | V3Monitoring h _ | V4Monitoring h _ _ | V3Down h _ | V4Down h _ _ => Some h
  | V3Common (CStats h _) | V4Common (CStats h _) | V3Common (CMirror h _) | V4Common (CMirror h _) => Some h
  | V3Common (CUp p) | V4Common (CUp p) => Some (pu_hdr p)
  | _ => None
  end.
(* RFC 7854 section 4.2, RFC 8671 section 4, RFC 9069 section 4.2: the RIB a
   peer type octet and a flags octet name. Bits of the flags octet: V 128,
   L 64 (post-policy), A 32, O 16 (Adj-RIB-Out); F 128 for a Loc-RIB peer. *)
Definition rib_named (type flags : N) : rib :=
  if type =? 3 then mkRib LocRib (if N.testbit flags 7 then 1 else 0) None (Some 1) None None
  else if type <? 3 then
    mkRib (if N.testbit flags 4 then (if N.testbit flags 6 then AdjRibOutPost else AdjRibOutPre)
           else (if N.testbit flags 6 then AdjRibInPost else AdjRibInPre))
          0
          (if N.testbit flags 4 then None else Some 1) None
          (if N.testbit flags 6 then Some 1 else None)
          (if N.testbit flags 4 then Some 1 else None)
  else mkRib RibUnknown 0 None None None None.

(* ---- End-of-RIB, RFC 4724 section 2 ---- *)
Definition nothing_announced (u : update_msg) : Prop := u_nlri u = [] /\ u_withdrawn u = [].
Definition empty_unreach (v : attr_value) (afi safi : N) : Prop :=
  match v with
  | AMpUnreach (MuKnown t []) | AMpUnreach (MuOpaque t []) => afi = at_afi t /\ safi = at_safi t
  | AMpUnreach (MuUnknown a s []) => afi = a /\ safi = s
  | _ => False
  end.
(* the marker for IPv4 unicast is the UPDATE of minimum length, that of
   another family an UPDATE with nothing but an empty MP_UNREACH *)
Definition end_of_rib_marker (u : update_msg) (afi safi : N) : Prop :=
  nothing_announced u /\
  ((afi = 1 /\ safi = 1 /\ u_attrs u = []) \/ exists v, values u = [v] /\ empty_unreach v afi safi).
(* an UPDATE that says something about a route *)
Definition has_routes (u : update_msg) : Prop :=
  u_nlri u <> [] \/ u_withdrawn u <> [] \/
  Exists (fun v => match v with
                   | AMpReach (MrKnown _ _ xs) | AMpUnreach (MuKnown _ xs) => xs <> []
                   | AMpReach (MrOpaque _ _ v) | AMpReach (MrUnknown _ _ v)
                   | AMpUnreach (MuOpaque _ v) | AMpUnreach (MuUnknown _ _ v) => v <> []
                   | _ => False
                   end) (values u).

(* ---- AS paths, RFC 6793 section 4.2.3 ---- *)
Inductive hop : Type := As (n : N) | AsSet (l : list N).
(* a path as the hops that count: each AS of a sequence, each set *)
Definition segment_hops (s : segment) : list hop :=
  if fst s =? 1 then [AsSet (snd s)] else map As (snd s).
Definition hops (ss : list segment) : list hop := flat_map segment_hops ss.
(* what a two-octet speaker sees of a four-octet AS: AS_TRANS if it does not fit *)
Definition as_trans (n : N) : N := if n <? 65536 then n else 23456.
Definition old_view (h : hop) : hop := match h with As n => As (as_trans n) | AsSet l => AsSet (map as_trans l) end.
Definition spaced (l : list (list N)) : list N :=
  match l with [] => [] | x :: r => x ++ flat_map (fun y => 32 :: y) r end.
Definition hop_text (h : hop) : list N :=
  match h with As n => dec n | AsSet l => [123] ++ spaced (map dec l) ++ [125] end.
Definition path_text (l : list hop) : list N := spaced (map hop_text l).

(* ---- statistics ---- *)
Definition counted (s : stat) : option N := match snd s with S32 v | S64 v | SAf _ v => Some v | SRaw _ => None end.
Definition family_counted (s : stat) : option addr_type := match snd s with SAf t _ => Some t | _ => None end.
Definition as_stat (m : pm_msg) : option (N * N * option N * option N) :=
  match m with PStat r => Some (sr_type r, sr_value r, sr_afi r, sr_safi r) | _ => None end.
Definition i64_range (v : N) : Prop := v < 2 ^ 63.

(* ---- information ---- *)
(* the TLVs of one type, in order *)
Definition infos_of (code : N) (l : list info) : list (list N) :=
  map snd (filter (fun i => fst i =? code) l).
Definition last_of {A} (l : list A) : option A := match rev l with [] => None | x :: _ => Some x end.

(* the other items, as texts one after the other *)
Definition others_of (codes : list N) (l : list info) : list info :=
  filter (fun i => negb (existsb (N.eqb (fst i)) codes)) l.
Definition if_any (l : list (list N)) : option (list N) := match l with [] => None | _ => Some (spaced l) end.
Definition term_strings (l : list term_info) : list (list N) :=
  flat_map (fun i => match i with TiString v => [v] | _ => [] end) l.
Definition term_reasons (l : list term_info) : list N :=
  flat_map (fun i => match i with TiReason c => [c] | _ => [] end) l.
(* RFC 7854, 4.9 and RFC 9069, 5.3: the reason of a Peer Down; 251-254 are for
   experiments *)
Definition down_named (d : down_reason) (code : N) : Prop :=
  match d with
  | DLocalPdu _ => code = 1 | DLocalFsm _ => code = 2 | DRemotePdu _ => code = 3 | DRemoteNoData => code = 4
  | DDeConfigured => code = 5 | DLocalTlv _ => code = 6
  | DExp X1 _ => code = 251 | DExp X2 _ => code = 252 | DExp X3 _ => code = 253 | DExp X4 _ => code = 254
  end.

(* ---- time: the number a decimal text "a.b" names, in units of 10^-k s ---- *)
Definition reads_as (t : list N) (secs micros : N) : Prop :=
  exists frac, t = dec secs ++ 46 :: frac /\ length frac = 6%nat /\ forallb NcModel.digit frac = true /\
  NcModel.dec_val frac = micros.

(* ---- messages ---- *)
Definition monitors (m : bmp_msg) (h : peer_header) (u : update_msg) : Prop :=
  m = V3Monitoring h (MUpdate u) \/ exists l, m = V4Monitoring h (MUpdate u) l.
Definition reports (m : bmp_msg) (h : peer_header) (l : list stat) : Prop :=
  m = V3Common (CStats h l) \/ m = V4Common (CStats h l).
(* what a record shows of a path attribute; an AIGP metric fits if it is below
   2^63 *)
Definition attr_shown (ext_text : list N -> list N) (label_index : list N -> option N) (a : attr_fields) (v : attr_value) : Prop :=
  match v with
  | AOrigin o => af_origin a = Some o
  | AMed x => af_med a = Some x
  | ALocalPref x => af_local_pref a = Some x
  | ACommunities cs => af_comms a = Some (spaced (map EcModel.show_community cs))
  | AExtComm cs => af_ecomms a = Some (spaced (map ext_text cs))
  | ALargeComm cs =>
      af_lcomms a = Some (spaced (map (fun x => match x with (p, q, r) => dec p ++ 58 :: dec q ++ 58 :: dec r end) cs))
  | AOtc x => af_otc a = Some x
  | AAigp x => x < 2 ^ 63 -> af_aigp a = Some x
  | APrefixSid x => af_psid a = label_index x
  | _ => True
  end.
Definition attr_missing (a : attr_fields) (code : N) : Prop :=
  (code = 1 -> af_origin a = None) /\ (code = 4 -> af_med a = None) /\ (code = 5 -> af_local_pref a = None) /\
  (code = 8 -> af_comms a = None) /\ (code = 16 -> af_ecomms a = None) /\ (code = 32 -> af_lcomms a = None) /\
  (code = 35 -> af_otc a = None) /\ (code = 26 -> af_aigp a = None) /\ (code = 40 -> af_psid a = None).
(* the message types the collector converts *)
Definition convertible (m : bmp_msg) : Prop :=
  match m with
  | V3Common (CMirror _ _) | V4Common (CMirror _ _) | V3Common (CExp _ _) | V4Common (CExp _ _) => False
  | _ => True
  end.
