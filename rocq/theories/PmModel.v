(* BMP messages as pmacct records: crates/collector/src/bmp/pmacct_schema.rs
   (525-1905) and bmp/config.rs:118-144; bgp-pkt/src/update.rs:87-176.
   Line numbers without a file are those of pmacct_schema.rs.
   Simplifications: an address, a prefix, a BGP identifier or an enum name
   stands for its text (Display); texts put together by this code (AS path,
   communities, distinguisher, label, times) are their characters. The text of
   an extended community, the label index of a PREFIX_SID value and the Debug
   text of an information TLV are parameters. The fields writer_id, event_type,
   tag and label are copied from the context and left out, as is peer_tcp_port,
   which is always null; peer_type_str, reason_str and counter_type_str are the
   names of the codes beside them. *)
From Verif Require Import Base AfModel BgpNlriModel BgpAttrModel BgpMsgModel BmpModel.
From Verif Require NcModel EcModel.
From Coq Require Import String.
Local Notation dec := NcModel.dec.
Definition text : Type := list N.

(* 506-527 *)
Inductive pm_err : Type := UnsupportedMessageType (name : text) | MissingTimestamp.
Inductive log_type : Type := LUpdate | LWithdraw | LEndOfRib.
(* 431-447: the two this code uses *)
Inductive rd_origin : Type := OBgp | OBmp.
(* 471-495 *)
Inductive rib_type : Type := RibUnknown | AdjRibInPre | AdjRibInPost | LocRib | AdjRibOutPre | AdjRibOutPost.

(* ---- helpers ---- *)
(* slice::join and Vec<String>::join *)
Fixpoint join (sep : N) (l : list text) : text :=
  match l with
  | [] => []
  | [x] => x
  | x :: r => x ++ sep :: join sep r
  end.
Definition space : N := 32.
(* 537-540 *)
Definition i64_max : N := 9223372036854775807.
Definition u64_to_i64_clamp (v : N) : N := if v <=? i64_max then v else i64_max.
(* 544-546: the microseconds have at least six digits; those of a leap second
   go on from one million *)
Definition pad6 (v : N) : text := repeat 48 (6 - List.length (dec v)) ++ dec v.
Definition fmt_ts (t : N * N) : text := dec (fst t) ++ 46 :: pad6 (snd t / 1000).
(* 549-553 *)
Definition peer_header_ts (h : peer_header) : res pm_err text :=
  match ph_time h with Some t => Ok (fmt_ts t) | None => Err MissingTimestamp end.
(* 557-605: (bmp_rib_type, is_filtered, is_in, is_loc, is_post, is_out) *)
Record rib : Type := mkRib {
  rb_type : rib_type; rb_filtered : N; rb_in : option N; rb_loc : option N; rb_post : option N; rb_out : option N }.
Definition rib_type_and_flags (p : ptype) : rib :=
  match p with
  | PLocRib filtered => mkRib LocRib (if filtered then 1 else 0) None (Some 1) None None
  | PInst _ _ false _ false => mkRib AdjRibInPre 0 (Some 1) None None None
  | PInst _ _ true _ false => mkRib AdjRibInPost 0 (Some 1) None (Some 1) None
  | PInst _ _ false _ true => mkRib AdjRibOutPre 0 None None None (Some 1)
  | PInst _ _ true _ true => mkRib AdjRibOutPost 0 None None (Some 1) (Some 1)
  | PExp _ _ => mkRib RibUnknown 0 None None None None
  end.
(* Display of Ipv4Addr *)
Definition show_ipv4 (v : N) : text :=
  dec (v / 16777216) ++ 46 :: dec (v / 65536 mod 256) ++ 46 :: dec (v / 256 mod 256) ++ 46 :: dec (v mod 256).
(* 614-633 *)
Definition rd_text (r : rd) : text :=
  match r with
  | RdAs2 a n => dec 0 ++ 58 :: dec a ++ 58 :: dec n
  | RdIp ip n => dec 1 ++ 58 :: show_ipv4 ip ++ 58 :: dec n
  | RdAs4 a n => dec 2 ++ 58 :: dec a ++ 58 :: dec n
  | RdLeaf => EcModel.txt "3:leaf-A-D-route"
  end.
Definition rd_and_origin (r : option rd) (o : rd_origin) : option text * option rd_origin :=
  match r with None => (None, None) | Some d => (Some (rd_text d), Some o) end.
(* 637-727 *)
Definition counter_value_and_addr_type (c : stat) : N * option addr_type :=
  match snd c with
  | S32 v => (v, None)
  | S64 v => (u64_to_i64_clamp v, None)
  | SAf t v => (u64_to_i64_clamp v, Some t)
  | SRaw _ => (0, None)
  end.
(* 731-734 *)
Definition mpls_label_value (l : BgpNlriModel.label) : N :=
  N.lor (N.lor (N.shiftl (nth 0 l 0) 12) (N.shiftl (nth 1 l 0) 4)) (N.shiftr (nth 2 l 0) 4).
Definition top_label (ls : list BgpNlriModel.label) : option text :=
  match ls with [] => None | l :: _ => Some (dec (mpls_label_value l)) end.

(* ---- AS paths: segments of type 1 are sets, the others sequences ---- *)
(* 739-770 *)
Definition count_segment (s : segment) : N := if fst s =? 1 then 1 else blen (snd s).
Fixpoint count_asns (ss : list segment) : N :=
  match ss with [] => 0 | s :: r => count_segment s + count_asns r end.
(* 774-847: the same text for all three kinds of path *)
Definition asns_text (l : list N) : text := join space (map dec l).
Definition segment_text (s : segment) : text :=
  if fst s =? 1 then 123 :: asns_text (snd s) ++ [125] else asns_text (snd s).
Definition nonempty (t : text) : bool := match t with [] => false | _ => true end.
Definition fmt_path (ss : list segment) : text := join space (filter nonempty (map segment_text ss)).
(* 852-919 *)
Fixpoint prefix_parts (n : N) (ss : list segment) : list text :=
  match ss with
  | [] => []
  | s :: r =>
      if n =? 0 then []
      else if fst s =? 1 then segment_text s :: prefix_parts (n - 1) r
      else let k := N.min n (blen (snd s)) in
           let chunk := asns_text (take k (snd s)) in
           (if nonempty chunk then [chunk] else []) ++ prefix_parts (n - k) r
  end.
Definition fmt_path_prefix (ss : list segment) (n : N) : text := join space (filter nonempty (prefix_parts n ss)).
(* 930-954 *)
Definition merge_as_path (as_path as4_path : option (list segment)) : option text :=
  match as_path, as4_path with
  | None, None => None
  | Some ap, None => Some (fmt_path ap)
  | None, Some a4 => Some (fmt_path a4)
  | Some ap, Some a4 =>
      if count_asns ap <? count_asns a4 then Some (fmt_path ap)
      else
        let pre := fmt_path_prefix ap (count_asns ap - count_asns a4) in
        let tail := fmt_path a4 in
        match pre, tail with
        | [], _ => Some tail
        | _, [] => Some pre
        | _, _ => Some (pre ++ space :: tail)
        end
  end.
(* 957-979 *)
Definition fmt_comms (cs : list N) : text := join space (map EcModel.show_community cs).
Definition fmt_lcomms (cs : list (N * N * N)) : text :=
  join space (map (fun c => EcModel.show_large (fst (fst c)) (snd (fst c)) (snd c)) cs).

(* ---- records ---- *)
(* the fields every record has: 65-… seq is set to 0 here and nothing calls
   set_seq; timestamp; timestamp_arrival; bmp_router and its port *)
Record env : Type := mkEnv { en_seq : N; en_time : text; en_arrival : text; en_router : bip; en_port : N }.
(* the fields taken from the peer header *)
Record peer_fields : Type := mkPF { pf_ip : bip; pf_asn : N; pf_type : N; pf_rib : rib; pf_id : N }.
(* the shared path attributes of 1393-1408, after the loop *)
Record attr_fields : Type := mkAF {
  af_origin : option N; af_path : option text; af_local_pref : option N; af_med : option N;
  af_comms : option text; af_ecomms : option text; af_lcomms : option text;
  af_aigp : option N; af_otc : option N; af_psid : option N }.
Record route_record : Type := mkRR {
  rr_log : log_type; rr_afi : N; rr_safi : N; rr_prefix : option net;
  rr_rd : option text; rr_rd_origin : option rd_origin; rr_nexthop : option ipaddr;
  rr_path_id : option N; rr_label : option text;
  rr_attrs : attr_fields; rr_peer : peer_fields; rr_env : env }.
Record stat_record : Type := mkSR {
  sr_env : env; sr_peer : peer_fields; sr_rd : option text; sr_rd_origin : option rd_origin;
  sr_type : N; sr_value : N; sr_afi : option N; sr_safi : option N }.
Record up_record : Type := mkUR {
  ur_env : env; ur_peer : peer_fields; ur_rd : option text; ur_rd_origin : option rd_origin;
  ur_local_port : N; ur_remote_port : N; ur_local_ip : bip;
  ur_string : option text; ur_vrf : option text; ur_admin : option text; ur_reserved : option text }.
Record down_record : Type := mkDR {
  dr_env : env; dr_peer : peer_fields; dr_rd : option text; dr_rd_origin : option rd_origin;
  dr_reason : N; dr_loc_code : option N }.
Record init_record : Type := mkIR {
  ir_env : env; ir_string : option text; ir_sysdescr : option text; ir_sysname : option text;
  ir_reserved : option text }.
(* the reason stands for its name *)
Record term_record : Type := mkTR { tr_env : env; tr_string : option text; tr_reason : option N }.
Inductive pm_msg : Type :=
| PRoute (r : route_record) | PStat (r : stat_record) | PUp (r : up_record) | PDown (r : down_record)
| PInit (r : init_record) | PTerm (r : term_record).

(* the remote socket of the BMP connection, and timestamp_arrival *)
Record conn : Type := mkConn { cn_ip : bip; cn_port : N; cn_arrival : text }.
Definition env_of (c : conn) (time : text) : env := mkEnv 0 time (cn_arrival c) (cn_ip c) (cn_port c).
Definition addr_or_zero (a : option bip) : bip := match a with Some x => x | None => B4 0 end.
(* 608-611 and the header fields of each converter *)
Definition peer_of (h : peer_header) : peer_fields :=
  mkPF (addr_or_zero (ph_addr h)) (ph_as h) (ptype_code (ph_type h)) (rib_type_and_flags (ph_type h)) (ph_id h).

Section Convert.
(* Display of an extended community, in upper case *)
Variable ext_text : list N -> text.
(* the first LabelIndex TLV of a PREFIX_SID value *)
Variable label_index : list N -> option N.
(* Debug of an InitiationInformation *)
Variable debug_info : info -> text.

(* 1410-1465: one step of the loop over the path attributes *)
Record gathered : Type := mkG {
  g_fields : attr_fields; g_as_path : option (list segment); g_as4_path : option (list segment);
  g_next_hop : option N; g_reach : option mpreach; g_unreach : option mpunreach }.
Definition no_fields : attr_fields := mkAF None None None None None None None None None None.
Definition no_attrs : gathered := mkG no_fields None None None None None.
Definition set_fields (g : gathered) (f : attr_fields) : gathered :=
  mkG f (g_as_path g) (g_as4_path g) (g_next_hop g) (g_reach g) (g_unreach g).
Definition gather (g : gathered) (a : pattr) : gathered :=
  let f := g_fields g in
  match pa_val a with
  | AOrigin o => set_fields g (mkAF (Some o) (af_path f) (af_local_pref f) (af_med f) (af_comms f)
                                (af_ecomms f) (af_lcomms f) (af_aigp f) (af_otc f) (af_psid f))
  | AAsPath _ ss => mkG f (Some ss) (g_as4_path g) (g_next_hop g) (g_reach g) (g_unreach g)
  | AAs4Path ss => mkG f (g_as_path g) (Some ss) (g_next_hop g) (g_reach g) (g_unreach g)
  | ANextHop ip => mkG f (g_as_path g) (g_as4_path g) (Some ip) (g_reach g) (g_unreach g)
  | ALocalPref v => set_fields g (mkAF (af_origin f) (af_path f) (Some v) (af_med f) (af_comms f)
                                   (af_ecomms f) (af_lcomms f) (af_aigp f) (af_otc f) (af_psid f))
  | AMed v => set_fields g (mkAF (af_origin f) (af_path f) (af_local_pref f) (Some v) (af_comms f)
                             (af_ecomms f) (af_lcomms f) (af_aigp f) (af_otc f) (af_psid f))
  | ACommunities cs => set_fields g (mkAF (af_origin f) (af_path f) (af_local_pref f) (af_med f)
                                      (Some (fmt_comms cs)) (af_ecomms f) (af_lcomms f) (af_aigp f) (af_otc f) (af_psid f))
  | AExtComm cs => set_fields g (mkAF (af_origin f) (af_path f) (af_local_pref f) (af_med f) (af_comms f)
                                  (Some (join space (map ext_text cs))) (af_lcomms f) (af_aigp f) (af_otc f) (af_psid f))
  | ALargeComm cs => set_fields g (mkAF (af_origin f) (af_path f) (af_local_pref f) (af_med f) (af_comms f)
                                    (af_ecomms f) (Some (fmt_lcomms cs)) (af_aigp f) (af_otc f) (af_psid f))
  | AAigp v => set_fields g (mkAF (af_origin f) (af_path f) (af_local_pref f) (af_med f) (af_comms f)
                              (af_ecomms f) (af_lcomms f) (Some (u64_to_i64_clamp v)) (af_otc f) (af_psid f))
  | AOtc v => set_fields g (mkAF (af_origin f) (af_path f) (af_local_pref f) (af_med f) (af_comms f)
                             (af_ecomms f) (af_lcomms f) (af_aigp f) (Some v) (af_psid f))
  | APrefixSid v => match label_index v with
                    | Some i => set_fields g (mkAF (af_origin f) (af_path f) (af_local_pref f) (af_med f) (af_comms f)
                                                (af_ecomms f) (af_lcomms f) (af_aigp f) (af_otc f) (Some i))
                    | None => g
                    end
  | AMpReach m => mkG f (g_as_path g) (g_as4_path g) (g_next_hop g) (Some m) (g_unreach g)
  | AMpUnreach m => mkG f (g_as_path g) (g_as4_path g) (g_next_hop g) (g_reach g) (Some m)
  | _ => g
  end.
(* 1467 *)
Definition with_path (g : gathered) : attr_fields :=
  let f := g_fields g in
  mkAF (af_origin f) (merge_as_path (g_as_path g) (g_as4_path g)) (af_local_pref f) (af_med f) (af_comms f)
       (af_ecomms f) (af_lcomms f) (af_aigp f) (af_otc f) (af_psid f).

(* bgp-pkt/src/update.rs:97-175: the loop; n MP_UNREACH seen *)
Fixpoint eor_loop (current : option addr_type) (n : N) (xs : list pattr) : option addr_type :=
  match xs with
  | [] => current
  | a :: r =>
      match pa_val a with
      | AMpReach _ => None
      | AMpUnreach m =>
          if 1 <? n + 1 then None
          else eor_loop (match m with
                         | MuKnown t [] | MuOpaque t [] => Some t
                         | MuUnknown _ _ _ => None
                         | _ => current
                         end) (n + 1) r
      | _ => eor_loop current n r
      end
  end.
(* update.rs:87-96 *)
Definition end_of_rib (u : update_msg) : option addr_type :=
  match u_nlri u, u_withdrawn u with
  | [], [] => match u_attrs u with [] => Some Ipv4Unicast | _ => eor_loop None 0 (u_attrs u) end
  | _, _ => None
  end.

Section Build.
Variable attrs : attr_fields.
Variable peer : peer_fields.
Variable e : env.
Variable peer_rd : option text * option rd_origin.
(* 1471-1519 build_msg *)
Definition build (log : log_type) (afi safi : N) (p : option net) (r : option text * option rd_origin)
    (nh : option ipaddr) (pid : option N) (lbl : option text) : pm_msg :=
  PRoute (mkRR log afi safi p (fst r) (snd r) nh pid lbl attrs peer e).
(* the three loop bodies of 1546-1678 and 1684-1819; an NLRI of another shape
   cannot occur in the family's variant *)
Definition plain_record (log : log_type) (afi safi : N) (nh : option ipaddr) (x : nlri) : list pm_msg :=
  match x with NPlain pid n => [build log afi safi (Some n) peer_rd nh pid None] | _ => [] end.
Definition labelled_record (log : log_type) (afi safi : N) (nh : option ipaddr) (x : nlri) : list pm_msg :=
  match x with NLabelled pid ls n => [build log afi safi (Some n) peer_rd nh pid (top_label ls)] | _ => [] end.
Definition vpn_record (log : log_type) (afi safi : N) (nh : option ipaddr) (x : nlri) : list pm_msg :=
  match x with
  | NVpn pid d ls n => [build log afi safi (Some n) (rd_and_origin (Some d) OBgp) nh pid (top_label ls)]
  | _ => []
  end.
Definition nexthop_addr (nh : nexthop) : ipaddr := match nh with NhIp a _ => a | NhLabeled _ a => a end.
Definition placeholder (log : log_type) (afi safi : N) : list pm_msg :=
  [build log afi safi None peer_rd None None None].
(* 1541-1677 *)
Definition reach_records (m : mpreach) : list pm_msg :=
  match m with
  | MrKnown t nh xs =>
      let go f := flat_map (f LUpdate (at_afi t) (at_safi t) (Some (nexthop_addr nh))) xs in
      match t with
      | Ipv4Unicast | Ipv4Multicast | Ipv6Unicast | Ipv6Multicast => go plain_record
      | Ipv4NlriMplsLabels | Ipv6NlriMplsLabels => go labelled_record
      | Ipv4MplsLabeledVpn | Ipv6MplsLabeledVpn => go vpn_record
      | _ => placeholder LUpdate (at_afi t) (at_safi t)
      end
  | MrOpaque t _ _ => placeholder LUpdate (at_afi t) (at_safi t)
  | MrUnknown afi safi _ => placeholder LUpdate afi safi
  end.
(* 1680-1823 *)
Definition unreach_records (m : mpunreach) : list pm_msg :=
  match m with
  | MuKnown t xs =>
      let go f := flat_map (f LWithdraw (at_afi t) (at_safi t) None) xs in
      match t with
      | Ipv4Unicast | Ipv4Multicast | Ipv6Unicast | Ipv6Multicast => go plain_record
      | Ipv4NlriMplsLabels | Ipv6NlriMplsLabels => go labelled_record
      | Ipv4MplsLabeledVpn | Ipv6MplsLabeledVpn => go vpn_record
      | _ => placeholder LWithdraw (at_afi t) (at_safi t)
      end
  | MuOpaque t _ => placeholder LWithdraw (at_afi t) (at_safi t)
  | MuUnknown afi safi _ => placeholder LWithdraw afi safi
  end.
(* 1502-1536 *)
Definition body_record (log : log_type) (nh : option ipaddr) (x : route) : pm_msg :=
  build log (at_afi Ipv4Unicast) (at_safi Ipv4Unicast) (Some (snd x)) peer_rd nh (fst x) None.
End Build.

(* an IPv4 address as its octets *)
Definition ipv4_addr (v : N) : ipaddr := V4 (be_enc 4 v).
(* 1351-1826 *)
Definition convert_route_monitoring (c : conn) (h : peer_header) (m : bgp_msg) : res pm_err (list pm_msg) :=
  match m with
  | MUpdate u =>
      rbind (peer_header_ts h) (fun ts =>
      let g := fold_left gather (u_attrs u) no_attrs in
      let attrs := with_path g in
      let peer := peer_of h in
      let e := env_of c ts in
      let prd := rd_and_origin (ph_rd h) OBmp in
      match end_of_rib u with
      | Some t => Ok [build attrs peer e LEndOfRib (at_afi t) (at_safi t) None prd None None None]
      | None =>
          Ok (map (body_record attrs peer e prd LWithdraw None) (u_withdrawn u)
              ++ map (body_record attrs peer e prd LUpdate (option_map ipv4_addr (g_next_hop g))) (u_nlri u)
              ++ match g_reach g with Some mr => reach_records attrs peer e prd mr | None => [] end
              ++ match g_unreach g with Some mu => unreach_records attrs peer e prd mu | None => [] end)
      end)
  | _ => Ok []
  end.

(* 1265-1337 *)
Definition stat_of (c : conn) (ts : text) (h : peer_header) (s : stat) : pm_msg :=
  let r := rd_and_origin (ph_rd h) OBmp in
  let v := counter_value_and_addr_type s in
  PStat (mkSR (env_of c ts) (peer_of h) (fst r) (snd r) (fst s) (fst v)
              (option_map at_afi (snd v)) (option_map at_safi (snd v))).
Definition convert_statistics_report (c : conn) (h : peer_header) (l : list stat) : res pm_err (list pm_msg) :=
  rbind (peer_header_ts h) (fun ts => Ok (map (stat_of c ts h) l)).

(* 1014-1019, 1132-1137 *)
Definition add_reserved (r : option text) (t : text) : option text :=
  match r with
  | None | Some [] => Some t
  | Some x => Some (x ++ space :: t)
  end.
(* 1083-1199: TLV types 0 string, 3 VRF/table name, 4 admin label *)
Definition up_info (r : up_record) (i : info) : up_record :=
  match fst i with
  | 0 => mkUR (ur_env r) (ur_peer r) (ur_rd r) (ur_rd_origin r) (ur_local_port r) (ur_remote_port r) (ur_local_ip r)
           (Some (snd i)) (ur_vrf r) (ur_admin r) (ur_reserved r)
  | 3 => mkUR (ur_env r) (ur_peer r) (ur_rd r) (ur_rd_origin r) (ur_local_port r) (ur_remote_port r) (ur_local_ip r)
           (ur_string r) (Some (snd i)) (ur_admin r) (ur_reserved r)
  | 4 => mkUR (ur_env r) (ur_peer r) (ur_rd r) (ur_rd_origin r) (ur_local_port r) (ur_remote_port r) (ur_local_ip r)
           (ur_string r) (ur_vrf r) (Some (snd i)) (ur_reserved r)
  | _ => mkUR (ur_env r) (ur_peer r) (ur_rd r) (ur_rd_origin r) (ur_local_port r) (ur_remote_port r) (ur_local_ip r)
           (ur_string r) (ur_vrf r) (ur_admin r) (add_reserved (ur_reserved r) (debug_info i))
  end.
Definition port_or_zero (p : option N) : N := match p with Some v => v | None => 0 end.
Definition convert_peer_up (c : conn) (p : peer_up) : res pm_err pm_msg :=
  rbind (peer_header_ts (pu_hdr p)) (fun ts =>
  let r := rd_and_origin (ph_rd (pu_hdr p)) OBmp in
  Ok (PUp (fold_left up_info (pu_info p)
             (mkUR (env_of c ts) (peer_of (pu_hdr p)) (fst r) (snd r) (port_or_zero (pu_lport p))
                   (port_or_zero (pu_rport p)) (addr_or_zero (pu_addr p)) None None None None)))).
(* 1202-1262; bmp-pkt iana.rs PeerDownReasonCode *)
Definition reason_code (r : down_reason) : N :=
  match r with
  | DLocalPdu _ => 1 | DLocalFsm _ => 2 | DRemotePdu _ => 3 | DRemoteNoData => 4 | DDeConfigured => 5
  | DLocalTlv _ => 6 | DExp x _ => 251 + xp_num x
  end.
Definition convert_peer_down (c : conn) (h : peer_header) (d : down_reason) : res pm_err pm_msg :=
  rbind (peer_header_ts h) (fun ts =>
  let r := rd_and_origin (ph_rd h) OBmp in
  Ok (PDown (mkDR (env_of c ts) (peer_of h) (fst r) (snd r) (reason_code d)
                  (match d with DLocalFsm code => Some code | _ => None end)))).
(* 981-1027: TLV types 0 string, 1 sysDescr, 2 sysName *)
Definition init_info (r : init_record) (i : info) : init_record :=
  match fst i with
  | 0 => mkIR (ir_env r) (Some (snd i)) (ir_sysdescr r) (ir_sysname r) (ir_reserved r)
  | 1 => mkIR (ir_env r) (ir_string r) (Some (snd i)) (ir_sysname r) (ir_reserved r)
  | 2 => mkIR (ir_env r) (ir_string r) (ir_sysdescr r) (Some (snd i)) (ir_reserved r)
  | _ => mkIR (ir_env r) (ir_string r) (ir_sysdescr r) (ir_sysname r) (add_reserved (ir_reserved r) (debug_info i))
  end.
Definition convert_initiation (c : conn) (l : list info) : pm_msg :=
  PInit (fold_left init_info l (mkIR (env_of c (cn_arrival c)) None None None None)).
(* 1030-1069 *)
Definition term_info_step (r : term_record) (i : term_info) : term_record :=
  match i with
  | TiString s => mkTR (tr_env r) (Some s) (tr_reason r)
  | TiReason code => mkTR (tr_env r) (tr_string r) (Some code)
  | TiExp _ _ => r
  end.
Definition convert_termination (c : conn) (l : list term_info) : pm_msg :=
  PTerm (fold_left term_info_step l (mkTR (env_of c (cn_arrival c)) None None)).

Definition one (r : res pm_err pm_msg) : res pm_err (list pm_msg) := rbind r (fun m => Ok [m]).
Definition convert_common (c : conn) (m : common) : res pm_err (list pm_msg) :=
  match m with
  | CStats h l => convert_statistics_report c h l
  | CUp p => one (convert_peer_up c p)
  | CInit l => Ok [convert_initiation c l]
  | CTerm l => Ok [convert_termination c l]
  | CMirror _ _ => Err (UnsupportedMessageType (EcModel.txt "RouteMirroring"))
  | CExp _ _ => Err (UnsupportedMessageType (EcModel.txt "Experimental"))
  end.
(* 1840-1905 try_from_bmp_request *)
Definition try_from_bmp_request (c : conn) (m : bmp_msg) : res pm_err (list pm_msg) :=
  match m with
  | V3Monitoring h u | V4Monitoring h u _ => convert_route_monitoring c h u
  | V3Down h r | V4Down h r _ => one (convert_peer_down c h r)
  | V3Common x | V4Common x => convert_common c x
  end.
End Convert.
