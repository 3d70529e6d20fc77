(* BMP (BGP Monitoring Protocol): crates/bmp-pkt/src/{codec,lib,v3,v4,iana}.rs
   and wire/{deserializer,serializer}/{mod,v3,v4}.rs.
   Simplifications: error offsets are dropped and the nested error enums are
   one type; enum variants that only carry a code point are that code point;
   strings are their octets; capacity hints (count_tlvs_t16_l16) only size
   allocations and are left out; a timestamp is seconds and nanoseconds since
   the epoch, from the epoch on. *)
From Verif Require Import Base MapLib AfModel FramingModel BgpCapModel BgpFrameModel BgpNlriModel
  BgpAttrModel BgpMsgModel.

(* iana.rs: the four experimental code points of each registry, 251-254 or
   65531-65534 *)
Inductive xp : Type := X1 | X2 | X3 | X4.
Definition xp_num (x : xp) : N := match x with X1 => 0 | X2 => 1 | X3 => 2 | X4 => 3 end.
Definition xp_of (base v : N) : option xp :=
  if v =? base then Some X1
  else if v =? base + 1 then Some X2
  else if v =? base + 2 then Some X3
  else if v =? base + 3 then Some X4
  else None.

(* lib.rs:195-… BmpPeerType *)
Inductive inst : Type := Global | RdInst | Local.
Inductive ptype : Type :=
| PInst (i : inst) (ipv6 post_policy asn2 adj_rib_out : bool)
| PLocRib (filtered : bool)
| PExp (x : xp) (flags : N).
(* iana.rs BmpPeerTypeCode *)
Definition ptype_code (p : ptype) : N :=
  match p with
  | PInst Global _ _ _ _ => 0
  | PInst RdInst _ _ _ _ => 1
  | PInst Local _ _ _ _ => 2
  | PLocRib _ => 3
  | PExp x _ => 251 + xp_num x
  end.
(* IpAddr, as the number its octets spell *)
Inductive bip : Type := B4 (v : N) | B6 (v : N).
(* lib.rs:95-156 PeerHeader *)
Record peer_header : Type := mkPH {
  ph_type : ptype; ph_rd : option rd; ph_addr : option bip; ph_as : N; ph_id : N;
  ph_time : option (N * N) }.
(* lib.rs:158-170 *)
Definition is_asn4 (h : peer_header) : bool :=
  match ph_type h with PInst _ _ _ asn2 _ => negb asn2 | _ => true end.
(* codec.rs:179-184 and deserializer/v4.rs:185-190 *)
Definition adj_rib_out (h : peer_header) : bool :=
  match ph_type h with PInst _ _ _ _ out => out | _ => false end.
Definition is_locrib (h : peer_header) : bool :=
  match ph_type h with PLocRib _ => true | _ => false end.

(* lib.rs PeerKey: equality and hash look at the address, the discriminant of
   the peer type (not its flags), the distinguisher, the AS and the BGP ID *)
Record pkey : Type := mkPK {
  pk_addr : option bip; pk_type : N; pk_rd : option rd; pk_as : N; pk_id : N }.
Definition pkey_eq_dec (a b : pkey) : {a = b} + {a <> b}.
Proof. repeat decide equality. Defined.
Definition pkey_eqb (a b : pkey) : bool := if pkey_eq_dec a b then true else false.
Definition key_of (h : peer_header) : pkey :=
  mkPK (ph_addr h) (ptype_code (ph_type h)) (ph_rd h) (ph_as h) (ph_id h).

(* v3.rs InitiationInformation: TLV type and value *)
Definition info : Type := (N * list N)%type.
(* v3.rs PeerUpNotificationMessage *)
Record peer_up : Type := mkUp {
  pu_hdr : peer_header; pu_addr : option bip; pu_lport : option N; pu_rport : option N;
  pu_sent : bgp_msg; pu_recv : bgp_msg; pu_info : list info }.
(* v3.rs PeerDownNotificationReason *)
Inductive down_reason : Type :=
| DLocalPdu (m : bgp_msg) | DLocalFsm (event : N) | DRemotePdu (m : bgp_msg) | DRemoteNoData
| DDeConfigured | DLocalTlv (i : info) | DExp (x : xp) (v : list N).
(* v3.rs RouteMirroringValue *)
Inductive mirrored : Type :=
| MvParsed (m : bgp_msg) | MvRaw (v : list N) | MvInfo (code : N) | MvExp (x : xp) (v : list N).
(* v3.rs TerminationInformation *)
Inductive term_info : Type := TiString (v : list N) | TiReason (code : N) | TiExp (x : xp) (v : list N).
(* v3.rs StatisticsCounter: type code and value; the value's shape follows the
   code (stat_kind) *)
Inductive stat_val : Type := S32 (v : N) | S64 (v : N) | SAf (t : addr_type) (v : N) | SRaw (v : list N).
Definition stat : Type := (N * stat_val)%type.
(* the message types both versions share *)
Inductive common : Type :=
| CStats (h : peer_header) (l : list stat)
| CUp (p : peer_up)
| CInit (l : list info)
| CTerm (l : list term_info)
| CMirror (h : peer_header) (l : list mirrored)
| CExp (x : xp) (v : list N).
(* v4.rs:60-160 RouteMonitoringTlv *)
Inductive tlv_val : Type :=
| TvCap (c : cap) | TvGroup (l : list N) | TvVrf (v : list N) | TvUpdate (m : bgp_msg)
| TvMark (status : N) (reason : option N) | TvUnknown (code : N) (v : list N).
Record rm_tlv : Type := mkTlv { tl_index : N; tl_val : tlv_val }.
Inductive bmp_msg : Type :=
| V3Monitoring (h : peer_header) (m : bgp_msg)
| V3Down (h : peer_header) (r : down_reason)
| V3Common (c : common)
| V4Monitoring (h : peer_header) (m : bgp_msg) (l : list rm_tlv)
| V4Down (h : peer_header) (r : down_reason) (l : list (N * list N))
| V4Common (c : common).

(* ---- errors: the *ParsingError enums of deserializer/{mod,v3,v4}.rs ---- *)
Inductive bmp_err : Type :=
| BM_Parse (e : perr) | BM_Version (v : N) | BM_Length (n : N) | BM_Unparsed (length n : N)
| BM_MsgType (code : N) | BM_PeerType (code : N) | BM_Rd (e : nlri_err) | BM_Time (secs micros : N)
| BM_TlvType (code : N) | BM_Code (code : N) | BM_Utf8 | BM_TlvUnparsed (length n : N)
| BM_Bgp (e : bgp_err body_err) | BM_BgpType (t : mtype) | BM_InfoType (code : N)
| BM_Afi (v : N) | BM_Safi (v : N) | BM_Family (afi safi : N)
| BM_NoPdu | BM_TlvLength (expected actual : N) | BM_Cap (e : cap_err)
| BM_GroupIndex (index : N) | BM_VrfLength (n : N) | BM_MarkLength (n : N).
Definition brd {A} (p : parser perr A) : parser bmp_err A := pmap_err BM_Parse p.
Definition rest_bytes : parser bmp_err (list N) :=
  do r <- get_reader;; brd (read_bytes (remaining r)).

(* ---- peer header: deserializer/v3.rs:306-430 ---- *)
(* v3.rs:308-360 BmpPeerType::parse *)
Definition parse_ptype : parser bmp_err ptype :=
  do code <- brd read_u8;;
  match xp_of 251 code with
  | Some x => do flags <- brd read_u8;; ret (PExp x flags)
  | None =>
      if 4 <=? code then fail (BM_PeerType code)
      else
        do flags <- brd read_u8;;
        if code =? 3 then ret (PLocRib (flag_set 128 flags))
        else ret (PInst (if code =? 0 then Global else if code =? 1 then RdInst else Local)
                        (flag_set 128 flags) (flag_set 64 flags) (flag_set 32 flags) (flag_set 16 flags))
  end.
(* v3.rs:448-462 check_is_ipv6 *)
Definition check_is_ipv6 (p : ptype) : bool :=
  match p with PInst _ v6 _ _ _ => v6 | _ => true end.
(* v3.rs:382-389, 479-487 *)
Definition addr_of (v6 : bool) (v : N) : option bip :=
  if v =? 0 then None else if v6 then Some (B6 v) else Some (B4 (as_u32 v)).
(* chrono Utc.timestamp_opt: nanoseconds below one second, or below two on
   the last second of a minute (a leap second) *)
Definition time_ok (secs nanos : N) : bool :=
  (nanos <? 1000000000) || ((nanos <? 2000000000) && (secs mod 60 =? 59)).
(* v3.rs:395-412 *)
Definition time_of (secs micros : N) : option (option (N * N)) :=
  if (secs =? 0) && (micros =? 0) then Some None
  else let nanos := N.min (micros * 1000) 4294967295 in
       if time_ok secs nanos then Some (Some (secs, nanos)) else None.
(* v3.rs:375-417 PeerHeader::parse *)
Definition parse_header : parser bmp_err peer_header :=
  do t <- parse_ptype;;
  do d <- pmap_err BM_Rd parse_rd;;
  do a <- brd read_u128;;
  do asn <- brd read_u32;;
  do id <- brd read_u32;;
  do secs <- brd read_u32;;
  do micros <- brd read_u32;;
  match time_of secs micros with
  | None => fail (BM_Time secs micros)
  | Some tm =>
      ret (mkPH t (match d with RdAs2 0 0 => None | _ => Some d end)
                (addr_of (check_is_ipv6 t) a) asn id tm)
  end.
(* serializer/v3.rs:136-216 *)
Definition flag_if (b : bool) (m : N) : N := if b then m else 0.
Definition ptype_flags (p : ptype) : N :=
  match p with
  | PInst _ v6 pp a2 out =>
      N.lor (N.lor (N.lor (flag_if v6 128) (flag_if pp 64)) (flag_if a2 32)) (flag_if out 16)
  | PLocRib f => flag_if f 128
  | PExp _ flags => flags
  end.
Definition enc_addr (a : option bip) : list N :=
  match a with None => be_enc 16 0 | Some (B4 v) => be_enc 12 0 ++ be_enc 4 v | Some (B6 v) => be_enc 16 v end.
(* serializer/v3.rs:225-266 *)
Definition enc_header (h : peer_header) : list N :=
  ptype_code (ph_type h) :: ptype_flags (ph_type h) ::
  (match ph_rd h with None => be_enc 8 0 | Some d => enc_rd d end)
  ++ enc_addr (ph_addr h) ++ be_enc 4 (ph_as h) ++ be_enc 4 (ph_id h)
  ++ match ph_time h with
     | None => be_enc 8 0
     | Some (s, n) => be_enc 4 (as_u32 s) ++ be_enc 4 (n / 1000)
     end.
Definition header_len : N := 42.

(* ---- information TLVs: deserializer/v3.rs:159-248 ---- *)
Definition info_code_ok (code : N) : bool := (code <=? 4) || ((65531 <=? code) && (code <=? 65534)).
Definition parse_info : parser bmp_err info :=
  do code <- brd read_u16;;
  if negb (info_code_ok code) then fail (BM_TlvType code)
  else
    do len <- brd read_u16;;
    do sub <- brd (take_slice len);;
    on_sub sub
      (do v <- rest_bytes;;
       if (code <=? 4) && negb (utf8_ok v) then fail BM_Utf8 else ret (code, v)).
(* serializer/v3.rs:376-440 *)
Definition enc_info (i : info) : list N := be_enc 2 (fst i) ++ be_enc 2 (as_u16 (blen (snd i))) ++ snd i.
Definition info_len (i : info) : N := 4 + blen (snd i).

(* ---- the parsing context: deserializer/mod.rs:89-130 ---- *)
Definition bmpctx : Type := list (pkey * bctx).
(* ctx.entry(key).or_default() *)
Definition peer_ctx (k : pkey) (m : bmpctx) : bctx :=
  match mget pkey_eqb k m with Some c => c | None => default_ctx end.
(* run a parser with the context of one peer, after set_asn4 *)
Definition on_peer {A} (h : peer_header) (p : cparser bctx bmp_err A) : cparser bmpctx bmp_err A :=
  fun m r => match p (set_asn4 (is_asn4 h) (peer_ctx (key_of h) m)) r with
             | (c', r', x) => (mset pkey_eqb (key_of h) c' m, r', x)
             end.
Definition bgp_pdu : cparser bctx bmp_err bgp_msg := cmap_err BM_Bgp parse_bgp.

(* ---- peer up: deserializer/v3.rs:464-531, v3.rs build ---- *)
Definition nonzero (v : N) : option N := if v =? 0 then None else Some v.
Definition is_open (m : bgp_msg) : bool := match m with MOpen _ => true | _ => false end.
Definition parse_up : cparser bmpctx bmp_err peer_up :=
  cbind (clift parse_header) (fun h =>
  cbind (clift (brd read_u128)) (fun a =>
  cbind (clift (brd read_u16)) (fun lp =>
  cbind (clift (brd read_u16)) (fun rp =>
  cbind (on_peer h bgp_pdu) (fun sent =>
  cbind (on_peer h bgp_pdu) (fun recv =>
  cbind (clift (many_all parse_info)) (fun infos =>
  if negb (is_open sent) then cfail (BM_BgpType (msg_type sent))
  else if negb (is_open recv) then cfail (BM_BgpType (msg_type recv))
  else cret (mkUp h (addr_of (check_is_ipv6 (ph_type h)) a) (nonzero lp) (nonzero rp) sent recv infos)))))))).

(* ---- peer down: deserializer/v3.rs:545-640, v4.rs:137-148, 369-394 ---- *)
Definition parse_reason : cparser bctx bmp_err down_reason :=
  cbind (clift (brd read_u8)) (fun code =>
  if code =? 1 then cbind bgp_pdu (fun m => cret (DLocalPdu m))
  else if code =? 2 then cbind (clift (brd read_u16)) (fun v => cret (DLocalFsm v))
  else if code =? 3 then cbind bgp_pdu (fun m => cret (DRemotePdu m))
  else if code =? 4 then cret DRemoteNoData
  else if code =? 5 then cret DDeConfigured
  else if code =? 6 then cbind (clift parse_info) (fun i => cret (DLocalTlv i))
  else match xp_of 251 code with
       | Some x => cbind (clift rest_bytes) (fun v => cret (DExp x v))
       | None => cfail (BM_Code code)
       end).
(* v3.rs PeerDownNotificationMessage::build, v4.rs:457-490 *)
Definition check_reason (d : down_reason) : option bmp_err :=
  match d with
  | DLocalPdu m | DRemotePdu m =>
      match msg_type m with TNotification => None | t => Some (BM_BgpType t) end
  | DLocalTlv i => if fst i =? 3 then None else Some (BM_InfoType (fst i))
  | _ => None
  end.
Definition parse_down3 : cparser bmpctx bmp_err bmp_msg :=
  cbind (clift parse_header) (fun h =>
  cbind (on_peer h parse_reason) (fun d =>
  match check_reason d with Some e => cfail e | None => cret (V3Down h d) end)).
Definition parse_raw_tlv : parser bmp_err (N * list N) :=
  do t <- brd read_u16;;
  do len <- brd read_u16;;
  do v <- brd (read_bytes len);;
  ret (t, v).
Definition parse_down4 : cparser bmpctx bmp_err bmp_msg :=
  cbind (clift parse_header) (fun h =>
  cbind (on_peer h parse_reason) (fun d =>
  cbind (clift (many_all parse_raw_tlv)) (fun l =>
  match check_reason d with Some e => cfail e | None => cret (V4Down h d l) end))).

(* ---- route mirroring: deserializer/v3.rs:654-757 ---- *)
Definition mirror_info_ok (code : N) : bool := (code <=? 1) || ((65531 <=? code) && (code <=? 65534)).
(* parse inside a sub-slice of n octets that must be used up *)
Definition in_whole {C A} (n : N) (p : cparser C bmp_err A) : cparser C bmp_err A :=
  in_sub BM_Parse n
    (cbind p (fun x => cbind (clift get_reader) (fun r =>
     if ris_empty r then cret x else cfail (BM_TlvUnparsed n (remaining r))))).
Definition parse_mirrored : cparser bctx bmp_err mirrored :=
  cbind (clift (brd read_u16)) (fun code =>
  if (2 <=? code) && match xp_of 65531 code with None => true | _ => false end then cfail (BM_TlvType code)
  else
  cbind (clift (brd read_u16)) (fun len =>
  in_whole len
    (if code =? 0 then cbind bgp_pdu (fun m => cret (MvParsed m))
     else if code =? 1 then
       cbind (clift (brd read_u16)) (fun v => if mirror_info_ok v then cret (MvInfo v) else cfail (BM_Code v))
     else match xp_of 65531 code with
          | Some x => cbind (clift (brd (read_bytes len))) (fun v => cret (MvExp x v))
          | None => cfail (BM_TlvType code)
          end))).
Definition parse_mirroring : cparser bmpctx bmp_err common :=
  cbind (clift parse_header) (fun h =>
  cbind (on_peer h (cmany_all (cbind parse_mirrored (fun x => cret (Some x))))) (fun l =>
  cret (CMirror h l))).

(* ---- termination: deserializer/v3.rs:771-881 ---- *)
Definition term_code_ok (code : N) : bool := (code <=? 4) || ((65531 <=? code) && (code <=? 65534)).
Definition parse_term : parser bmp_err term_info :=
  do code <- brd read_u16;;
  if (2 <=? code) && match xp_of 65531 code with None => true | _ => false end then fail (BM_TlvType code)
  else
    do len <- brd read_u16;;
    do sub <- brd (take_slice len);;
    on_sub sub
      (do x <- (if code =? 0 then (do v <- rest_bytes;; if utf8_ok v then ret (TiString v) else fail BM_Utf8)
                else if code =? 1 then
                  (do v <- brd read_u16;; if term_code_ok v then ret (TiReason v) else fail (BM_Code v))
                else match xp_of 65531 code with
                     | Some x => do v <- rest_bytes;; ret (TiExp x v)
                     | None => fail (BM_TlvType code)
                     end);;
       do r <- get_reader;;
       if ris_empty r then ret x else fail (BM_TlvUnparsed len (remaining r))).

(* ---- statistics: deserializer/v3.rs:896-1340 ---- *)
Inductive skind : Type := K32 | K64 | KAf | KRaw.
(* v3.rs:976-…: the match over BmpStatisticsType *)
Definition stat_kind (code : N) : skind :=
  if (code <=? 6) || ((11 <=? code) && (code <=? 13)) then K32
  else if existsb (N.eqb code) [7; 8; 14; 15; 18; 20; 29; 31; 33; 39] then K64
  else if existsb (N.eqb code)
            [9; 10; 16; 17; 19; 21; 22; 23; 26; 27; 28; 30; 32; 34; 35; 36; 37; 38; 40; 41; 42; 43] then KAf
  else KRaw.
(* v3.rs:943-969 *)
Definition parse_family : parser bmp_err addr_type :=
  do afi <- brd read_u16;;
  if negb (afi_ok afi) then fail (BM_Afi afi)
  else
    do safi <- brd read_u8;;
    if negb (safi_ok safi) then fail (BM_Safi safi)
    else match from_afi_safi afi safi with
         | Some t => ret t
         | None => fail (BM_Family afi safi)
         end.
Definition parse_stat : parser bmp_err stat :=
  do code <- brd read_u16;;
  do len <- brd read_u16;;
  do sub <- brd (take_slice len);;
  on_sub sub
    (do v <- match stat_kind code with
             | K32 => do v <- brd read_u32;; ret (S32 v)
             | K64 => do v <- brd read_u64;; ret (S64 v)
             | KAf => do t <- parse_family;; do v <- brd read_u64;; ret (SAf t v)
             | KRaw => do v <- rest_bytes;; ret (SRaw v)
             end;;
     do r <- get_reader;;
     if ris_empty r then ret (code, v) else fail (BM_TlvUnparsed len (remaining r))).
(* v3.rs:907-910 [for _ in 0..stats_count]; every turn consumes octets, so the
   fuel (one more than the octets left) never runs out *)
Fixpoint times {E A} (fuel : nat) (n : N) (p : parser E A) : parser E (list A) :=
  if n =? 0 then ret []
  else match fuel with
       | O => fun r => (r, Diverge)
       | S f => do x <- p;; do xs <- times f (n - 1) p;; ret (x :: xs)
       end.
Definition parse_stats : parser bmp_err common :=
  do h <- parse_header;;
  do n <- brd read_u32;;
  do r <- get_reader;;
  do l <- times (S (length (rbuf r))) n parse_stat;;
  ret (CStats h l).

(* ---- v4 route monitoring: deserializer/v4.rs:173-345, 403-430 ---- *)
Definition parse_mark : parser bmp_err tlv_val :=
  do status <- brd read_u32;;
  do r <- get_reader;;
  if remaining r =? 0 then ret (TvMark status None)
  else if remaining r =? 2 then (do v <- brd read_u16;; ret (TvMark status (Some v)))
  else fail (BM_MarkLength (remaining r)).
(* v4.rs:278-345; the type BgpUpdatePdu (4) is handled by the caller *)
Definition parse_rm_tlv (out : bool) : cparser bctx bmp_err rm_tlv :=
  cbind (clift (brd read_u16)) (fun t =>
  cbind (clift (brd read_u16)) (fun len =>
  cbind (clift (brd read_u16)) (fun index =>
  cbind (clift get_reader) (fun r0 =>
  if remaining r0 <? len then cfail (BM_TlvLength len (as_u16 (remaining r0)))
  else
  in_sub BM_Parse len
    (if t =? 1 then
       cbind (clift (pmap_err BM_Cap parse_cap)) (fun c =>
       fun x r => (update_capability c out x, r, Ok (mkTlv index (TvCap c))))
     else if t =? 2 then
       cbind (clift (many_all (brd read_u16))) (fun l =>
       if flag_set 32768 index then cret (mkTlv index (TvGroup l)) else cfail (BM_GroupIndex index))
     else if t =? 3 then
       cbind (clift rest_bytes) (fun v =>
       if negb (utf8_ok v) then cfail BM_Utf8
       else if 255 <? blen v then cfail (BM_VrfLength (blen v))
       else cret (mkTlv index (TvVrf v)))
     else if t =? 5 then cbind (clift parse_mark) (fun v => cret (mkTlv index v))
     else cbind (clift rest_bytes) (fun v => cret (mkTlv index (TvUnknown t v)))))))).
(* v4.rs:201-224: one turn of the loop; the PDU slice is kept for later, the
   last one wins *)
Definition rm_step (out : bool) : cparser (bctx * option reader) bmp_err (option rm_tlv) :=
  cbind (clift (brd (peek_be 2))) (fun t =>
  if t =? 4 then
    cbind (clift (brd read_u16)) (fun _ =>
    cbind (clift (brd read_u16)) (fun len =>
    cbind (clift (brd read_u16)) (fun _ =>
    cbind (clift (brd (take_slice len))) (fun sub =>
    fun c r => ((fst c, Some sub), r, Ok None)))))
  else
    fun c r => match parse_rm_tlv out (fst c) r with
               | (x, r', v) => ((x, snd c), r', match v with
                                                | Ok a => Ok (Some a)
                                                | Err e => Err e
                                                | Panic => Panic
                                                | Diverge => Diverge
                                                end)
               end).
(* v4.rs:192-243: what runs with the cloned context *)
Definition rm_body (h : peer_header) (x : bctx) (r : reader) : reader * res bmp_err bmp_msg :=
  match cmany_all (rm_step (adj_rib_out h)) (x, None) r with
  | ((x1, pdu), r1, Ok l) =>
      match pdu with
      | None => (r1, Err BM_NoPdu)
      | Some sub =>
          match bgp_pdu x1 sub with
          | (_, _, Ok m) =>
              (r1, match msg_type m with TUpdate => Ok (V4Monitoring h m l) | t => Err (BM_BgpType t) end)
          | (_, _, Err e) => (r1, Err e)
          | (_, _, Panic) => (r1, Panic)
          | (_, _, Diverge) => (r1, Diverge)
          end
      end
  | (_, r1, Err e) => (r1, Err e)
  | (_, r1, Panic) => (r1, Panic)
  | (_, r1, Diverge) => (r1, Diverge)
  end.
Definition parse_monitoring4 : cparser bmpctx bmp_err bmp_msg :=
  cbind (clift parse_header) (fun h =>
  on_peer h (fun x r => match rm_body h x r with (r', v) => (x, r', v) end)).
(* v3.rs:268-297 *)
Definition parse_monitoring3 : cparser bmpctx bmp_err bmp_msg :=
  cbind (clift parse_header) (fun h =>
  cbind (on_peer h bgp_pdu) (fun m =>
  match msg_type m with TUpdate => cret (V3Monitoring h m) | t => cfail (BM_BgpType t) end)).

(* ---- message value: deserializer/v3.rs:64-126, v4.rs:67-129 ---- *)
Definition parse_common (code : N) : cparser bmpctx bmp_err common :=
  if code =? 1 then clift parse_stats
  else if code =? 3 then cbind parse_up (fun p => cret (CUp p))
  else if code =? 4 then cbind (clift (many_all parse_info)) (fun l => cret (CInit l))
  else if code =? 5 then cbind (clift (many_all parse_term)) (fun l => cret (CTerm l))
  else if code =? 6 then parse_mirroring
  else match xp_of 251 code with
       | Some x => cbind (clift rest_bytes) (fun v => cret (CExp x v))
       | None => cfail (BM_MsgType code)
       end.
Definition parse_value (v : N) : cparser bmpctx bmp_err bmp_msg :=
  cbind (clift (brd read_u8)) (fun code =>
  if code =? 0 then (if v =? 3 then parse_monitoring3 else parse_monitoring4)
  else if code =? 2 then (if v =? 3 then parse_down3 else parse_down4)
  else cbind (parse_common code) (fun c => cret (if v =? 3 then V3Common c else V4Common c))).
(* deserializer/mod.rs:132-176 BmpMessage::parse; iana.rs BmpVersion: 3 or 4 *)
Definition version_ok (v : N) : bool := (v =? 3) || (v =? 4).
Definition parse_bmp : cparser bmpctx bmp_err bmp_msg :=
  cbind (clift (brd read_u8)) (fun v =>
  if negb (version_ok v) then cfail (BM_Version v)
  else
  cbind (clift (brd read_u32)) (fun len =>
  if len <? 5 then cfail (BM_Length len)
  else
  in_sub BM_Parse (len - 5)
    (cbind (parse_value v) (fun x => cbind (clift get_reader) (fun r =>
     if ris_empty r then cret x else cfail (BM_Unparsed len (remaining r))))))).

(* ---- context update: codec.rs:101-270 ---- *)
(* codec.rs:66-93 get_caps *)
Definition add_path_caps (cs : list cap) : list (addr_type * bool * bool) :=
  flat_map (fun c => match c with CAddPath l => l | _ => [] end) cs.
Definition label_caps (cs : list cap) : list (addr_type * N) :=
  flat_map (fun c => match c with CMultipleLabels l => l | _ => [] end) cs.
(* codec.rs:133-139 *)
Definition add_path_flags (l : list (addr_type * bool * bool)) : list (addr_type * (bool * bool)) :=
  fold_left (fun m f => match f with (t, s, rv) => mset at_eqb t (s, rv) m end) l [].
(* codec.rs:145-151: the set intersection, in the order of the sent list; the
   HashSet's own order is arbitrary, and matters only when both sides repeat
   one family with the same two counts *)
Definition common_labels (a b : list (addr_type * N)) : list (addr_type * N) :=
  filter (fun x => existsb (fun y => at_eqb (fst x) (fst y) && (snd x =? snd y)) b) a.
(* codec.rs:188-215 *)
Definition apply_negotiated (out : bool) (local remote : list (addr_type * (bool * bool)))
  (labels : list (addr_type * N)) (x : bctx) : bctx :=
  let ap := fold_left (fun m f =>
              match mget at_eqb (fst f) remote with
              | None => m
              | Some (rs, rr) =>
                  mset at_eqb (fst f) (if out then fst (snd f) && rr else rs && snd (snd f)) m
              end) local (x_add_path x) in
  update_capability (CMultipleLabels labels) out
    (mkCtx (x_asn4 x) (x_labels x) ap (x_fail_withdraw x) (x_fail_update x) (x_fail_cap x) (x_fail_attr x) (x_ign x)).
Definition clear_negotiated (x : bctx) : bctx :=
  mkCtx (x_asn4 x) [] [] (x_fail_withdraw x) (x_fail_update x) (x_fail_cap x) (x_fail_attr x) (x_ign x).
(* codec.rs:105-249 handle_peer_up *)
Definition handle_peer_up (p : peer_up) (m : bmpctx) : bmpctx :=
  match pu_sent p, pu_recv p with
  | MOpen so, MOpen ro =>
      let h := pu_hdr p in
      let local := add_path_flags (add_path_caps (open_caps so)) in
      let remote := add_path_flags (add_path_caps (open_caps ro)) in
      let labels := common_labels (label_caps (open_caps so)) (label_caps (open_caps ro)) in
      let neg := apply_negotiated (adj_rib_out h) local remote labels in
      let x := peer_ctx (key_of h) m in
      let x1 := if is_locrib h then x else clear_negotiated x in
      let m1 := mset pkey_eqb (key_of h) (neg x1) m in
      if is_locrib h then m1
      else
        (* codec.rs:217-248: the key with the BGP ID of the received OPEN *)
        let k2 := mkPK (ph_addr h) (ptype_code (ph_type h)) (ph_rd h) (ph_as h) (o_id ro) in
        mset pkey_eqb k2 (neg (peer_ctx k2 m1)) m1
  | _, _ => m
  end.
(* codec.rs:251-270 *)
Definition ctx_update (msg : bmp_msg) (m : bmpctx) : bmpctx :=
  match msg with
  | V3Down h _ | V4Down h _ _ => mrem pkey_eqb (key_of h) m
  | V3Common (CTerm _) | V4Common (CTerm _) => []
  | V3Common (CUp p) | V4Common (CUp p) => handle_peer_up p m
  | _ => m
  end.

(* ---- the codec: codec.rs:56-63, 284-350 ---- *)
Record bmp_codec : Type := mkBmp { bk_in : bool; bk_ctx : bmpctx }.
Definition bmp_default : bmp_codec := mkBmp false [].
(* buf[0] and buf[1..5] panic on a shorter buffer *)
Definition bmp_decode : decoder bmp_codec bmp_msg bmp_err :=
  fun k b =>
    if bk_in k || (5 <=? blen b) then
      match b with
      | [] => (k, b, DPanic)
      | v :: _ =>
          if negb (version_ok v) then (k, drop 1 b, DErr (BM_Version v))
          else if blen b <? 5 then (k, b, DPanic)
          else
            let len := be_val (take 4 (drop 1 b)) in
            if len <? 5 then (mkBmp false (bk_ctx k), drop 5 b, DErr (BM_Length len))
            else if blen b <? len then (mkBmp true (bk_ctx k), b, DNone)
            else
              match parse_bmp (bk_ctx k) (rnew (take len b)) with
              | (m, _, Ok msg) => (mkBmp false (ctx_update msg m), drop len b, DItem msg)
              | (m, _, Err e) => (mkBmp false m, drop len b, DErr e)
              | (m, _, Panic) => (mkBmp false m, drop len b, DPanic)
              | (m, _, Diverge) => (mkBmp false m, drop len b, DPanic)
              end
      end
    else (k, b, DNone).

(* ---- writing: serializer/{mod,v3,v4}.rs ---- *)
Inductive bmp_werr : Type := BW_Bgp (e : bgp_werr body_werr) | BW_Cap (e : cap_werr).
Definition wr : Type := res bmp_werr (list N).
Definition write_pdu (m : bgp_msg) : wr := map_err BW_Bgp (write_bgp m).
Definition pdu_len (m : bgp_msg) : N := 19 + msg_len m.
Fixpoint write_all {A} (f : A -> wr) (l : list A) : wr :=
  match l with
  | [] => Ok []
  | x :: r => rbind (f x) (fun b => rbind (write_all f r) (fun bs => Ok (b ++ bs)))
  end.
Definition opt0 (o : option N) : N := match o with Some v => v | None => 0 end.
(* serializer/v3.rs:459-494 *)
Definition write_up (p : peer_up) : wr :=
  rbind (write_pdu (pu_sent p)) (fun s =>
  rbind (write_pdu (pu_recv p)) (fun rv =>
  Ok (enc_header (pu_hdr p) ++ enc_addr (pu_addr p) ++ be_enc 2 (opt0 (pu_lport p)) ++ be_enc 2 (opt0 (pu_rport p))
      ++ s ++ rv ++ flat_map enc_info (pu_info p)))).
Definition up_len (p : peer_up) : N :=
  20 + header_len + pdu_len (pu_sent p) + pdu_len (pu_recv p) + sum_len info_len (pu_info p).
(* serializer/v3.rs:545-592 *)
Definition reason_code (d : down_reason) : N :=
  match d with
  | DLocalPdu _ => 1 | DLocalFsm _ => 2 | DRemotePdu _ => 3 | DRemoteNoData => 4
  | DDeConfigured => 5 | DLocalTlv _ => 6 | DExp x _ => 251 + xp_num x
  end.
Definition write_reason (d : down_reason) : wr :=
  rbind (match d with
         | DLocalPdu m | DRemotePdu m => write_pdu m
         | DLocalFsm v => Ok (be_enc 2 v)
         | DRemoteNoData | DDeConfigured => Ok []
         | DLocalTlv i => Ok (enc_info i)
         | DExp _ v => Ok v
         end) (fun b => Ok (reason_code d :: b)).
Definition reason_len (d : down_reason) : N :=
  1 + match d with
      | DLocalPdu m | DRemotePdu m => pdu_len m
      | DLocalFsm _ => 2
      | DRemoteNoData | DDeConfigured => 0
      | DLocalTlv i => info_len i
      | DExp _ v => blen v
      end.
(* serializer/v3.rs:280-318 *)
Definition mirrored_len (v : mirrored) : N :=
  4 + match v with MvParsed m => pdu_len m | MvRaw b => blen b | MvInfo _ => 2 | MvExp _ b => blen b end.
Definition write_mirrored (v : mirrored) : wr :=
  rbind (match v with MvParsed m => write_pdu m | MvRaw b => Ok b | MvInfo c => Ok (be_enc 2 c) | MvExp _ b => Ok b end)
    (fun b => Ok (be_enc 2 (match v with MvParsed _ | MvRaw _ => 0 | MvInfo _ => 1 | MvExp x _ => 65531 + xp_num x end)
                  ++ be_enc 2 (as_u16 (mirrored_len v - 4)) ++ b)).
(* serializer/v3.rs:623-655 *)
Definition term_len (t : term_info) : N :=
  4 + match t with TiString v => blen v | TiReason _ => 2 | TiExp _ v => blen v end.
Definition enc_term (t : term_info) : list N :=
  be_enc 2 (match t with TiString _ => 0 | TiReason _ => 1 | TiExp x _ => 65531 + xp_num x end)
  ++ be_enc 2 (as_u16 (term_len t - 4))
  ++ match t with TiString v => v | TiReason c => be_enc 2 c | TiExp _ v => v end.
(* serializer/v3.rs:667-… *)
Definition stat_len (s : stat) : N :=
  4 + match snd s with S32 _ => 4 | S64 _ => 8 | SAf _ _ => 11 | SRaw v => blen v end.
Definition enc_stat (s : stat) : list N :=
  be_enc 2 (fst s) ++ be_enc 2 (as_u16 (stat_len s - 4))
  ++ match snd s with
     | S32 v => be_enc 4 v
     | S64 v => be_enc 8 v
     | SAf t v => be_enc 2 (at_afi t) ++ [at_safi t] ++ be_enc 8 v
     | SRaw v => v
     end.
(* bgp-pkt serializer/mod.rs:175-187 write_tlv_header_t16_l16: tlv_length - 4
   in u16, an overflow panic below 4 *)
Definition tlv_header (t len : N) : wr :=
  if len <? 4 then Panic else Ok (be_enc 2 t ++ be_enc 2 (len - 4)).
(* serializer/v4.rs:221-310 *)
Definition tlv_code (v : tlv_val) : N :=
  match v with
  | TvCap _ => 1 | TvGroup _ => 2 | TvVrf _ => 3 | TvUpdate _ => 4 | TvMark _ _ => 5 | TvUnknown c _ => c
  end.
Definition tlv_val_len (v : tlv_val) : N :=
  match v with
  | TvCap c => cap_len c
  | TvGroup l => 2 * blen l
  | TvVrf b => blen b
  | TvUpdate m => pdu_len m
  | TvMark _ r => 4 + match r with Some _ => 2 | None => 0 end
  | TvUnknown _ b => blen b
  end.
Definition write_tlv_val (v : tlv_val) : wr :=
  match v with
  | TvCap c => map_err BW_Cap (write_cap c)
  | TvGroup l => Ok (flat_map (be_enc 2) l)
  | TvVrf b => Ok b
  | TvUpdate m => write_pdu m
  | TvMark s r => Ok (be_enc 4 s ++ match r with Some c => be_enc 2 c | None => [] end)
  | TvUnknown _ b => Ok b
  end.
Definition rm_tlv_len (t : rm_tlv) : N := 6 + tlv_val_len (tl_val t).
Definition write_rm_tlv (t : rm_tlv) : wr :=
  rbind (tlv_header (tlv_code (tl_val t)) (as_u16 (rm_tlv_len t - 2))) (fun hd =>
  rbind (write_tlv_val (tl_val t)) (fun b => Ok (hd ++ be_enc 2 (tl_index t) ++ b))).
(* serializer/v4.rs:152-176 *)
Definition write_raw_tlv (t : N * list N) : wr :=
  rbind (tlv_header (fst t) (as_u16 (4 + blen (snd t)))) (fun hd => Ok (hd ++ snd t)).
(* serializer/v3.rs:61-98 *)
Definition common_code (c : common) : N :=
  match c with CStats _ _ => 1 | CUp _ => 3 | CInit _ => 4 | CTerm _ => 5 | CMirror _ _ => 6 | CExp x _ => 251 + xp_num x end.
Definition common_len (c : common) : N :=
  match c with
  | CStats _ l => 4 + header_len + sum_len stat_len l
  | CUp p => up_len p
  | CInit l => sum_len info_len l
  | CTerm l => sum_len term_len l
  | CMirror _ l => header_len + sum_len mirrored_len l
  | CExp _ v => blen v
  end.
Definition write_common (c : common) : wr :=
  match c with
  | CStats h l => Ok (enc_header h ++ be_enc 4 (as_u32 (blen l)) ++ flat_map enc_stat l)
  | CUp p => write_up p
  | CInit l => Ok (flat_map enc_info l)
  | CTerm l => Ok (flat_map enc_term l)
  | CMirror h l => rbind (write_all write_mirrored l) (fun b => Ok (enc_header h ++ b))
  | CExp _ v => Ok v
  end.
Definition bmp_version (m : bmp_msg) : N :=
  match m with V3Monitoring _ _ | V3Down _ _ | V3Common _ => 3 | _ => 4 end.
Definition value_code (m : bmp_msg) : N :=
  match m with
  | V3Monitoring _ _ | V4Monitoring _ _ _ => 0
  | V3Down _ _ | V4Down _ _ _ => 2
  | V3Common c | V4Common c => common_code c
  end.
Definition value_len (m : bmp_msg) : N :=
  1 + match m with
      | V3Monitoring _ u => header_len + pdu_len u
      | V3Down _ d => header_len + reason_len d
      | V4Monitoring _ u l => header_len + rm_tlv_len (mkTlv 0 (TvUpdate u)) + sum_len rm_tlv_len l
      | V4Down _ d l => header_len + reason_len d + sum_len (fun t => 4 + blen (snd t)) l
      | V3Common c | V4Common c => common_len c
      end.
Definition write_value (m : bmp_msg) : wr :=
  match m with
  | V3Monitoring h u => rbind (write_pdu u) (fun b => Ok (enc_header h ++ b))
  | V3Down h d => rbind (write_reason d) (fun b => Ok (enc_header h ++ b))
  | V4Monitoring h u l =>
      rbind (write_all write_rm_tlv l) (fun b =>
      rbind (write_rm_tlv (mkTlv 0 (TvUpdate u))) (fun ub => Ok (enc_header h ++ b ++ ub)))
  | V4Down h d l =>
      rbind (write_reason d) (fun b =>
      rbind (write_all write_raw_tlv l) (fun tb => Ok (enc_header h ++ b ++ tb)))
  | V3Common c | V4Common c => write_common c
  end.
(* serializer/mod.rs:38-63; also codec.rs:273-282 Encoder::encode *)
Definition bmp_len (m : bmp_msg) : N := 5 + value_len m.
Definition write_bmp (m : bmp_msg) : wr :=
  rbind (write_value m) (fun b => Ok (bmp_version m :: be_enc 4 (as_u32 (bmp_len m)) ++ value_code m :: b)).
