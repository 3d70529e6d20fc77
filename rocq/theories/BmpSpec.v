(* What a BMP monitoring station relies on: messages that can be exchanged,
   and what the history of a session says about a peer. *)
From Verif Require Import Base AfModel FramingModel BgpCapModel BgpCapSpec BgpFrameModel BgpNlriModel BgpNlriSpec
  BgpAttrModel BgpAttrSpec BgpMsgModel BgpMsgSpec BmpModel.

(* A reader that goes on after a decoding error, the error being one of the
   things it saw. *)
Definition resume {S I E} (D : decoder S I E) : decoder S (I + E) Empty_set :=
  fun s b => match D s b with
             | (s', b', DNone) => (s', b', DNone)
             | (s', b', DItem i) => (s', b', DItem (inl i))
             | (s', b', DErr e) => (s', b', DItem (inr e))
             | (s', b', DPanic) => (s', b', DPanic)
             end.
(* the messages among what was seen *)
Fixpoint items {I E} (os : list (dout I E)) : list I :=
  match os with
  | [] => []
  | DItem i :: r => i :: items r
  | _ :: r => items r
  end.
Fixpoint lefts {A B} (l : list (A + B)) : list A :=
  match l with [] => [] | inl a :: r => a :: lefts r | inr _ :: r => lefts r end.

(* ---- the session events a message stands for ---- *)
Inductive event : Type :=
| EvUp (h : peer_header) (sent recv : open_msg)
| EvDown (h : peer_header)
| EvTerm.
Definition event_of (m : bmp_msg) : option event :=
  match m with
  | V3Common (CUp p) | V4Common (CUp p) =>
      match pu_sent p, pu_recv p with
      | MOpen so, MOpen ro => Some (EvUp (pu_hdr p) so ro)
      | _, _ => None
      end
  | V3Down h _ | V4Down h _ _ => Some (EvDown h)
  | V3Common (CTerm _) | V4Common (CTerm _) => Some EvTerm
  | _ => None
  end.
Fixpoint events (ms : list bmp_msg) : list event :=
  match ms with
  | [] => []
  | m :: r => match event_of m with Some e => e :: events r | None => events r end
  end.

(* Which peer a header is about: everything but the flags and the time. *)
Definition same_peer (a b : peer_header) : Prop :=
  ptype_code (ph_type a) = ptype_code (ph_type b) /\ ph_rd a = ph_rd b /\ ph_addr a = ph_addr b /\
  ph_as a = ph_as b /\ ph_id a = ph_id b.
Definition same_peer_dec (a b : peer_header) : {same_peer a b} + {~ same_peer a b}.
Proof.
  unfold same_peer.
  destruct (N.eq_dec (ptype_code (ph_type a)) (ptype_code (ph_type b))); [|right; tauto].
  destruct (N.eq_dec (ph_as a) (ph_as b)); [|right; tauto].
  destruct (N.eq_dec (ph_id a) (ph_id b)); [|right; tauto].
  assert (D1 : {ph_rd a = ph_rd b} + {ph_rd a <> ph_rd b}) by (repeat decide equality).
  assert (D2 : {ph_addr a = ph_addr b} + {ph_addr a <> ph_addr b}) by (repeat decide equality).
  destruct D1; [|right; tauto]. destruct D2; [left|right]; tauto.
Defined.

(* RFC 7911, section 4: what one side says about a family; a later entry of
   the OPEN replaces an earlier one *)
Definition add_path_entries (o : open_msg) : list (addr_type * bool * bool) :=
  flat_map (fun c => match c with CAddPath l => l | _ => [] end) (concat (o_params o)).
Fixpoint last_entry (t : addr_type) (l : list (addr_type * bool * bool)) : option (bool * bool) :=
  match l with
  | [] => None
  | (t', s, r) :: l' =>
      match last_entry t l' with
      | Some x => Some x
      | None => if addr_type_eq_dec t t' then Some (s, r) else None
      end
  end.
(* path identifiers are on the wire towards the peer (out) when we send and
   the peer receives; from the peer when the peer sends and we receive *)
Definition agreed_add_path (out : bool) (sent recv : open_msg) (t : addr_type) : option bool :=
  match last_entry t (add_path_entries sent), last_entry t (add_path_entries recv) with
  | Some (ls, lr), Some (rs, rr) => Some (if out then ls && rr else rs && lr)
  | _, _ => None
  end.
(* [add_path_now out evs h t]: what a history, latest event first, says about
   family t of peer h in one direction. A Loc-RIB peer may come up several
   times, once per family (RFC 9069, section 6.1.1). *)
Fixpoint add_path_now (out : bool) (evs : list event) (h : peer_header) (t : addr_type) : bool :=
  match evs with
  | [] => false
  | EvTerm :: _ => false
  | EvDown h' :: older => if same_peer_dec h' h then false else add_path_now out older h t
  | EvUp h' sent recv :: older =>
      if same_peer_dec h' h then
        match agreed_add_path out sent recv t with
        | Some b => b
        | None => if is_locrib h' then add_path_now out older h t else false
        end
      else add_path_now out older h t
  end.

(* RFC 8277: the label counts both sides announced; the last one counts *)
Definition label_entries (o : open_msg) : list (addr_type * N) :=
  flat_map (fun c => match c with CMultipleLabels l => l | _ => [] end) (concat (o_params o)).
Definition label_entry_eq_dec (a b : addr_type * N) : {a = b} + {a <> b}.
Proof. decide equality; [apply N.eq_dec|apply addr_type_eq_dec]. Defined.
Definition agreed_label (sent recv : open_msg) (t : addr_type) : option N :=
  fold_left (fun acc e =>
    if addr_type_eq_dec t (fst e) then
      (if in_dec label_entry_eq_dec e (label_entries recv) then Some (snd e) else acc)
    else acc) (label_entries sent) None.
Fixpoint label_limit_now (evs : list event) (h : peer_header) (t : addr_type) : N :=
  match evs with
  | [] => 1
  | EvTerm :: _ => 1
  | EvDown h' :: older => if same_peer_dec h' h then 1 else label_limit_now older h t
  | EvUp h' sent recv :: older =>
      if same_peer_dec h' h then
        match agreed_label sent recv t with
        | Some n => n
        | None => if is_locrib h' then label_limit_now older h t else 1
        end
      else label_limit_now older h t
  end.

(* Hypotheses the code needs and the protocol grants. *)
(* A peer-up is about the peer in its header: the BGP ID there is the one the
   peer put in its OPEN (RFC 7854, section 4.2), or at least is not the ID of
   another session to the same address that [h] is. *)
Definition speaks_for_itself (h : peer_header) (e : event) : Prop :=
  match e with
  | EvUp h' _ recv =>
      is_locrib h' = true \/ o_id recv <> ph_id h \/ ph_id h' = o_id recv
  | _ => True
  end.
(* the O flag of the peer-ups of the peer is the direction asked about *)
Definition up_direction (out : bool) (h : peer_header) (e : event) : Prop :=
  match e with EvUp h' _ _ => same_peer h' h -> adj_rib_out h' = out | _ => True end.

(* ---- messages that can be exchanged ---- *)
Definition addr_fits (v6 : bool) (a : option bip) : Prop :=
  match a with
  | None => True
  | Some (B4 v) => v6 = false /\ 0 < v < 2 ^ 32
  | Some (B6 v) => v6 = true /\ 0 < v < 2 ^ 128
  end.
(* microseconds of a time after the epoch; a leap second is the 60th second *)
Definition time_fits (t : option (N * N)) : Prop :=
  match t with
  | None => True
  | Some (s, n) =>
      s < 2 ^ 32 /\ n mod 1000 = 0 /\ (0 < s \/ 0 < n) /\
      (n < 1000000000 \/ (n < 2000000000 /\ s mod 60 = 59))
  end.
Definition header_fits (h : peer_header) : Prop :=
  (match ph_type h with PExp _ flags => flags < 256 | _ => True end) /\
  (match ph_rd h with None => True | Some d => rd_fits d /\ d <> RdAs2 0 0 end) /\
  addr_fits (check_is_ipv6 (ph_type h)) (ph_addr h) /\
  u32 (ph_as h) /\ u32 (ph_id h) /\ time_fits (ph_time h).
Definition info_fits (i : info) : Prop :=
  ((fst i <= 4 /\ utf8_ok (snd i) = true) \/ 65531 <= fst i <= 65534) /\ blen (snd i) <= 65535.
(* a BGP message inside a BMP message about a peer known by [x] *)
Definition pdu_fits (x : bctx) (m : bgp_msg) : Prop := msg_fits (x_asn4 x) (x_labels x) (x_add_path x) m.
Definition open_pdu (m : bgp_msg) : Prop := exists o, m = MOpen o /\ open_fits o.
Definition port_fits (p : option N) : Prop := match p with None => True | Some v => 0 < v < 65536 end.
Definition up_fits (p : peer_up) : Prop :=
  header_fits (pu_hdr p) /\ addr_fits (check_is_ipv6 (ph_type (pu_hdr p))) (pu_addr p) /\
  port_fits (pu_lport p) /\ port_fits (pu_rport p) /\
  open_pdu (pu_sent p) /\ open_pdu (pu_recv p) /\ Forall info_fits (pu_info p).
Definition reason_fits (d : down_reason) : Prop :=
  match d with
  | DLocalPdu m | DRemotePdu m => exists n, m = MNotification n /\ notif_fits n
  | DLocalFsm v => u16 v
  | DLocalTlv i => info_fits i /\ fst i = 3
  | _ => True
  end.
Definition mirrored_fits (x : bctx) (v : mirrored) : Prop :=
  match v with
  | MvParsed m => pdu_fits x m
  | MvRaw _ => False                       (* read back as a parsed message *)
  | MvInfo c => c <= 1 \/ 65531 <= c <= 65534
  | MvExp _ b => blen b <= 65535
  end.
Definition term_fits (t : term_info) : Prop :=
  match t with
  | TiString v => utf8_ok v = true /\ blen v <= 65535
  | TiReason c => c <= 4 \/ 65531 <= c <= 65534
  | TiExp _ v => blen v <= 65535
  end.
(* Shape of each statistic, from the registry (RFC 7854 4.8, RFC 8671 6.1.2,
   draft-ietf-grow-bmp-bgp-rib-stats): a 32-bit counter, a 64-bit gauge, or a
   64-bit gauge of one address family. *)
Definition counter32 (code : N) : Prop := code <= 6 \/ 11 <= code <= 13.
Definition gauge64 (code : N) : Prop :=
  code = 7 \/ code = 8 \/ code = 14 \/ code = 15 \/ code = 18 \/ code = 20 \/ code = 29 \/ code = 31 \/ code = 33 \/ code = 39.
Definition family_gauge64 (code : N) : Prop :=
  code = 9 \/ code = 10 \/ code = 16 \/ code = 17 \/ code = 19 \/ 21 <= code <= 23 \/ 26 <= code <= 28 \/ code = 30 \/
  code = 32 \/ 34 <= code <= 38 \/ 40 <= code <= 43.
Definition stat_fits (s : stat) : Prop :=
  u16 (fst s) /\
  match snd s with
  | S32 v => counter32 (fst s) /\ u32 v
  | S64 v => gauge64 (fst s) /\ u64 v
  | SAf _ v => family_gauge64 (fst s) /\ u64 v
  | SRaw v => (fst s = 24 \/ fst s = 25 \/ 44 <= fst s) /\ blen v <= 65535
  end.
Definition common_fits (x : peer_header -> bctx) (c : common) : Prop :=
  match c with
  | CStats h l => header_fits h /\ Forall stat_fits l
  | CUp p => up_fits p
  | CInit l => Forall info_fits l
  | CTerm l => Forall term_fits l
  | CMirror h l => header_fits h /\ Forall (mirrored_fits (x h)) l
  | CExp _ _ => True
  end.
(* what the stateless-parsing TLVs of a v4 message change, for that message *)
Definition after_tlvs (out : bool) (x : bctx) (l : list rm_tlv) : bctx :=
  fold_left (fun x t => match tl_val t with TvCap c => update_capability c out x | _ => x end) l x.
Definition tlv_fits (t : rm_tlv) : Prop :=
  u16 (tl_index t) /\
  match tl_val t with
  | TvCap c => cap_fits c /\ not_multiple_labels c
  | TvGroup l => Forall u16 l /\ 32768 <= tl_index t /\ 2 * blen l <= 65531
  | TvVrf v => utf8_ok v = true /\ blen v <= 255
  | TvUpdate _ => False                    (* the update has its own place *)
  | TvMark s r => u32 s /\ match r with Some c => u16 c | None => True end
  | TvUnknown c v => u16 c /\ ~ In c [1; 2; 3; 4; 5] /\ blen v <= 65531
  end.
Definition raw_tlv_fits (t : N * list N) : Prop := u16 (fst t) /\ blen (snd t) <= 65531.
(* [x h]: how BGP messages of the peer in header h are read *)
Definition bmp_fits (x : peer_header -> bctx) (m : bmp_msg) : Prop :=
  bmp_len m < 2 ^ 32 /\
  match m with
  | V3Monitoring h u => header_fits h /\ (exists y, u = MUpdate y) /\ pdu_fits (x h) u
  | V4Monitoring h u l =>
      header_fits h /\ (exists y, u = MUpdate y) /\ Forall tlv_fits l /\
      pdu_fits (after_tlvs (adj_rib_out h) (x h) l) u /\ pdu_len u <= 65531
  | V3Down h d => header_fits h /\ reason_fits d
  | V4Down h d l =>
      header_fits h /\ reason_fits d /\ Forall raw_tlv_fits l /\
      (* an experimental reason runs to the end of the message *)
      (match d with DExp _ _ => l = [] | _ => True end)
  | V3Common c | V4Common c => common_fits x c
  end.
(* the way the decoder reads the BGP messages of a peer *)
Definition reads (k : bmp_codec) (h : peer_header) : bctx :=
  set_asn4 (is_asn4 h) (peer_ctx (key_of h) (bk_ctx k)).

(* ---- frames ---- *)
Definition frame_length (b : list N) : N := be_val (take 4 (drop 1 b)).
(* a whole message as the common header declares it *)
Definition whole_frame (f : list N) : Prop :=
  5 <= blen f /\ version_ok (nth 0 f 0) = true /\ frame_length f = blen f.

(* label counts the label arithmetic can bear *)
Definition small_counts (l : list (addr_type * N)) : Prop := Forall (fun e => snd e <= 7) l.
Definition small_event (e : event) : Prop :=
  match e with EvUp _ sent _ => small_counts (label_entries sent) | _ => True end.
(* the octets hold a v4 TLV header of type 1 whose value is a Multiple Labels
   capability with a larger count *)
Definition overlabelled (f : list N) : Prop :=
  exists pre t1 t2 l1 l2 i1 i2 v post off r l,
    f = pre ++ [t1; t2; l1; l2; i1; i2] ++ v ++ post /\
    be_val [t1; t2] = 1 /\ be_val [l1; l2] = blen v /\
    parse_cap (mkR v off) = (r, Ok (CMultipleLabels l)) /\ ~ small_counts l.
(* the events of what was decoded, latest first *)
Definition history (os : list (dout (bmp_msg + bmp_err) Empty_set)) : list event :=
  rev (events (lefts (items os))).
(* [settled_on L A evs h]: L and A are the label counts and path identifiers
   the history says peer h uses *)
Definition settled_on (labels : label_limits) (ap : add_paths) (evs : list event) (h : peer_header) : Prop :=
  (forall t, limit_of labels t = label_limit_now evs h t) /\
  (forall t, add_path_of ap t = add_path_now (adj_rib_out h) evs h t).
(* the messages of a stream, each readable when it arrives *)
Fixpoint bmp_written (ms : list bmp_msg) (b : list N) : Prop :=
  match ms with
  | [] => b = []
  | m :: r => exists b1 b2, write_bmp m = Ok b1 /\ bmp_written r b2 /\ b = b1 ++ b2
  end.
(* everything the codec knows about a peer but the AS number width, which every
   message states anew *)
Definition knows (k : bmp_codec) (h : peer_header) : label_limits * add_paths :=
  (x_labels (reads k h), x_add_path (reads k h)).
(* the peer a message is about *)
Definition header_of (m : bmp_msg) : option peer_header :=
  match m with
  | V3Monitoring h _ | V4Monitoring h _ _ | V3Down h _ | V4Down h _ _
  | V3Common (CStats h _) | V4Common (CStats h _) | V3Common (CMirror h _) | V4Common (CMirror h _) => Some h
  | V3Common (CUp p) | V4Common (CUp p) => Some (pu_hdr p)
  | _ => None
  end.
(* A message written after the events [evs] (latest first): it holds only what
   the history lets its peer use. *)
Definition fits_after (evs : list event) (m : bmp_msg) : Prop :=
  match header_of m with
  | None => forall x, bmp_fits x m
  | Some h =>
      Forall (speaks_for_itself h) evs /\ Forall (up_direction (adj_rib_out h) h) evs /\
      forall x, x_asn4 x = is_asn4 h -> settled_on (x_labels x) (x_add_path x) evs h -> bmp_fits (fun _ => x) m
  end.
Fixpoint bmp_stream_fits (evs : list event) (ms : list bmp_msg) : Prop :=
  match ms with
  | [] => True
  | m :: r =>
      fits_after evs m /\ bmp_stream_fits (match event_of m with Some e => e :: evs | None => evs end) r
  end.
(* whom an event may concern *)
Definition event_about (e : event) (h : peer_header) : Prop :=
  match e with EvUp h' _ _ | EvDown h' => same_peer h' h | EvTerm => True end.
