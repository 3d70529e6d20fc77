(* BGP messages: crates/bgp-pkt/src/{open,update,notification,route_refresh}.rs,
   wire/{deserializer,serializer}/{open,update,notification,route_refresh}.rs
   and the parsing context of wire/deserializer/mod.rs.
   Simplifications: error offsets are dropped; the NOTIFICATION enums are one
   record of code, subcode and data (each Rust variant is one valid pair);
   capacity hints (count_nlri, count_path_attributes, count_t8_l8_tlvs) only
   size allocations and are left out. *)
From Verif Require Import Base MapLib AfModel FramingModel BgpCapModel BgpFrameModel BgpNlriModel BgpAttrModel.

(* deserializer/mod.rs:60-66 BgpParsingIgnoredErrors *)
Record ignored : Type := mkIgn {
  ig_withdraw : list net; ig_update : list net; ig_caps : list cap_err; ig_attrs : list attr_err }.
Definition no_ignored : ignored := mkIgn [] [] [] [].
(* deserializer/mod.rs:87-97 BgpParsingContext *)
Record bctx : Type := mkCtx {
  x_asn4 : bool; x_labels : label_limits; x_add_path : add_paths;
  x_fail_withdraw : bool; x_fail_update : bool; x_fail_cap : bool; x_fail_attr : bool;
  x_ign : ignored }.
Definition with_ign (f : ignored -> ignored) (c : bctx) : bctx :=
  mkCtx (x_asn4 c) (x_labels c) (x_add_path c) (x_fail_withdraw c) (x_fail_update c)
        (x_fail_cap c) (x_fail_attr c) (f (x_ign c)).
Definition push_withdraw (n : net) : bctx -> bctx :=
  with_ign (fun i => mkIgn (ig_withdraw i ++ [n]) (ig_update i) (ig_caps i) (ig_attrs i)).
Definition push_update (n : net) : bctx -> bctx :=
  with_ign (fun i => mkIgn (ig_withdraw i) (ig_update i ++ [n]) (ig_caps i) (ig_attrs i)).
Definition push_cap (e : cap_err) : bctx -> bctx :=
  with_ign (fun i => mkIgn (ig_withdraw i) (ig_update i) (ig_caps i ++ [e]) (ig_attrs i)).
Definition push_attr (e : attr_err) : bctx -> bctx :=
  with_ign (fun i => mkIgn (ig_withdraw i) (ig_update i) (ig_caps i) (ig_attrs i ++ [e])).
(* mod.rs:137-139, 199-201 *)
Definition set_asn4 (b : bool) (c : bctx) : bctx :=
  mkCtx b (x_labels c) (x_add_path c) (x_fail_withdraw c) (x_fail_update c)
        (x_fail_cap c) (x_fail_attr c) (x_ign c).
Definition reset_errors (c : bctx) : bctx * ignored := (with_ign (fun _ => no_ignored) c, x_ign c).
(* mod.rs:204-208 Default, 121-131 asn2_default *)
Definition default_ctx : bctx := mkCtx true [] [] true true true true no_ignored.
Definition asn2_ctx : bctx := mkCtx false [] [] true true true true no_ignored.
(* mod.rs:157-179 update_capabilities *)
Definition update_capability (c : cap) (adj_rib_out : bool) (x : bctx) : bctx :=
  match c with
  | CAddPath fams =>
      mkCtx (x_asn4 x) (x_labels x)
        (fold_left (fun m f => match f with (t, s, rv) => mset at_eqb t (if adj_rib_out then s else rv) m end)
                   fams (x_add_path x))
        (x_fail_withdraw x) (x_fail_update x) (x_fail_cap x) (x_fail_attr x) (x_ign x)
  | CMultipleLabels ls =>
      mkCtx (x_asn4 x) (fold_left (fun m f => mset at_eqb (fst f) (snd f) m) ls (x_labels x)) (x_add_path x)
        (x_fail_withdraw x) (x_fail_update x) (x_fail_cap x) (x_fail_attr x) (x_ign x)
  | _ => x
  end.

(* [while !buf.is_empty()] with a step that yields an element or skips *)
Fixpoint cmany {C E A} (fuel : nat) (step : cparser C E (option A)) : cparser C E (list A) :=
  fun c r =>
    if ris_empty r then (c, r, Ok [])
    else match fuel with
         | O => (c, r, Diverge)
         | S f => cbind step (fun o => cbind (cmany f step) (fun xs =>
                    cret (match o with Some x => x :: xs | None => xs end))) c r
         end.
Definition cmany_all {C E A} (step : cparser C E (option A)) : cparser C E (list A) :=
  fun c r => cmany (S (length (rbuf r))) step c r.
(* parse in the sub-slice of n octets *)
Definition in_sub {C E A} (g : perr -> E) (n : N) (p : cparser C E A) : cparser C E A :=
  cbind (clift (pmap_err g (take_slice n))) (fun sub => con_sub sub p).

(* ---- OPEN ---- *)
Record open_msg : Type := mkOpen { o_as : N; o_hold : N; o_id : N; o_params : list (list cap) }.
Definition open_caps (o : open_msg) : list cap := concat (o_params o).
(* deserializer/open.rs:25-65 *)
Inductive open_err : Type :=
| OE_Parse (e : perr) | OE_Version (v : N) | OE_HoldTime (t : N) | OE_BgpId (id : N)
| OE_ParamParse (e : perr) | OE_ParamType (code : N) | OE_Capability (e : cap_err).
(* core::net Ipv4Addr is_broadcast, is_multicast, is_unspecified on the u32 *)
Definition bad_bgp_id (id : N) : bool :=
  (id =? 4294967295) || ((224 <=? id / 16777216) && (id / 16777216 <=? 239)) || (id =? 0).
(* open.rs:155-188 *)
Definition cap_step : cparser bctx open_err (option cap) :=
  fun c r => match parse_cap r with
             | (r', Ok x) => (c, r', Ok (Some x))
             | (r', Err e) => if x_fail_cap c then (c, r', Err (OE_Capability e))
                              else (push_cap e c, r', Ok None)
             | (r', Panic) => (c, r', Panic)
             | (r', Diverge) => (c, r', Diverge)
             end.
Definition parse_cap_param : cparser bctx open_err (list cap) :=
  cbind (clift (pmap_err OE_ParamParse read_u8)) (fun len =>
  in_sub OE_ParamParse len (cmany_all cap_step)).
(* open.rs:128-153; parameter type 255 is known but refused *)
Definition parse_param : cparser bctx open_err (list cap) :=
  cbind (clift (pmap_err OE_ParamParse peek_u8)) (fun code =>
  if code =? 2 then cbind (clift (pmap_err OE_ParamParse read_u8)) (fun _ => parse_cap_param)
  else cfail (OE_ParamType code)).
(* open.rs:67-126 *)
Definition parse_open : cparser bctx open_err open_msg :=
  cbind (clift (pmap_err OE_Parse peek_u8)) (fun version =>
  if negb (version =? 4) then cfail (OE_Version version)
  else
  cbind (clift (pmap_err OE_Parse read_u8)) (fun _ =>
  cbind (clift (pmap_err OE_Parse read_u16)) (fun my_as =>
  cbind (clift (pmap_err OE_Parse (peek_be 2))) (fun hold =>
  if (hold =? 1) || (hold =? 2) then cfail (OE_HoldTime hold)
  else
  cbind (clift (pmap_err OE_Parse read_u16)) (fun _ =>
  cbind (clift (pmap_err OE_Parse (peek_be 4))) (fun id =>
  if bad_bgp_id id then cfail (OE_BgpId id)
  else
  cbind (clift (pmap_err OE_Parse read_u32)) (fun _ =>
  cbind (clift (pmap_err OE_Parse read_u8)) (fun len =>
  if len =? 0 then cret (mkOpen my_as hold id [])
  else
  cbind (in_sub OE_Parse len (cmany_all (cbind parse_param (fun x => cret (Some x))))) (fun ps =>
  cret (mkOpen my_as hold id ps)))))))))).
(* serializer/open.rs:35-86 *)
Fixpoint write_caps (cs : list cap) : res cap_werr (list N) :=
  match cs with
  | [] => Ok []
  | c :: r => rbind (write_cap c) (fun b => rbind (write_caps r) (fun bs => Ok (b ++ bs)))
  end.
Definition param_len (cs : list cap) : N := 2 + sum_len cap_len cs.
Definition write_param (cs : list cap) : res cap_werr (list N) :=
  rbind (write_caps cs) (fun b => Ok (2 :: as_u8 (param_len cs - 2) :: b)).
Fixpoint write_params (ps : list (list cap)) : res cap_werr (list N) :=
  match ps with
  | [] => Ok []
  | p :: r => rbind (write_param p) (fun b => rbind (write_params r) (fun bs => Ok (b ++ bs)))
  end.
Definition open_len (o : open_msg) : N := 10 + sum_len param_len (o_params o).
Definition write_open (o : open_msg) : res cap_werr (list N) :=
  rbind (write_params (o_params o)) (fun b =>
  Ok (4 :: be_enc 2 (o_as o) ++ be_enc 2 (o_hold o) ++ be_enc 4 (o_id o)
        ++ as_u8 (sum_len param_len (o_params o)) :: b)).

(* ---- UPDATE ---- *)
Definition route : Type := (option N * net)%type.
Record update_msg : Type := mkUpdate { u_withdrawn : list route; u_attrs : list pattr; u_nlri : list route }.
(* deserializer/update.rs:35-53 *)
Inductive update_err : Type :=
| UE_Parse (e : perr) | UE_Attr (e : attr_err) | UE_Prefix (e : nlri_err) | UE_NotUnicast (n : net).
(* update.rs:104-131: a prefix that is no unicast prefix *)
Definition check_route (is_update : bool) (pid : option N) (n : net) : cparser bctx update_err (option route) :=
  if family_ok Ipv4Unicast n then cret (Some (pid, n))
  else fun c r =>
    let c1 := if is_update && x_fail_update c then push_update n c else c in
    if negb is_update && negb (x_fail_withdraw c) then (push_withdraw n c1, r, Ok None)
    else if is_update && negb (x_fail_update c) then (push_update n c1, r, Ok None)
    else (c1, r, Err (UE_NotUnicast n)).
(* update.rs:91-133 parse_nlri, one element *)
Definition read_path_id (ap : bool) : parser update_err (option N) :=
  if ap then pmap_err UE_Parse (do v <- read_u32;; ret (Some v)) else ret None.
Definition route_step (ap is_update : bool) : cparser bctx update_err (option route) :=
  cbind (clift (read_path_id ap)) (fun pid =>
  cbind (clift (pmap_err UE_Prefix (parse_net 4))) (fun n => check_route is_update pid n)).
(* update.rs:176-191 advance_attr_buffer *)
Definition skip_attr : parser update_err reader :=
  do flags <- pmap_err UE_Parse read_u8;;
  do_ pmap_err UE_Parse read_u8;;
  if flag_set 16 flags then (do len <- pmap_err UE_Parse read_u16;; pmap_err UE_Parse (take_slice len))
  else (do len <- pmap_err UE_Parse read_u8;; pmap_err UE_Parse (take_slice len)).
(* update.rs:195-214 advance_attr_buffer_fixed *)
Definition skip_attr_fixed (n : N) : parser update_err reader :=
  do flags <- pmap_err UE_Parse read_u8;;
  if flag_set 16 flags then pmap_err UE_Parse (take_slice (n + 3))
  else pmap_err UE_Parse (take_slice (n + 2)).
(* update.rs:259-363 handle_path_error *)
Definition handle_attr_error (asn4 : bool) (e : attr_err) : parser update_err reader :=
  match e with
  | AE_Header p
  | AE_Attr (KOrigin | KAsPath | KNextHop | KMed | KLocalPref | KAtomicAggregate | KAggregator
             | KCommunities | KExtComm | KExtComm6) (Some p) => fail (UE_Parse p)
  | AE_Attr (KOrigin | KAsPath) None => pmap_err UE_Parse (take_slice 0)
  | AE_Attr (KNextHop | KMed | KLocalPref) None => pmap_err UE_Parse (take_slice 4)
  | AE_Attr KAtomicAggregate None => pmap_err UE_Parse (take_slice 0)
  | AE_Attr KAggregator None => pmap_err UE_Parse (take_slice (if asn4 then 8 else 6))
  | AE_Attr KOriginator _ => skip_attr_fixed 4
  | AE_Attr _ _ => skip_attr
  end.
(* update.rs:232-251, one turn of the attribute loop *)
Definition attr_step : cparser bctx update_err (option pattr) :=
  fun c r => match parse_attr (x_asn4 c) (x_labels c) (x_add_path c) r with
             | (r', Ok a) => (c, r', Ok (Some a))
             | (r', Err (AE_Header e)) => (c, r', Err (UE_Parse e))
             | (r', Err e) =>
                 if x_fail_attr c then (c, r', Err (UE_Attr e))
                 else match handle_attr_error (x_asn4 c) e r' with
                      | (r'', Ok _) => (push_attr e c, r'', Ok None)
                      | (r'', Err e') => (c, r'', Err e')
                      | (r'', Panic) => (c, r'', Panic)
                      | (r'', Diverge) => (c, r'', Diverge)
                      end
             | (r', Panic) => (c, r', Panic)
             | (r', Diverge) => (c, r', Diverge)
             end.
(* update.rs:217-257 *)
Definition parse_update : cparser bctx update_err update_msg :=
  fun c0 => 
  let ap := add_path_of (x_add_path c0) Ipv4Unicast in
  cbind (clift (pmap_err UE_Parse read_u16)) (fun wlen =>
  cbind (in_sub UE_Parse wlen (cmany_all (route_step ap false))) (fun ws =>
  cbind (clift (pmap_err UE_Parse read_u16)) (fun alen =>
  cbind (in_sub UE_Parse alen (cmany_all attr_step)) (fun attrs =>
  cbind (cmany_all (route_step ap true)) (fun ns =>
  cret (mkUpdate ws attrs ns)))))) c0.
(* serializer/update.rs:36-83 *)
Definition enc_route (x : route) : list N := enc_path_id (fst x) ++ enc_net (snd x).
Definition route_len (x : route) : N := path_id_len (fst x) + net_len (snd x).
Fixpoint write_attrs (xs : list pattr) : res nlri_werr (list N) :=
  match xs with
  | [] => Ok []
  | a :: r => rbind (write_attr a) (fun b => rbind (write_attrs r) (fun bs => Ok (b ++ bs)))
  end.
Definition update_len (u : update_msg) : N :=
  4 + sum_len route_len (u_withdrawn u) + sum_len attr_len (u_attrs u) + sum_len route_len (u_nlri u).
Definition write_update (u : update_msg) : res nlri_werr (list N) :=
  rbind (write_attrs (u_attrs u)) (fun ab =>
  Ok (be_enc 2 (as_u16 (sum_len route_len (u_withdrawn u))) ++ flat_map enc_route (u_withdrawn u)
      ++ be_enc 2 (as_u16 (sum_len attr_len (u_attrs u))) ++ ab
      ++ flat_map enc_route (u_nlri u))).

(* ---- NOTIFICATION: notification.rs, deserializer/notification.rs:66-383 ---- *)
Record notif : Type := mkNotif { n_code : N; n_sub : N; n_data : list N }.
Inductive notif_err : Type := NFE_Parse (e : perr) | NFE_Code (c : N) | NFE_Sub (c s : N).
(* iana.rs: the subcodes of each error code; every subcode is accepted for
   Hold Timer Expired *)
Definition subcodes (code : N) : option (list N) :=
  match code with
  | 1 => Some [0; 1; 2; 3]
  | 2 => Some [0; 1; 2; 3; 4; 6; 7; 11]
  | 3 => Some [0; 1; 2; 3; 4; 5; 6; 8; 9; 10; 11]
  | 5 => Some [0; 1; 2; 3]
  | 6 => Some [1; 2; 3; 4; 5; 6; 7; 8; 9; 10]
  | 7 => Some [1]
  | _ => None
  end.
Definition sub_ok (code sub : N) : bool :=
  if code =? 4 then true
  else match subcodes code with
       | Some l => existsb (N.eqb sub) l
       | None => false
       end.
Definition parse_notif : parser notif_err notif :=
  do code <- pmap_err NFE_Parse peek_u8;;
  if (1 <=? code) && (code <=? 7) then
    do_ pmap_err NFE_Parse read_u8;;
    do sub <- pmap_err NFE_Parse peek_u8;;
    if sub_ok code sub then
      do_ pmap_err NFE_Parse read_u8;;
      do r <- get_reader;;
      do v <- pmap_err NFE_Parse (read_bytes (remaining r));;
      ret (mkNotif code sub v)
    else fail (NFE_Sub code sub)
  else fail (NFE_Code code).
(* serializer/notification.rs:56-… *)
Definition write_notif (n : notif) : list N := n_code n :: n_sub n :: n_data n.
Definition notif_len (n : notif) : N := 2 + blen (n_data n).

(* ---- ROUTE-REFRESH: deserializer/route_refresh.rs:47-88 ---- *)
Record refresh : Type := mkRefresh { rr_type : addr_type; rr_op : N }.
Inductive refresh_err : Type :=
| RRE_Parse (e : perr) | RRE_Afi (v : N) | RRE_Op (v : N) | RRE_Safi (v : N) | RRE_Family (afi safi : N).
Definition parse_refresh : parser refresh_err refresh :=
  do afi <- pmap_err RRE_Parse (peek_be 2);;
  if afi_ok afi then
    do_ pmap_err RRE_Parse read_u16;;
    do op <- pmap_err RRE_Parse peek_u8;;
    if op <=? 2 then
      do_ pmap_err RRE_Parse read_u8;;
      do safi <- pmap_err RRE_Parse peek_u8;;
      if safi_ok safi then
        do_ pmap_err RRE_Parse read_u8;;
        match from_afi_safi afi safi with
        | Some t => ret (mkRefresh t op)
        | None => fail (RRE_Family afi safi)
        end
      else fail (RRE_Safi safi)
    else fail (RRE_Op op)
  else fail (RRE_Afi afi).
(* serializer/route_refresh.rs:28-46 *)
Definition write_refresh (m : refresh) : list N :=
  be_enc 2 (at_afi (rr_type m)) ++ [rr_op m; at_safi (rr_type m)].

(* ---- BgpMessage ---- *)
Inductive bgp_msg : Type :=
| MOpen (o : open_msg) | MUpdate (u : update_msg) | MNotification (n : notif)
| MKeepAlive | MRouteRefresh (r : refresh).
Inductive body_err : Type :=
| EOpen (e : open_err) | EUpdate (e : update_err) | ENotif (e : notif_err) | ERefresh (e : refresh_err).
(* deserializer/mod.rs:360-378 *)
Definition parse_body (t : mtype) : cparser bctx body_err bgp_msg :=
  match t with
  | TOpen => cbind (cmap_err EOpen parse_open) (fun o => cret (MOpen o))
  | TUpdate => cbind (cmap_err EUpdate parse_update) (fun u => cret (MUpdate u))
  | TNotification => cbind (cmap_err ENotif (clift parse_notif)) (fun n => cret (MNotification n))
  | TKeepAlive => cret MKeepAlive
  | TRouteRefresh => cbind (cmap_err ERefresh (clift parse_refresh)) (fun r => cret (MRouteRefresh r))
  end.
Definition msg_type (m : bgp_msg) : mtype :=
  match m with
  | MOpen _ => TOpen | MUpdate _ => TUpdate | MNotification _ => TNotification
  | MKeepAlive => TKeepAlive | MRouteRefresh _ => TRouteRefresh
  end.
Definition msg_len (m : bgp_msg) : N :=
  match m with
  | MOpen o => open_len o | MUpdate u => update_len u | MNotification n => notif_len n
  | MKeepAlive => 0 | MRouteRefresh _ => 4
  end.
Inductive body_werr : Type := WE_Cap (e : cap_werr) | WE_Nlri (e : nlri_werr).
Definition write_body (m : bgp_msg) : res body_werr (list N) :=
  match m with
  | MOpen o => map_err WE_Cap (write_open o)
  | MUpdate u => map_err WE_Nlri (write_update u)
  | MNotification n => Ok (write_notif n)
  | MKeepAlive => Ok []
  | MRouteRefresh r => Ok (write_refresh r)
  end.
Definition write_bgp (m : bgp_msg) : res (bgp_werr body_werr) (list N) :=
  write_message msg_type msg_len write_body m.
Definition parse_bgp : cparser bctx (bgp_err body_err) bgp_msg := parse_message parse_body.

(* ---- the codec: codec.rs ---- *)
Definition is_four_octet (c : cap) : bool := match c with CFourOctetAs _ => true | _ => false end.
(* codec.rs:108-116, 141-149 *)
Definition asn4_of (m : bgp_msg) : option bool :=
  match m with MOpen o => Some (existsb is_four_octet (open_caps o)) | _ => None end.
Definition bgp_ops : ctx_ops bctx ignored := mkOps set_asn4 reset_errors.
Definition bgp_codec : Type := codec bctx.
Definition decode_bgp : decoder bgp_codec (bgp_msg * ignored) (bgp_err body_err) :=
  bgp_decode bgp_ops parse_body asn4_of.
(* codec.rs:133-151 Encoder::encode: the session state changes before the
   write, whether or not the write succeeds *)
Definition encode_bgp (k : bgp_codec) (m : bgp_msg) : bgp_codec * res (bgp_werr body_werr) (list N) :=
  (mkCodec (match asn4_of m with Some b => Some b | None => k_sent k end) (k_recv k) (k_ctx k), write_bgp m).
(* codec.rs:43-57 new, 36 Default *)
Definition codec_new (asn4 : bool) : bgp_codec :=
  mkCodec (Some asn4) (Some asn4) (mkCtx true [] [] false false false false no_ignored).
Definition codec_default : bgp_codec := mkCodec None None default_ctx.

(* ---- errors as NOTIFICATION messages ---- *)
(* deserializer/open.rs:190-250 *)
Definition open_notif (e : open_err) : notif :=
  match e with
  | OE_Parse _ | OE_ParamParse _ | OE_Capability _ => mkNotif 2 0 []
  | OE_Version _ => mkNotif 2 1 (be_enc 2 4)
  | OE_HoldTime t => mkNotif 2 6 (be_enc 2 t)
  | OE_BgpId id => mkNotif 2 3 (be_enc 4 id)
  | OE_ParamType code => mkNotif 2 4 [code]
  end.
(* deserializer/update.rs:365-531 *)
Definition update_notif (e : update_err) : notif :=
  let sub := match e with
  | UE_Parse (Eof _ _ _) => 1
  | UE_Parse _ => 0
  | UE_Attr (AE_Header _) => 1
  | UE_Attr (AE_Attr k _) =>
      match k with
      | KOrigin => 6 | KAsPath => 11 | KNextHop => 8
      | KUnknown | KBgpLs => 0 | KFlags => 4
      | _ => 9
      end
  | UE_Prefix (NE_Parse _) => 1
  | UE_Prefix _ => 10
  | UE_NotUnicast _ => 0
  end in mkNotif 3 sub [].
(* deserializer/mod.rs:394-446 *)
Definition notif_of (e : bgp_err body_err) : notif :=
  match e with
  | BE_Parse _ => mkNotif 1 0 []
  | BE_NotSynchronized h => mkNotif 1 1 (be_enc 16 h)
  | BE_UndefinedType c => mkNotif 1 3 [c]
  | BE_Length l => mkNotif 1 2 (be_enc 2 l)
  | BE_Unparsed l _ => mkNotif 1 2 (be_enc 2 l)
  | BE_Body (EOpen e) => open_notif e
  | BE_Body (EUpdate e) => update_notif e
  | BE_Body (ENotif _) => mkNotif 5 0 []
  | BE_Body (ERefresh _) => mkNotif 7 1 []
  end.
