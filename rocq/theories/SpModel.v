(* The BGP speaker: crates/bgp-speaker/src/connection.rs, peer.rs, events.rs
   and fsm.rs.
   Simplifications: times are nanoseconds of one clock and an Interval is its
   period and next deadline (MissedTickBehavior::Burst); the framed codec is
   what it yields, a message with its tolerated errors or an error; a write
   either succeeds at once or fails, given with each event; statistics,
   capabilities kept for inspection, hooks of the policy and logging are left
   out. *)
From Verif Require Import Base MapLib AfModel BgpCapModel BgpFrameModel BgpNlriModel BgpAttrModel BgpMsgModel.

(* ---- update treatment ---- *)
(* MpReachParsingError and MpUnreachParsingError, path_attribute.rs:613-640,
   1058-1080: MpNlri t stands for the variant of the family t *)
Inductive mp_err : Type := MpParse | MpAfi | MpSafi | MpIpAddr (t : addr_type) | MpLabeled (t : addr_type) | MpNlri (t : addr_type).
(* PathAttributeParsingError, path_attribute.rs:68-116 *)
Inductive upd_err : Type :=
| UParse | UOrigin | UAsPath | UNextHop | UMed | ULocalPref | UAtomicAggregate | UAggregator
| UCommunities | UExtComm | UExtComm6 | ULargeComm | UOriginator | UClusterList
| UMpReach (e : mp_err) | UMpUnreach (e : mp_err)
| UOtc | UAigp | UUnknown | UFlagOptional | UFlagTransitive | UFlagPartial | UBgpLs | USid.
(* events.rs:36-66 *)
Inductive treatment : Type := TNormal | TDiscard | TWithdraw | TResetFamily (afi safi : N) | TReset.
(* events.rs:68-99 Ord: the position in the order *)
Definition t_rank (t : treatment) : N :=
  match t with TNormal => 0 | TDiscard => 1 | TWithdraw => 2 | TResetFamily _ _ => 3 | TReset => 4 end.
(* connection.rs:919-1034, 1050-1150: the family named for each variant; the
   families without a variant of their own never occur *)
Definition nlri_family (t : addr_type) : N * N :=
  match t with
  | Ipv4Unicast => (1, 1) | Ipv4Multicast => (1, 2) | Ipv4NlriMplsLabels => (1, 4) | Ipv4MplsLabeledVpn => (1, 128)
  | Ipv6Unicast => (2, 1) | Ipv6Multicast => (2, 2) | Ipv6NlriMplsLabels => (2, 4) | Ipv6MplsLabeledVpn => (2, 128)
  | L2VpnBgpEvpn => (25, 70)
  | RouteTargetConstrains => (1, 132)
  | BgpLs | BgpLsVpn => (1, 132)
  | t => (at_afi t, at_safi t)
  end.
Definition mp_treatment (e : mp_err) : treatment :=
  match e with
  | MpParse | MpAfi | MpSafi => TReset
  | MpIpAddr t | MpLabeled t => TResetFamily (at_afi t) (at_safi t)
  | MpNlri t => TResetFamily (fst (nlri_family t)) (snd (nlri_family t))
  end.
(* connection.rs:860-1200: what each error asks for; None keeps the treatment *)
Definition err_treatment (e : upd_err) : option treatment :=
  match e with
  | UParse => Some TWithdraw
  | UOrigin | UAsPath | UNextHop | UMed | ULocalPref => Some TWithdraw
  | UAtomicAggregate | UAggregator => Some TDiscard
  | UCommunities | UExtComm | UExtComm6 | ULargeComm => Some TWithdraw
  | UOriginator | UClusterList => Some TWithdraw
  | UMpReach e | UMpUnreach e => Some (mp_treatment e)
  | UOtc | UAigp => Some TDiscard
  | UUnknown => None
  | UFlagOptional | UFlagTransitive => Some TWithdraw
  | UFlagPartial => None
  | UBgpLs | USid => Some TDiscard
  end.
Definition raise (t : treatment) (e : upd_err) : treatment :=
  match err_treatment e with
  | Some t' => if t_rank t <? t_rank t' then t' else t
  | None => t
  end.
(* connection.rs:856-1205 *)
Definition update_treatment (es : list upd_err) : treatment := fold_left raise es TNormal.

(* ---- events ---- *)
(* events.rs:322-415 ConnectionEvent; errors carry the NOTIFICATION built from
   them *)
Inductive cevent : Type :=
| EvHold | EvKeep | EvDelay | EvAcked | EvConfirmed | EvFails
| EvOpen (o : open_msg) | EvOpenDelay (o : open_msg)
| EvHeaderErr (n : notif) | EvOpenErr (n : notif) | EvVerErr | EvNotif (n : notif) | EvNotifErr
| EvKeepalive | EvUpdate (u : update_msg) (t : treatment) | EvUpdateErr (n : notif)
| EvRefresh (r : refresh) | EvRefreshErr (n : notif).
(* what the framed stream yields *)
Inductive input : Type :=
| IMsg (m : bgp_msg) (errs : list upd_err) | IErr (e : bgp_err body_err) | IIncomplete | IIo | IEof.

(* events.rs:417-467 *)
Definition err_event (e : bgp_err body_err) : cevent :=
  match e with
  | BE_Body (EOpen _) => EvOpenErr (notif_of e)
  | BE_Body (EUpdate _) => EvUpdateErr (notif_of e)
  | BE_Body (ENotif _) => EvNotifErr
  | BE_Body (ERefresh _) => EvRefreshErr (notif_of e)
  | _ => EvHeaderErr (notif_of e)
  end.

(* bgp-pkt/src/open.rs:92-105: the last FourOctetAs capability, else the header *)
Definition asn4_caps (cs : list cap) : list N := flat_map (fun c => match c with CFourOctetAs a => [a] | _ => [] end) cs.
Definition my_asn4 (o : open_msg) : N := last (asn4_caps (open_caps o)) (o_as o).
(* connection.rs:1207-1236 *)
Definition open_event (o : open_msg) (peer_asn : option N) (delay : bool) : cevent :=
  match peer_asn with
  | Some a => if a =? my_asn4 o then (if delay then EvOpenDelay o else EvOpen o) else EvOpenErr (mkNotif 2 2 (be_enc 4 a))
  | None => if delay then EvOpenDelay o else EvOpen o
  end.

(* bgp-pkt/src/update.rs:87-180 end_of_rib, as a yes or no *)
Definition is_nil {A} (l : list A) : bool := match l with [] => true | _ => false end.
Fixpoint eor_scan (seen : bool) (cur : bool) (attrs : list pattr) : bool :=
  match attrs with
  | [] => cur
  | a :: r =>
    match pa_val a with
    | AMpReach _ => false
    | AMpUnreach m =>
      if seen then false
      else eor_scan true (match m with
                          | MuKnown _ xs => if is_nil xs then true else cur
                          | MuOpaque _ v => if is_nil v then true else cur
                          | MuUnknown _ _ _ => false
                          end) r
    | _ => eor_scan seen cur r
    end
  end.
Definition end_of_rib (u : update_msg) : bool :=
  if negb (is_nil (u_nlri u)) || negb (is_nil (u_withdrawn u)) then false
  else if is_nil (u_attrs u) then true else eor_scan false false (u_attrs u).

(* connection.rs:1238-1309; the loop over the attributes *)
Record scan : Type := mkScan { s_origin : bool; s_aspath : bool; s_nexthop : bool; s_reach : N; s_unreach : N }.
Fixpoint scan_attrs (s : scan) (attrs : list pattr) : scan :=
  match attrs with
  | [] => s
  | a :: r =>
    if s_origin s && s_aspath s then s
    else scan_attrs (match pa_val a with
         | AOrigin _ => mkScan true (s_aspath s) (s_nexthop s) (s_reach s) (s_unreach s)
         | AAsPath _ _ | AAs4Path _ => mkScan (s_origin s) true (s_nexthop s) (s_reach s) (s_unreach s)
         | ANextHop _ => mkScan (s_origin s) (s_aspath s) true (s_reach s) (s_unreach s)
         | AMpReach _ => mkScan (s_origin s) (s_aspath s) (s_nexthop s) (s_reach s + 1) (s_unreach s)
         | AMpUnreach _ => mkScan (s_origin s) (s_aspath s) (s_nexthop s) (s_reach s) (s_unreach s + 1)
         | _ => s
         end) r
  end.
Definition update_event (u : update_msg) (errs : list upd_err) : cevent :=
  let eor := end_of_rib u in
  let s := scan_attrs (mkScan false false false 0 0) (u_attrs u) in
  if negb eor && negb (s_origin s) then EvUpdateErr (mkNotif 3 3 [1])
  else if negb eor && negb (s_aspath s) then EvUpdateErr (mkNotif 3 3 [2])
  else if negb eor && (s_reach s =? 0) && (s_unreach s =? 0) && negb (s_nexthop s) && negb (is_nil (u_nlri u))
  then EvUpdateErr (mkNotif 3 3 [3])
  else if (1 <? s_reach s) || (1 <? s_unreach s) then EvUpdateErr (mkNotif 3 1 [])
  else EvUpdate u (update_treatment errs).

(* ---- connection ---- *)
Inductive cstate : Type := Connected | OpenSent | OpenConfirm | Established | Terminate.
Inductive ctype : Type := CActive | CPassive.
(* connection.rs:171-178 ConnectionConfig, seconds *)
Record cconf : Type := mkCf { cf_notif : bool; cf_delay : N; cf_hold : N; cf_large : N; cf_keep : N }.
Record timer : Type := mkT { t_period : N; t_deadline : N }.
(* connection.rs:276-317 *)
Record conn : Type := mkC {
  c_state : cstate; c_type : ctype; c_conf : cconf;
  c_peer_asn : option N; c_peer_id : option N; c_peer_hold : option N;
  c_ka : option timer; c_ka_dur : N;          (* keepalive_timer, keepalive_timer_duration *)
  c_delay : option timer;                     (* open_delay_timer *)
  c_hold : option timer; c_hold_dur : N }.    (* hold_timer, hold_timer_duration *)
Definition secs (n : N) : N := n * 1000000000.

Definition with_state (s : cstate) (c : conn) : conn :=
  mkC s (c_type c) (c_conf c) (c_peer_asn c) (c_peer_id c) (c_peer_hold c) (c_ka c) (c_ka_dur c) (c_delay c) (c_hold c) (c_hold_dur c).
Definition with_ka (t : option timer) (c : conn) : conn :=
  mkC (c_state c) (c_type c) (c_conf c) (c_peer_asn c) (c_peer_id c) (c_peer_hold c) t (c_ka_dur c) (c_delay c) (c_hold c) (c_hold_dur c).
Definition with_delay (t : option timer) (c : conn) : conn :=
  mkC (c_state c) (c_type c) (c_conf c) (c_peer_asn c) (c_peer_id c) (c_peer_hold c) (c_ka c) (c_ka_dur c) t (c_hold c) (c_hold_dur c).
Definition with_hold (t : option timer) (c : conn) : conn :=
  mkC (c_state c) (c_type c) (c_conf c) (c_peer_asn c) (c_peer_id c) (c_peer_hold c) (c_ka c) (c_ka_dur c) (c_delay c) t (c_hold_dur c).
Definition with_hold_dur (d : N) (c : conn) : conn :=
  mkC (c_state c) (c_type c) (c_conf c) (c_peer_asn c) (c_peer_id c) (c_peer_hold c) (c_ka c) (c_ka_dur c) (c_delay c) (c_hold c) d.
Definition with_peer_id (i : N) (c : conn) : conn :=
  mkC (c_state c) (c_type c) (c_conf c) (c_peer_asn c) (Some i) (c_peer_hold c) (c_ka c) (c_ka_dur c) (c_delay c) (c_hold c) (c_hold_dur c).
(* 326-364 *)
Definition conn_new (peer_asn : option N) (ty : ctype) (cf : cconf) : conn :=
  mkC Connected ty cf peer_asn None None None (secs (cf_keep cf)) None None (secs (cf_hold cf)).

(* tokio::time::interval with reset: first tick one period from now *)
Definition start_timer (period now : N) : timer := mkT period (now + period).
Definition restart (now : N) (t : option timer) : option timer :=
  match t with Some t => Some (start_timer (t_period t) now) | None => None end.
Definition due (now : N) (t : option timer) : bool := match t with Some t => t_deadline t <=? now | None => false end.
Definition ticked (t : option timer) : option timer :=
  match t with Some t => Some (mkT (t_period t) (t_deadline t + t_period t)) | None => None end.

Section Conn.
(* third: Duration::div_f32(3.0) of a number of seconds; jit: mul_f32 with the
   jitter of the connection *)
Context (third jit : N -> N).

(* 417-423 read_open_msg *)
Definition read_open (o : open_msg) (c : conn) : conn :=
  mkC (c_state c) (c_type c) (c_conf c) (Some (my_asn4 o)) (Some (o_id o)) (Some (o_hold o)) (c_ka c) (c_ka_dur c) (c_delay c) (c_hold c) (c_hold_dur c).
(* 425-444 set_negotiated_timers *)
Definition negotiate (c : conn) : conn :=
  let '(hd, kd) :=
    if cf_hold (c_conf c) =? 0 then (0, 0)
    else let h := match c_peer_hold c with Some h => N.min (cf_hold (c_conf c)) h | None => cf_large (c_conf c) end in
         (secs h, third h) in
  mkC (c_state c) (c_type c) (c_conf c) (c_peer_asn c) (c_peer_id c) (c_peer_hold c) (c_ka c) kd (c_delay c) (c_hold c) hd.
(* 447-458 start_hold_timer *)
Definition start_hold (now : N) (c : conn) : conn :=
  if cf_large (c_conf c) =? 0 then c
  else let d := secs (cf_large (c_conf c)) in with_hold (Some (start_timer d now)) (with_hold_dur d c).
(* 495-600, 602-696: both timers after the negotiation *)
Definition start_negotiated (now : N) (c : conn) : conn :=
  let c := if c_ka_dur c =? 0 then c else with_ka (Some (start_timer (jit (c_ka_dur c)) now)) c in
  if c_hold_dur c =? 0 then c else with_hold (Some (start_timer (c_hold_dur c) now)) c.
(* 1426-1464 start_send: UPDATE and KEEPALIVE restart the keepalive timer *)
Definition sent (now : N) (m : bgp_msg) (c : conn) : conn :=
  match m with MUpdate _ | MKeepAlive => with_ka (restart now (c_ka c)) c | _ => c end.

(* A handler gives the connection, what was written, and whether no write
   failed with an error that is passed on. w: whether writes succeed. *)
Definition outcome : Type := (conn * list bgp_msg * bool)%type.
Definition notify (w : bool) (n : notif) (c : conn) : outcome :=
  (with_state Terminate c, if w then [MNotification n] else [], true).
Definition stop (c : conn) : outcome := (with_state Terminate c, [], true).

(* 495-600 *)
Definition on_connected (now : N) (my_open : open_msg) (w : bool) (e : cevent) (c : conn) : outcome :=
  match e with
  | EvDelay =>
    let c := start_hold now c in
    if w then (with_state OpenSent c, [MOpen my_open], true) else (c, [], false)
  | EvAcked | EvConfirmed =>
    if cf_delay (c_conf c) =? 0 then
      let c := start_hold now c in
      if w then (with_state OpenSent c, [MOpen my_open], true) else (c, [], false)
    else (with_delay (Some (start_timer (secs (cf_delay (c_conf c))) now)) c, [], true)
  | EvOpenDelay o =>
    let c := start_negotiated now (negotiate (read_open o (with_delay None c))) in
    if w then (with_state OpenConfirm (sent now MKeepAlive c), [MOpen my_open; MKeepAlive], true) else (c, [], false)
  | EvHeaderErr n | EvOpenErr n =>
    if cf_notif (c_conf c) then notify w n c else stop c
  | EvVerErr => stop c
  | EvNotifErr => (c, [], true)
  | EvHold | EvKeep | EvFails | EvOpen _ | EvNotif _ | EvKeepalive | EvUpdate _ _ | EvUpdateErr _ | EvRefresh _ | EvRefreshErr _ => stop c
  end.
(* 602-696 *)
Definition on_open_sent (now : N) (w : bool) (e : cevent) (c : conn) : outcome :=
  match e with
  | EvHold => if w then (with_state Terminate c, [MNotification (mkNotif 4 0 [])], true) else (c, [], false)
  | EvOpen o =>
    let c := start_negotiated now (negotiate (read_open o (with_delay None c))) in
    if w then (with_state OpenConfirm (sent now MKeepAlive c), [MKeepAlive], true) else (c, [], false)
  | EvFails => stop c
  | EvHeaderErr n | EvOpenErr n => notify w n c
  | EvNotifErr => (c, [], true)
  | EvVerErr => stop c
  | EvKeep | EvDelay | EvOpenDelay _ | EvNotif _ | EvKeepalive | EvUpdate _ _ | EvUpdateErr _ | EvRefresh _ | EvRefreshErr _ =>
    notify w (mkNotif 5 1 []) c
  | EvAcked | EvConfirmed => stop c
  end.
(* 698-794 *)
Definition on_open_confirm (now : N) (w : bool) (e : cevent) (c : conn) : outcome :=
  match e with
  | EvHold => (with_state Terminate c, if w then [MNotification (mkNotif 4 0 [])] else [], w)
  | EvKeep => if w then (sent now MKeepAlive c, [MKeepAlive], true) else (c, [], false)
  | EvVerErr | EvNotif _ => stop c
  | EvHeaderErr n | EvOpenErr n => notify w n c
  | EvOpen _ => notify w (mkNotif 5 2 []) c
  | EvKeepalive => (with_state Established (with_hold (restart now (c_hold c)) c), [], true)
  | EvFails => stop c
  | EvNotifErr => (c, [], true)
  | EvDelay | EvOpenDelay _ | EvUpdate _ _ | EvUpdateErr _ | EvRefresh _ | EvRefreshErr _ => notify w (mkNotif 5 2 []) c
  | EvAcked | EvConfirmed => stop c
  end.
(* 796-853 *)
Definition on_established (now : N) (w : bool) (e : cevent) (c : conn) : outcome :=
  match e with
  | EvHold => notify w (mkNotif 4 0 []) c
  | EvKeep => if w then (sent now MKeepAlive c, [MKeepAlive], true) else (c, [], false)
  | EvDelay | EvOpen _ | EvOpenDelay _ | EvHeaderErr _ | EvOpenErr _ | EvVerErr | EvNotif _ => stop c
  | EvKeepalive => (with_hold (restart now (c_hold c)) c, [], true)
  | EvUpdate _ _ | EvRefresh _ => (c, [], true)
  | EvUpdateErr _ | EvRefreshErr _ | EvFails | EvAcked | EvConfirmed => stop c
  | EvNotifErr => (c, [], true)
  end.
(* 460-493 *)
Definition handle_event (now : N) (my_open : open_msg) (w : bool) (e : cevent) (c : conn) : outcome :=
  match c_state c with
  | Terminate => (c, [], true)
  | Connected => on_connected now my_open w e c
  | OpenSent => on_open_sent now w e c
  | OpenConfirm => on_open_confirm now w e c
  | Established => on_established now w e c
  end.

(* 1322-1409 poll_next at time [now] with what the stream has ready; the
   branches in the order of select_biased *)
Definition input_event (i : input) (c : conn) : cevent * conn :=
  match i with
  | IEof | IIo => (EvFails, c)
  | IIncomplete => (EvHeaderErr (mkNotif 1 2 []), c)
  | IErr e => (err_event e, c)
  | IMsg (MOpen o) _ =>
    (open_event o (c_peer_asn c) (match c_delay c with Some _ => true | None => false end), with_peer_id (o_id o) c)
  | IMsg (MUpdate u) errs => (update_event u errs, c)
  | IMsg (MNotification n) _ => (if (n_code n =? 2) && (n_sub n =? 1) then EvVerErr else EvNotif n, c)
  | IMsg (MRouteRefresh r) _ => (EvRefresh r, c)
  | IMsg MKeepAlive _ => (EvKeepalive, c)
  end.
Definition poll (now : N) (i : option input) (c : conn) : option (cevent * conn) :=
  if due now (c_ka c) then Some (EvKeep, with_ka (ticked (c_ka c)) c)
  else if due now (c_delay c) then Some (EvDelay, with_delay None c)
  else if due now (c_hold c) then Some (EvHold, with_hold (ticked (c_hold c)) c)
  else match i with Some i => Some (input_event i c) | None => None end.
End Conn.

(* ---- peer ---- *)
Inductive fsm : Type := Idle | Connect | Active | FOpenSent | FOpenConfirm | FEstablished.
Inductive admin : Type := ManualStart | ManualStop | AutomaticStart | AutomaticStop | Incoming.
(* events.rs:102-320 BgpEvent, those that are no connection events *)
Inductive bevent : Type :=
| BStart (a : admin) (passive : bool) | BStop (a : admin) | BRetry | BConnectFails | BCollision | BConn (e : cevent).
(* PeerConfig and PeerProperties, peer.rs:340-353, 499-505 *)
Record pconf : Type := mkPf {
  pf_conn : cconf; pf_passive : bool; pf_collide : bool;
  pf_peer_asn : option N;    (* None with allow_dynamic_as *)
  pf_my_id : N }.
(* peer.rs:542-565 *)
Record peer : Type := mkPeer {
  p_conf : pconf; p_up : bool; p_fsm : fsm; p_conn : option conn; p_tracked : option conn;
  p_retry : bool;            (* connect_retry_timer is set *)
  p_count : N;               (* connect_retry_counter; the u32 is unbounded *)
  p_allowed : bool;          (* allowed_to_active_connect *)
  p_waiting : list admin;    (* waiting_admin_events, last one pushed last *)
  p_hidden : bool;           (* the call of next_connection_event under way has let go of the tracked connection *)
  p_alive : bool }.          (* the loop of peer_controller.rs:206-226 still runs *)
Definition peer_new (cf : pconf) : peer := mkPeer cf false Idle None None false 0 false [] false true.

Definition setp (p : peer) (f : fsm) (c t : option conn) (retry : bool) (n : N) : peer :=
  mkPeer (p_conf p) (p_up p) f c t retry n (p_allowed p) (p_waiting p) (p_hidden p) (p_alive p).
Definition die (p : peer) : peer :=
  mkPeer (p_conf p) (p_up p) (p_fsm p) (p_conn p) (p_tracked p) (p_retry p) (p_count p) (p_allowed p) (p_waiting p) (p_hidden p) false.

(* what is seen from outside: a message written to a connection, an event
   reported to the user with the FSM state, an error that ends the peer *)
Inductive where_ : Type := OnMain | OnTracked | OnNew.
Inductive pout : Type := PSent (c : where_) (m : bgp_msg) | PEvent (f : fsm) (e : bevent) | PError.

Section Peer.
Context (third jit : N -> N) (my_open : open_msg).

(* 633-671; the state of a connection that becomes the main one *)
Definition fsm_of (s : cstate) (before : fsm) : fsm :=
  match s with
  | Terminate | Connected => before
  | OpenSent => FOpenSent | OpenConfirm => FOpenConfirm | Established => FEstablished
  end.
Definition add_connection (c : conn) (p : peer) : peer :=
  match p_conn p with
  | Some m => setp p (p_fsm p) (Some m) (Some c) (p_retry p) (p_count p)
  | None => setp p (fsm_of (c_state c) (p_fsm p)) (Some c) (p_tracked p) (p_retry p) (p_count p)
  end.
Definition tag (l : where_) (ms : list bgp_msg) : list pout := map (PSent l) ms.
(* 694-734, 842-871: a fresh connection handles its first event; an error ends
   the peer *)
Definition new_connection (now : N) (w : bool) (ty : ctype) (e : cevent) (p : peer) : peer * list pout :=
  let '(c, ms, ok) := handle_event third jit now my_open w e (conn_new (pf_peer_asn (p_conf p)) ty (pf_conn (p_conf p))) in
  let p := setp p (p_fsm p) (p_conn p) (p_tracked p) false (p_count p) in
  if ok then let p' := add_connection c p in (p', tag OnNew ms ++ [PEvent (p_fsm p') (BConn e)])
  else (die p, tag OnNew ms ++ [PError]).
(* 694-734 accept_connection *)
Definition rejected (p : peer) : bool :=
  negb (p_up p) || (match p_conn p, p_tracked p with Some _, Some _ => true | _, _ => false end)
  || (match p_fsm p with FEstablished => negb (pf_collide (p_conf p)) | _ => false end).
Definition accept (now : N) (w : bool) (p : peer) : peer * list pout :=
  if rejected p then (p, if cf_notif (pf_conn (p_conf p)) && w then [PSent OnNew (MNotification (mkNotif 6 5 []))] else [])
  else new_connection now w CPassive EvConfirmed p.
(* 796-822 shutdown *)
Definition cease_all (w : bool) (p : peer) : list pout :=
  let n := MNotification (mkNotif 6 2 []) in
  if w then (match p_conn p with Some _ => [PSent OnMain n] | None => [] end) ++ (match p_tracked p with Some _ => [PSent OnTracked n] | None => [] end)
  else [].
Definition shutdown (p : peer) (count : N) : peer :=
  mkPeer (p_conf p) false Idle None None false count (p_allowed p) (p_waiting p) (p_hidden p) (p_alive p).
(* 824-840 start, with the part of run 1550-1567; only called in Idle *)
Definition start (p : peer) : peer :=
  if pf_passive (p_conf p) then mkPeer (p_conf p) true Active (p_conn p) (p_tracked p) true 0 (p_allowed p) (p_waiting p) (p_hidden p) (p_alive p)
  else mkPeer (p_conf p) true Connect (p_conn p) (p_tracked p) true 0 true (p_waiting p) (p_hidden p) (p_alive p).
(* 1546-1602: one admin event *)
Definition run_admin (now : N) (w : bool) (a : admin) (p : peer) : peer * list pout :=
  match a with
  | ManualStart | AutomaticStart =>
    match p_fsm p with
    | Idle => let p' := start p in (p', [PEvent (p_fsm p') (BStart a (pf_passive (p_conf p)))])
    | _ => (p, [])
    end
  | ManualStop => (shutdown p 0, cease_all w p ++ [PEvent Idle (BStop a)])
  | AutomaticStop => (shutdown p (p_count p + 1), cease_all w p ++ [PEvent Idle (BStop a)])
  | Incoming => accept now w p
  end.

(* 908-1307: what the peer does after the main connection went from one state
   to another on an event. None: InvalidConnectionStateTransition. The result
   is the FSM state, whether the connection is kept, whether the retry timer is
   set (None: left as it is) and by how much the counter grows. *)
Definition retry_on : option bool := Some true.
Definition after_event (p_state : fsm) (delay : bool) (b a : cstate) (e : cevent) : option (fsm * bool * option bool * N) :=
  match b, a with
  | Connected, Connected =>
    match e with
    | EvAcked | EvConfirmed => if delay then Some (p_state, true, Some false, 0) else None
    | EvNotifErr => Some (p_state, true, None, 0)
    | _ => None
    end
  | Connected, OpenSent =>
    match e with
    | EvAcked | EvConfirmed => Some (FOpenSent, true, Some false, 0)
    | EvDelay => Some (FOpenSent, true, None, 0)
    | _ => None
    end
  | Connected, OpenConfirm =>
    match e with EvOpen _ | EvOpenDelay _ => Some (FOpenConfirm, true, Some false, 0) | _ => None end
  | Connected, Terminate =>
    match e with
    | EvFails =>
      match p_state with
      | Connect => if delay then Some (Active, false, retry_on, 0) else Some (Idle, false, Some false, 0)
      | Active => Some (Idle, false, Some false, 1)
      | _ => Some (Idle, false, Some false, 0)
      end
    | EvHeaderErr _ | EvOpenErr _ => Some (Idle, false, Some false, 1)
    | EvVerErr => Some (Idle, false, Some false, if delay then 0 else 1)
    | EvHold | EvKeep | EvOpen _ | EvNotif _ | EvKeepalive | EvUpdate _ _ | EvUpdateErr _ | EvRefresh _ | EvRefreshErr _ =>
      Some (Idle, false, Some false, 1)
    | _ => None
    end
  | OpenSent, OpenSent => match e with EvNotifErr => Some (p_state, true, None, 0) | _ => None end
  | OpenSent, OpenConfirm => match e with EvOpen _ => Some (FOpenConfirm, true, Some false, 0) | _ => None end
  | OpenSent, Terminate =>
    match e with
    | EvHold => Some (Idle, false, Some false, 1)
    | EvFails => Some (Active, false, retry_on, 0)
    | EvVerErr => Some (Idle, false, Some false, 0)
    | EvHeaderErr _ | EvOpenErr _ | EvKeep | EvDelay | EvOpenDelay _ | EvKeepalive | EvNotif _ | EvUpdate _ _ | EvUpdateErr _ | EvRefresh _ | EvRefreshErr _ =>
      Some (Idle, false, Some false, 1)
    | _ => None
    end
  | OpenConfirm, OpenConfirm => match e with EvKeep | EvNotifErr => Some (p_state, true, None, 0) | _ => None end
  | OpenConfirm, Established => match e with EvKeepalive => Some (FEstablished, true, None, 0) | _ => None end
  | OpenConfirm, Terminate =>
    match e with
    | EvHold | EvFails | EvOpen _ | EvOpenErr _ | EvHeaderErr _ | EvDelay | EvOpenDelay _ | EvNotif _ | EvUpdate _ _ | EvUpdateErr _ | EvRefresh _ | EvRefreshErr _ =>
      Some (Idle, false, Some false, 1)
    | EvVerErr => Some (Idle, false, Some false, 0)
    | _ => None
    end
  | Established, Established =>
    match e with
    | EvKeep | EvKeepalive | EvUpdate _ _ | EvRefresh _ | EvNotifErr => Some (p_state, true, None, 0)
    | EvNotif _ | EvVerErr => Some (Idle, false, Some false, 1)
    | _ => None
    end
  | Established, Terminate =>
    match e with
    | EvHold | EvDelay | EvFails | EvOpen _ | EvOpenDelay _ | EvHeaderErr _ | EvOpenErr _ | EvUpdateErr _ | EvRefreshErr _ | EvNotif _ | EvVerErr =>
      Some (Idle, false, Some false, 1)
    | _ => None
    end
  | _, _ => None
  end.
(* 1081: in (OpenSent, Terminate) the connection goes before the event is
   looked at *)
Definition handle_main (now : N) (w : bool) (e : cevent) (c : conn) (p : peer) : peer * list pout :=
  let '(c', ms, ok) := handle_event third jit now my_open w e c in
  if ok then
    match after_event (p_fsm p) (match c_delay c' with Some _ => true | None => false end) (c_state c) (c_state c') e with
    | None => (die (setp p (p_fsm p) (match c_state c, c_state c' with OpenSent, Terminate => None | _, _ => Some c' end) (p_tracked p) (p_retry p) (p_count p)),
               tag OnMain ms ++ [PError])
    | Some (f, keep, retry, n) =>
      (setp p f (if keep then Some c' else None) (p_tracked p) (match retry with Some b => b | None => p_retry p end) (p_count p + n),
       tag OnMain ms ++ [PEvent f (BConn e)])
    end
  else (die (setp p (p_fsm p) (Some c') (p_tracked p) (p_retry p) (p_count p)), tag OnMain ms ++ [PError]).

(* 1379-1424; the creation times are never set, so that they are always equal *)
Inductive collision : Type := DropMain | DropTracked | BadTracked (id : N).
Definition check_collision (my_id : N) (main tracked : option conn) : option collision :=
  match main, tracked with
  | Some m, Some t =>
    match c_peer_id m, c_peer_id t with
    | Some im, Some it =>
      if negb (it =? im) then Some (BadTracked it)
      else if my_id <? im then Some DropMain else Some DropTracked
    | _, _ => None
    end
  | _, _ => None
  end.
(* 1493-1544 handle_connect_event for the two collision results *)
Definition promote (w : bool) (p : peer) : peer * list pout :=
  match p_tracked p with
  | Some t =>
    match c_state t with
    | Connected | Terminate => (die (setp p (p_fsm p) (p_conn p) None (p_retry p) (p_count p + 1)), [PError])
    | s =>
      let f := fsm_of s (p_fsm p) in
      (setp p f (Some t) None (p_retry p) (p_count p + 1),
       (if w then match p_conn p with Some _ => [PSent OnMain (MNotification (mkNotif 6 7 []))] | None => [] end else []) ++ [PEvent f BCollision])
    end
  | None => (p, [PEvent (p_fsm p) BCollision])
  end.
Definition drop_tracked (w : bool) (p : peer) : peer * list pout :=
  (setp p (p_fsm p) (p_conn p) None (p_retry p) (p_count p),
   (if w then match p_tracked p with Some _ => [PSent OnTracked (MNotification (mkNotif 6 7 []))] | None => [] end else []) ++ [PEvent (p_fsm p) BCollision]).
(* 1428-1491: an event of the main connection; on a collision the event is not
   handled. With BadTracked the tracked connection is out of sight until this
   call returns, but the peer keeps it. *)
Definition hide (b : bool) (p : peer) : peer :=
  mkPeer (p_conf p) (p_up p) (p_fsm p) (p_conn p) (p_tracked p) (p_retry p) (p_count p) (p_allowed p) (p_waiting p) b (p_alive p).
Definition seen (p : peer) : option conn := if p_hidden p then None else p_tracked p.
Definition bad_tracked_out (w : bool) (id : N) : list pout :=
  if w then [PSent OnTracked (MNotification (mkNotif 2 3 (be_enc 4 id)))] else [].
Definition main_ready (now : N) (i : option input) (w : bool) (p : peer) : peer * list pout :=
  match p_conn p with
  | None => (p, [])
  | Some c =>
    match poll now i c with
    | None => (p, [])
    | Some (e, c1) =>
      let p1 := setp p (p_fsm p) (Some c1) (p_tracked p) (p_retry p) (p_count p) in
      match check_collision (pf_my_id (p_conf p)) (Some c1) (seen p) with
      | Some DropMain => promote w (hide false p1)
      | Some DropTracked => drop_tracked w (hide false p1)
      | Some (BadTracked id) => (hide true p1, bad_tracked_out w id)
      | None => handle_main now w e c1 (hide false p1)
      end
    end
  end.
(* 1340-1373 and the second branch of 1463-1485; a tracked connection is polled
   unless it is in OpenConfirm or the FSM in Connect; its errors are ignored *)
Definition tracked_ready (now : N) (i : option input) (w : bool) (p : peer) : peer * list pout :=
  match seen p with
  | None => (p, [])
  | Some t =>
    match p_fsm p, c_state t with
    | Connect, _ | _, OpenConfirm => (p, [])
    | _, _ =>
      match poll now i t with
      | None => (p, [])
      | Some (e, t1) =>
        let '(t2, ms, _) := handle_event third jit now my_open w e t1 in
        let p1 := setp p (p_fsm p) (p_conn p) (Some t2) (p_retry p) (p_count p) in
        let '(p2, o) :=
          match check_collision (pf_my_id (p_conf p)) (p_conn p) (Some t2) with
          | Some DropMain => promote w p1
          | Some DropTracked => drop_tracked w p1
          | Some (BadTracked id) => (hide true p1, bad_tracked_out w id)
          | None => (p1, [])
          end in
        (p2, tag OnTracked ms ++ o)
      end
    end
  end.
(* 736-754 send_bgp_message; wt, w: whether the tracked and the main
   connection can be written *)
Definition send_message (now : N) (m : bgp_msg) (wt w : bool) (p : peer) : peer * list pout :=
  let '(t, o1) := match p_tracked p with
                  | Some t => if wt then (Some (sent now m t), [PSent OnTracked m]) else (None, [])
                  | None => (None, [])
                  end in
  match p_conn p with
  | Some c => if w then (setp p (p_fsm p) (Some (sent now m c)) t (p_retry p) (p_count p), o1 ++ [PSent OnMain m])
              else (die (setp p (p_fsm p) (Some c) t (p_retry p) (p_count p)), o1 ++ [PError])
  | None => (setp p (p_fsm p) None t (p_retry p) (p_count p), o1)
  end.

(* What can happen next. From outside: a command is queued, or a message given
   to be sent; both cancel the call of run under way (peer_controller.rs:206-226).
   In run: the waiting command pushed last is popped; an attempt to connect is
   begun in Connect when allowed and dropped (PCancel) or ends (PConnect); the
   retry timer ticks; the main or the tracked connection has something ready. *)
Inductive pinput : Type :=
| PCommand (a : admin)
| PSend (now : N) (m : bgp_msg) (wt w : bool)
| PAdmin (now : N) (w : bool)
| PCancel
| PConnect (now : N) (ok w : bool)
| PRetry
| PMain (now : N) (i : option input) (w : bool)
| PTracked (now : N) (i : option input) (w : bool).
Definition allow (b : bool) (p : peer) : peer :=
  mkPeer (p_conf p) (p_up p) (p_fsm p) (p_conn p) (p_tracked p) (p_retry p) (p_count p) b (p_waiting p) (p_hidden p) (p_alive p).
Definition queue (q : list admin) (p : peer) : peer :=
  mkPeer (p_conf p) (p_up p) (p_fsm p) (p_conn p) (p_tracked p) (p_retry p) (p_count p) (p_allowed p) q (p_hidden p) (p_alive p).
Definition step (p : peer) (x : pinput) : peer * list pout :=
  if negb (p_alive p) then (p, [])
  else match x with
  | PCommand a => (hide false (queue (p_waiting p ++ [a]) p), [])
  | PSend now m wt w => send_message now m wt w (hide false p)
  | PAdmin now w =>
    match rev (p_waiting p) with
    | [] => (p, [])
    | a :: r => run_admin now w a (hide false (queue (rev r) p))
    end
  | PCancel => (hide false (match p_fsm p with Connect => allow false p | _ => p end), [])
  | PConnect now ok w =>          (* 1308-1335, 842-871 *)
    match p_fsm p with
    | Connect =>
      if p_allowed p then
        let p := hide false (allow false p) in
        if ok then new_connection now w CActive EvAcked p
        else (setp p (p_fsm p) (p_conn p) (p_tracked p) false (p_count p), [PEvent (p_fsm p) BConnectFails])
      else (p, [])
    | _ => (p, [])
    end
  | PRetry =>                     (* 1614-1629 *)
    if p_retry p then
      let f := match p_fsm p with Active => Connect | f => f end in
      (hide false (allow (match f with Connect => true | _ => false end) (setp p f None (p_tracked p) true (p_count p))),
       [PEvent f BRetry])
    else (p, [])
  | PMain now i w => main_ready now i w p
  | PTracked now i w => tracked_ready now i w p
  end.
Fixpoint run (p : peer) (xs : list pinput) : peer * list pout :=
  match xs with
  | [] => (p, [])
  | x :: xs => let '(p1, o) := step p x in let '(p2, os) := run p1 xs in (p2, o ++ os)
  end.
End Peer.

(* ---- the OPEN of EchoCapabilitiesPolicy, peer.rs:141-183 ---- *)
(* the derived PartialEq of BgpCapability *)
Definition cap_eq_dec (a b : cap) : {a = b} + {a <> b}.
Proof. repeat decide equality. Defined.
Definition cap_eqb (a b : cap) : bool := if cap_eq_dec a b then true else false.
Definition contains (cs : list cap) (c : cap) : bool := existsb (cap_eqb c) cs.
Definition as_trans : N := 23456.
Definition policy_open (my_asn : N) (by_default : bool) (my_id hold : N) (caps reject peer_caps : list cap) : open_msg :=
  let hdr := if 65535 <? my_asn then as_trans else my_asn in
  let cap4 := CFourOctetAs my_asn in
  let cs := if (by_default || (hdr =? as_trans)) && negb (contains caps cap4) then cap4 :: caps else caps in
  let cs := cs ++ filter (fun c => negb (contains caps c) && negb (contains reject c)) peer_caps in
  mkOpen hdr hold my_id (match cs with [] => [] | _ => [cs] end).
(* 186-205 pre_handle_connection_event_hook: the capabilities echoed *)
Definition is_asn4 (c : cap) : bool := match c with CFourOctetAs _ => true | _ => false end.
Definition echoed (o : open_msg) : list cap := filter (fun c => negb (is_asn4 c)) (open_caps o).
