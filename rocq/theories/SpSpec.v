(* What the speaker properties talk about. *)
From Verif Require Import Base AfModel BgpCapModel BgpFrameModel BgpNlriModel BgpAttrModel BgpMsgModel SpModel.

(* ---- the life of one connection ---- *)
(* At a time, either the connection is polled, with what the peer's bytes
   decode to and whether writes succeed, or the user sends a message. *)
Inductive cact : Type := CPoll (ready : option input) (write_ok : bool) | CSend (m : bgp_msg).
Record entry : Type := mkE {
  e_time : N;
  e_event : option cevent;        (* the event that was handled *)
  e_recv : option bgp_msg;        (* the message received, if the event came from one *)
  e_sent : list bgp_msg;          (* the messages written *)
  e_before : cstate;
  e_after : cstate }.

Section Life.
Context (third jit : N -> N) (my_open : open_msg).

Definition from_stream (e : cevent) (ready : option input) : option bgp_msg :=
  match e with
  | EvHold | EvKeep | EvDelay => None
  | _ => match ready with Some (IMsg m _) => Some m | _ => None end
  end.
Definition cstep (c : conn) (now : N) (a : cact) : conn * list entry :=
  match a with
  | CSend m => (sent now m c, [mkE now None None [m] (c_state c) (c_state c)])
  | CPoll ready w =>
    match poll now ready c with
    | None => (c, [])
    | Some (e, c1) =>
      let '(c2, ms, _) := handle_event third jit now my_open w e c1 in
      (c2, [mkE now (Some e) (from_stream e ready) ms (c_state c) (c_state c2)])
    end
  end.
Fixpoint crun (c : conn) (xs : list (N * cact)) : conn * list entry :=
  match xs with
  | [] => (c, [])
  | (now, a) :: r => let '(c1, h) := cstep c now a in let '(c2, hs) := crun c1 r in (c2, h ++ hs)
  end.
(* a connection from the moment TCP is up *)
Definition life (peer_asn : option N) (ty : ctype) (cf : cconf) (t0 : N) (w : bool) (xs : list (N * cact)) : conn * list entry :=
  let e := match ty with CActive => EvAcked | CPassive => EvConfirmed end in
  let '(c, ms, _) := handle_event third jit t0 my_open w e (conn_new peer_asn ty cf) in
  let '(c', h) := crun c xs in
  (c', mkE t0 (Some e) None ms Connected (c_state c) :: h).
End Life.

(* ---- RFC 4271, section 8.2.2, for one connection ---- *)
(* The states that may follow a state and an event; Terminate: closed. An
   undecodable NOTIFICATION changes nothing (section 6.4). *)
Definition rfc_next (s : cstate) (e : cevent) : list cstate :=
  match s, e with
  | Connected, (EvAcked | EvConfirmed) => [Connected; OpenSent]
  | Connected, EvDelay => [OpenSent]
  | Connected, EvOpenDelay _ => [OpenConfirm]
  | OpenSent, EvOpen _ => [OpenConfirm]
  | OpenConfirm, EvKeep => [OpenConfirm]
  | OpenConfirm, EvKeepalive => [Established]
  | Established, (EvKeep | EvKeepalive | EvUpdate _ _ | EvRefresh _) => [Established]
  | Terminate, _ => [Terminate]
  | s, EvNotifErr => [s]
  | _, _ => [Terminate]
  end.

(* the AS number an OPEN speaks for: that of the four-octet capability given
   last, otherwise the field of the header *)
Inductive speaks_for (o : open_msg) : N -> Prop :=
| for_header : (forall a, ~ In (CFourOctetAs a) (open_caps o)) -> speaks_for o (o_as o)
| for_cap l a r : open_caps o = l ++ CFourOctetAs a :: r -> (forall b, ~ In (CFourOctetAs b) r) -> speaks_for o a.
Definition acceptable (o : open_msg) (peer_asn : option N) : Prop :=
  match peer_asn with Some a => speaks_for o a | None => True end.

Definition got (m : bgp_msg) (e : entry) : Prop := e_recv e = Some m.
Definition wrote (m : bgp_msg) (e : entry) : Prop := In m (e_sent e).

(* ---- hold time ---- *)
Definition is_open (e : entry) : option open_msg := match e_recv e with Some (MOpen o) => Some o | _ => None end.
(* the OPEN received last, and the time of the last OPEN or KEEPALIVE *)
Fixpoint last_open (h : list entry) : option open_msg :=
  match h with [] => None | e :: r => match last_open r with Some o => Some o | None => is_open e end end.
Definition refreshes (e : entry) : bool := match e_recv e with Some (MOpen _) | Some MKeepAlive => true | _ => false end.
Fixpoint last_time (p : entry -> bool) (h : list entry) : option N :=
  match h with [] => None | e :: r => match last_time p r with Some t => Some t | None => if p e then Some (e_time e) else None end end.
Definition refreshes_rfc (e : entry) : bool :=
  match e_recv e with Some (MOpen _) | Some MKeepAlive | Some (MUpdate _) => true | _ => false end.
Definition negotiated (cf : cconf) (o : open_msg) : N := N.min (cf_hold cf) (o_hold o).
Definition up (s : cstate) : Prop := s = OpenConfirm \/ s = Established.
Definition sends_alive (e : entry) : bool :=
  existsb (fun m => match m with MUpdate _ | MKeepAlive => true | _ => false end) (e_sent e).
Fixpoint times_from (t : N) (xs : list (N * cact)) : Prop :=
  match xs with [] => True | (u, _) :: r => t <= u /\ times_from u r end.

(* ---- UPDATE ---- *)
Definition has (f : attr_value -> bool) (attrs : list pattr) : Prop := exists a, In a attrs /\ f (pa_val a) = true.
Definition origin (v : attr_value) : bool := match v with AOrigin _ => true | _ => false end.
Definition as_path (v : attr_value) : bool := match v with AAsPath _ _ => true | _ => false end.
Definition as4_path (v : attr_value) : bool := match v with AAs4Path _ => true | _ => false end.
Definition any_path (v : attr_value) : bool := as_path v || as4_path v.
Definition next_hop (v : attr_value) : bool := match v with ANextHop _ => true | _ => false end.
Definition mp_reach (v : attr_value) : bool := match v with AMpReach _ => true | _ => false end.
Definition mp_unreach (v : attr_value) : bool := match v with AMpUnreach _ => true | _ => false end.
Definition accepted (u : update_msg) (errs : list upd_err) : Prop := exists t, update_event u errs = EvUpdate u t.

(* ---- RFC 7606 ---- *)
(* what an error asks for, with the family an error of MP_REACH_NLRI or
   MP_UNREACH_NLRI is about *)
Definition mp_asks (e : mp_err) : treatment :=
  match e with
  | MpParse | MpAfi | MpSafi => TReset
  | MpIpAddr t | MpLabeled t | MpNlri t => TResetFamily (at_afi t) (at_safi t)
  end.
Definition asks (e : upd_err) : treatment :=
  match e with
  | UUnknown | UFlagPartial => TNormal
  | UAtomicAggregate | UAggregator | UOtc | UAigp | UBgpLs | USid => TDiscard
  | UMpReach e | UMpUnreach e => mp_asks e
  | _ => TWithdraw
  end.
Inductive milder : treatment -> treatment -> Prop :=
| m_same t : milder t t
| m_normal t : milder TNormal t
| m_discard_withdraw : milder TDiscard TWithdraw
| m_discard_family a s : milder TDiscard (TResetFamily a s)
| m_withdraw_family a s : milder TWithdraw (TResetFamily a s)
| m_family a s b r : milder (TResetFamily a s) (TResetFamily b r)
| m_reset t : milder t TReset.
(* the NLRI errors whose family is reported as it is *)
Definition bgpls_nlri (e : upd_err) : bool :=
  match e with
  | UMpReach (MpNlri BgpLs) | UMpReach (MpNlri BgpLsVpn) | UMpUnreach (MpNlri BgpLs) | UMpUnreach (MpNlri BgpLsVpn) => true
  | _ => false
  end.

(* ---- peer ---- *)
(* the FSM state and the main connection say the same *)
Definition agree (f : fsm) (c : option conn) : Prop :=
  match c with
  | None => f = Idle \/ f = Connect \/ f = Active
  | Some c => match c_state c with
              | Connected => f = Connect \/ f = Active
              | OpenSent => f = FOpenSent
              | OpenConfirm => f = FOpenConfirm
              | Established => f = FEstablished
              | Terminate => False
              end
  end.
(* no connection of the peer is taken while the FSM is idle *)
Fixpoint not_in_idle (third jit : N -> N) (my_open : open_msg) (p : peer) (xs : list pinput) : Prop :=
  match xs with
  | [] => True
  | x :: r =>
    (match x with PAdmin _ _ => p_fsm p = Idle -> match rev (p_waiting p) with Incoming :: _ => False | _ => True end | _ => True end)
    /\ not_in_idle third jit my_open (fst (step third jit my_open p x)) r
  end.
(* who initiated a connection, seen from a speaker: itself or its peer *)
Inductive speaker : Type := SpA | SpB.
Definition other (s : speaker) : speaker := match s with SpA => SpB | SpB => SpA end.
Definition initiator (me : speaker) (c : conn) : speaker := match c_type c with CActive => me | CPassive => other me end.
(* what a decision keeps *)
Definition keeps (d : collision) (main tracked : conn) : conn := match d with DropMain => tracked | _ => main end.

(* ---- the handshake ---- *)
(* an acceptable OPEN was received and answered with a KEEPALIVE, after or
   together with sending our OPEN, and nothing was received since *)
Definition opened (my_open : open_msg) (pa : option N) (h : list entry) : Prop :=
  exists h1 e1 h2 o, h = h1 ++ e1 :: h2
    /\ got (MOpen o) e1 /\ acceptable o pa
    /\ (exists e, In e (h1 ++ [e1]) /\ wrote (MOpen my_open) e)
    /\ wrote MKeepAlive e1
    /\ Forall (fun e => e_recv e = None) h2.
(* then a KEEPALIVE was received *)
Definition handshake (my_open : open_msg) (pa : option N) (h : list entry) : Prop :=
  exists h1 e2 h2, h = h1 ++ e2 :: h2 /\ opened my_open pa h1 /\ got MKeepAlive e2.
Definition writable (x : N * cact) : Prop := match snd x with CPoll _ w => w = true | CSend _ => True end.
(* all writes of a step of a peer succeed *)
Definition can_write (x : pinput) : Prop :=
  match x with
  | PSend _ _ wt w => w = true
  | PAdmin _ w | PConnect _ _ w | PMain _ _ w | PTracked _ _ w => w = true
  | _ => True
  end.
(* the attempt to connect does not fail *)
Definition no_failed_connect (x : pinput) : Prop := match x with PConnect _ false _ => False | _ => True end.
