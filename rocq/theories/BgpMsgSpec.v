(* BGP messages two speakers can exchange, and what a stream of them means. *)
From Verif Require Import Base AfModel FramingModel BgpCapModel BgpCapSpec BgpFrameModel BgpFrameSpec
  BgpNlriModel BgpNlriSpec BgpAttrModel BgpAttrSpec BgpMsgModel.

(* RFC 4271, section 4.2: a unicast host address; a hold time of zero or at
   least three seconds *)
Definition host_id (id : N) : Prop :=
  0 < id < 4294967295 /\ (id < 3758096384 \/ 4026531840 <= id).  (* not 224.0.0.0/4 *)
Definition hold_time_fits (h : N) : Prop := h = 0 \/ 3 <= h < 65536.
Definition octets_of_caps (cs : list cap) : N := sum_len cap_len cs.
Definition open_fits (o : open_msg) : Prop :=
  u16 (o_as o) /\ hold_time_fits (o_hold o) /\ host_id (o_id o) /\
  Forall (fun cs => Forall (fun c => cap_fits c /\ not_multiple_labels c) cs) (o_params o) /\
  sum_len param_len (o_params o) <= 255.

(* an IPv4 route of the UPDATE body *)
Definition route_fits (ap : bool) (x : route) : Prop :=
  path_id_fits ap (fst x) /\ net_wf 4 (snd x) /\ no_host_bits (snd x) /\
  family_ok Ipv4Unicast (snd x) = true.
Definition attr_sendable (asn4 : bool) (labels : label_limits) (ap : add_paths) (a : pattr) : Prop :=
  attr_fits asn4 labels ap a /\ not_unread_reach (pa_val a).
Definition update_fits (asn4 : bool) (labels : label_limits) (ap : add_paths) (u : update_msg) : Prop :=
  Forall (route_fits (add_path_of ap Ipv4Unicast)) (u_withdrawn u) /\
  Forall (attr_sendable asn4 labels ap) (u_attrs u) /\
  Forall (route_fits (add_path_of ap Ipv4Unicast)) (u_nlri u) /\
  update_len u <= 65535 - 19.

(* IANA "BGP Error (Notification) Codes" and subcodes *)
Definition iana_error (code sub : N) : Prop :=
  (code = 1 /\ sub <= 3) \/
  (code = 2 /\ In sub [0; 1; 2; 3; 4; 6; 7; 11]) \/
  (code = 3 /\ In sub [0; 1; 2; 3; 4; 5; 6; 8; 9; 10; 11]) \/
  (code = 4 /\ sub < 256) \/
  (code = 5 /\ sub <= 3) \/
  (code = 6 /\ 1 <= sub <= 10) \/
  (code = 7 /\ sub = 1).
Definition notif_fits (n : notif) : Prop :=
  iana_error (n_code n) (n_sub n) /\ blen (n_data n) <= 65535 - 21.

Definition msg_fits (asn4 : bool) (labels : label_limits) (ap : add_paths) (m : bgp_msg) : Prop :=
  match m with
  | MOpen o => open_fits o
  | MUpdate u => update_fits asn4 labels ap u
  | MNotification n => notif_fits n
  | MKeepAlive => True
  | MRouteRefresh r => rr_op r <= 2
  end.

(* the four-octet AS capability is in the OPEN *)
Definition announces_asn4 (o : open_msg) : bool :=
  existsb (fun c => match c with CFourOctetAs _ => true | _ => false end) (concat (o_params o)).
(* AS numbers have four octets once both sides announced it *)
Definition agreed (sent recv : option bool) : bool :=
  match sent, recv with Some true, Some true => true | _, _ => false end.
Definition learn (m : bgp_msg) (recv : option bool) : option bool :=
  match m with MOpen o => Some (announces_asn4 o) | _ => recv end.
(* every message of the stream can be written, given what the receiver knows
   when it arrives *)
Fixpoint stream_fits (sent recv : option bool) (labels : label_limits) (ap : add_paths) (ms : list bgp_msg) : Prop :=
  match ms with
  | [] => True
  | m :: r => msg_fits (agreed sent recv) labels ap m /\ stream_fits sent (learn m recv) labels ap r
  end.
(* the octets of a list of messages written one after the other *)
Fixpoint written (ms : list bgp_msg) (b : list N) : Prop :=
  match ms with
  | [] => b = []
  | m :: r => exists b1 b2, write_bgp m = Ok b1 /\ written r b2 /\ b = b1 ++ b2
  end.

(* A label limit of at most 7 keeps the label arithmetic in range. *)
Definition small_limits (labels : label_limits) : Prop := forall t, limit_of labels t <= 7.

(* ---- histories of one session: messages sent and octets received ---- *)
Inductive session_op : Type := SendMsg (m : bgp_msg) | RecvBuf (b : list N).
(* what the application sees of an operation *)
Definition session_step (k : bgp_codec) (op : session_op)
  : bgp_codec * option bgp_msg * option bgp_msg :=
  match op with
  | SendMsg m => (fst (encode_bgp k m), Some m, None)
  | RecvBuf b => match decode_bgp k b with
                 | (k', _, DItem (m, _)) => (k', None, Some m)
                 | (k', _, _) => (k', None, None)
                 end
  end.
Fixpoint session (k : bgp_codec) (ops : list session_op)
  : bgp_codec * list (option bgp_msg) * list (option bgp_msg) :=
  match ops with
  | [] => (k, [], [])
  | op :: r =>
      let '(k1, s, v) := session_step k op in
      let '(k2, ss, vs) := session k1 r in (k2, s :: ss, v :: vs)
  end.
(* whether the last OPEN of a list announced four-octet AS numbers *)
Definition last_announced (ms : list (option bgp_msg)) : bool :=
  match filter (fun m => match m with Some (MOpen _) => true | _ => false end) (rev ms) with
  | Some (MOpen o) :: _ => announces_asn4 o
  | _ => false
  end.
(* the AS paths of an UPDATE have AS numbers of the given width *)
Definition as_paths_have_width (four : bool) (u : update_msg) : Prop :=
  Forall (fun a => match pa_val a with
                   | AAsPath w _ => w = four
                   | _ => True end) (u_attrs u).

(* a path attribute with a consistent length field: one octet, or two when
   the extended-length flag (0x10) is set *)
Definition extended (flags : N) : bool := N.testbit flags 4.
Definition tlv_len_ok (flags : N) (v : list N) : Prop :=
  if extended flags then blen v < 65536 else blen v < 256.
Definition attr_tlv (flags code : N) (v : list N) : list N :=
  flags :: code :: (if extended flags then [blen v / 256; blen v mod 256] else [blen v]) ++ v.
(* a capability with a consistent length field *)
Definition cap_tlv (code : N) (v : list N) : list N := code :: blen v :: v.

(* ---- tolerated errors of a history ---- *)
(* the same session with no tolerated error pending *)
Definition forget_errors (k : bgp_codec) : bgp_codec :=
  mkCodec (k_sent k) (k_recv k)
    (mkCtx (x_asn4 (k_ctx k)) (x_labels (k_ctx k)) (x_add_path (k_ctx k)) (x_fail_withdraw (k_ctx k))
       (x_fail_update (k_ctx k)) (x_fail_cap (k_ctx k)) (x_fail_attr (k_ctx k)) (mkIgn [] [] [] [])).
(* no decode of the history ended in an error *)
Fixpoint no_decode_error (k : bgp_codec) (ops : list session_op) : Prop :=
  match ops with
  | [] => True
  | op :: r =>
      match op with
      | SendMsg _ => True
      | RecvBuf b => forall e, snd (decode_bgp k b) <> DErr e /\ snd (decode_bgp k b) <> DPanic
      end /\ no_decode_error (fst (fst (session_step k op))) r
  end.
