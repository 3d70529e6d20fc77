(* crates/pcap-decoder/src/handlers/{bgp,bmp,flow,udp_notif}.rs *)
From Verif Require Import Base MapLib FramingModel BgpFrameModel BgpMsgModel BmpModel PdModel.
From Verif Require UdpNotifModel FlFieldModel FlModel.

(* JSON values are not modelled: a line is what is put into it. *)
(* bgp.rs:77-94: the message, or the fixed text that some errors were ignored;
   the text comes without the flow and without the message *)
Inductive bgp_line : Type :=
| BgpLine (k : key) (m : bgp_msg) | BgpIgnored | BgpError (e : bgp_err body_err).
(* serde_json::to_value does not fail on BGP messages and errors *)
Definition render_bgp (o : outcome (bgp_msg * ignored) (bgp_err body_err)) : rendered bgp_line :=
  match o with
  | Success k (m, mkIgn [] [] [] []) => RLine (BgpLine k m)
  | Success _ _ => RLine BgpIgnored
  | Failure e => RLine (BgpError e)
  end.
(* bgp.rs:51-65; BgpCodec::new_from_ctx, bgp-pkt/src/codec.rs:60-66 *)
Definition bgp_ctx : bctx := mkCtx true [] [] true true true true no_ignored.
Definition bgp_fresh : bgp_codec := mkCodec (Some true) (Some true) bgp_ctx.
Definition bgp_handler (ports : list N) : handler bgp_codec (bgp_msg * ignored) (bgp_err body_err) bgp_line :=
  mkH TCP ports bgp_fresh decode_bgp render_bgp.

(* bmp.rs:61-72 *)
Definition render_plain {M E} (o : outcome M E) : rendered (outcome M E) := RLine o.
Definition bmp_handler (ports : list N) : handler bmp_codec bmp_msg bmp_err (outcome bmp_msg bmp_err) :=
  mkH TCP ports bmp_default bmp_decode render_plain.

(* flow.rs; the tables of known elements are those of FlModel.v *)
Section Flow.
Variable iana : N -> option FlFieldModel.dtype.
Variable vendor : N -> option (N -> option FlFieldModel.dtype).
Variable millis_ok : Z -> bool.
Definition flow_decode : decoder FlModel.codec FlModel.flow_info FlFieldModel.ferr := fun c b =>
  match FlModel.decode iana vendor millis_ok c b with
  | (c', b', FlModel.NeedMore) => (c', b', DNone)
  | (c', b', FlModel.Packet p) => (c', b', DItem p)
  | (c', b', FlModel.Rejected e) => (c', b', DErr e)
  | (c', b', _) => (c', b', DPanic)
  end.
Definition flow_handler (ports : list N) : handler FlModel.codec FlModel.flow_info FlFieldModel.ferr (outcome FlModel.flow_info FlFieldModel.ferr) :=
  mkH UDP ports FlModel.codec_new flow_decode render_plain.
End Flow.

(* udp_notif.rs. [now] is the time decode reads from the clock; it only goes
   into the age of incomplete messages, which this tool never looks at. The
   three payload parsers are dependencies. *)
Section Notif.
Variable now : N.
Variables json_ok utf8_ok cbor_ok : list N -> bool.
Definition notif_decode : decoder UdpNotifModel.codec UdpNotifModel.packet UdpNotifModel.codec_err := fun c b =>
  match UdpNotifModel.udp_decode now c b with
  | (c', Ok None, b') => (c', b', DNone)
  | (c', Ok (Some p), b') => (c', b', DItem p)
  | (c', Err e, b') => (c', b', DErr e)
  | (c', _, b') => (c', b', DPanic)
  end.
(* udp_notif.rs:71-72: the options are a JSON object keyed by option code.
   serde_json refuses a key that is not a string, and an enum variant with a
   value, UdpNotifOptionCode::Unknown(_) (udp-notif-pkt/src/raw.rs:118-125), is
   none; the result is unwrapped with expect. *)
Definition code_is_string (c : UdpNotifModel.opt_code) : bool :=
  match c with UdpNotifModel.CUnknown _ => false | _ => true end.
(* udp_notif.rs:74-103; Reserved, Unknown and Private media types are left as
   they are *)
Definition payload_ok (p : UdpNotifModel.packet) : bool :=
  match UdpNotifModel.p_media p with
  | UdpNotifModel.MtJson => json_ok (UdpNotifModel.p_payload p)
  | UdpNotifModel.MtXml => utf8_ok (UdpNotifModel.p_payload p)
  | UdpNotifModel.MtCbor => cbor_ok (UdpNotifModel.p_payload p)
  | _ => true
  end.
Definition render_notif (o : outcome UdpNotifModel.packet UdpNotifModel.codec_err)
  : rendered (outcome UdpNotifModel.packet UdpNotifModel.codec_err) :=
  match o with
  | Success _ p =>
      if negb (forallb code_is_string (mkeys (UdpNotifModel.p_options p))) then RPanic
      else if negb (payload_ok p) then RPanic
      else RLine o
  | Failure _ => RLine o
  end.
Definition notif_handler (ports : list N)
  : handler UdpNotifModel.codec UdpNotifModel.packet UdpNotifModel.codec_err (outcome UdpNotifModel.packet UdpNotifModel.codec_err) :=
  mkH UDP ports UdpNotifModel.codec_new notif_decode render_notif.
End Notif.
