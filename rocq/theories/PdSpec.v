(* Specification vocabulary for the capture decoding tool (C178-C187). *)
From Verif Require Import Base FramingModel BgpCapModel BgpFrameModel BgpAttrModel BgpMsgModel PcapModel PcapSpec PdModel.

Section Any.
Context {C M E L : Type}.
(* the packets a handler is asked to decode *)
Definition wanted (h : handler C M E L) (p : pkt) : Prop :=
  p_proto p = h_proto h /\ In (dst_port (p_key p)) (h_ports h).
Definition transport_eq_dec (a b : transport) : {a = b} + {a <> b}.
Proof. decide equality. Defined.
Definition wanted_dec (h : handler C M E L) (p : pkt) : {wanted h p} + {~ wanted h p}.
Proof.
  unfold wanted. destruct (transport_eq_dec (p_proto p) (h_proto h)); [|right; tauto].
  destruct (in_dec N.eq_dec (dst_port (p_key p)) (h_ports h)); [left|right]; tauto.
Defined.
Definition is_wanted (h : handler C M E L) (p : pkt) : bool := if wanted_dec h p then true else false.

(* the packets of one flow *)
Definition key_eq_dec (a b : key) : {a = b} + {a <> b}.
Proof. repeat decide equality. Defined.
Definition of_flow (k : key) (p : pkt) : bool := if key_eq_dec (p_key p) k then true else false.

(* all results, in order *)
Definition outcomes (rs : list (pkt * option (list (outcome M E)))) : list (outcome M E) :=
  flat_map (fun x => match snd x with Some os => os | None => [] end) rs.
(* up to the first error, and with it *)
Fixpoint until_error (os : list (outcome M E)) : list (outcome M E) :=
  match os with
  | [] => []
  | Failure e :: _ => [Failure e]
  | o :: r => o :: until_error r
  end.
(* one flow, cut into segments or datagrams *)
Definition flow_of (t : transport) (k : key) (xs : list (list N)) : list pkt := map (mkP k t) xs.

(* what a decoder that reads the stream answers, as results of flow [k] *)
Definition as_outcomes (k : key) (os : list (dout M E)) : list (outcome M E) :=
  flat_map (fun o => match o with
                     | DItem m => [Success k m]
                     | DErr e => [Failure e]
                     | _ => []
                     end) os.

(* The packets of a capture with their position among all captured packets,
   counted from 1; what cannot be extracted keeps its position. *)
Section Capture.
Context {D : Type} (dissect : N -> D -> res unit (option pkt)).
Fixpoint number_from (n : N) (l : list (option N * D)) : list (N * pkt) :=
  match l with
  | [] => []
  | x :: l' => map (pair n) (extracted dissect x) ++ number_from (n + 1) l'
  end.
Definition numbered (bs : list (block D)) : list (N * pkt) := number_from 1 (packets [] bs).
End Capture.
(* one line per result, with the number of the packet it came from *)
Definition lines_for (h : handler C M E L) (ns : list N) (rs : list (pkt * option (list (outcome M E)))) : list (N * outcome M E) :=
  flat_map (fun x => map (pair (fst x)) (outcomes [snd x])) (combine ns rs).
Definition rendered_as (h : handler C M E L) (x : N * outcome M E) (y : N * L) : Prop :=
  fst x = fst y /\ h_render h (snd x) = RLine (snd y).
End Any.

(* each datagram decoded in a buffer of its own *)
Fixpoint alone {C M E} (D : decoder C M E) (s : C) (ds : list (list N)) : list (dout M E) :=
  match ds with
  | [] => []
  | d :: ds' => match D s d with (s', _, o) => o :: alone D s' ds' end
  end.
(* the result of one datagram *)
Definition answer {M E} (k : key) (o : dout M E) : option (list (outcome M E)) :=
  match o with
  | DItem m => Some [Success k m]
  | DErr e => Some [Failure e]
  | _ => None
  end.

(* an IPFIX message that is as long as it says *)
Definition whole_ipfix (d : list N) : Prop :=
  16 <= blen d /\ nth 0 d 0 * 256 + nth 1 d 0 = 10 /\ nth 2 d 0 * 256 + nth 3 d 0 = blen d.
(* a UDP-Notif datagram that holds all of the message it announces *)
Definition complete_datagram (d : list N) : Prop :=
  12 <= blen d /\ nth 1 d 0 <= blen d /\ nth 2 d 0 * 256 + nth 3 d 0 <= blen d.

(* what the last OPEN seen in a flow said about four-octet AS numbers *)
Definition announces_four_octets (m : bgp_msg) : option bool :=
  match m with
  | MOpen o => Some (existsb (fun c => match c with CFourOctetAs _ => true | _ => false end) (concat (o_params o)))
  | _ => None
  end.
Fixpoint last_said (default : bool) (ms : list bgp_msg) : bool :=
  match ms with
  | [] => default
  | m :: r => last_said (match announces_four_octets m with Some b => b | None => default end) r
  end.
(* the messages among some results *)
Definition messages (os : list (outcome (bgp_msg * ignored) (bgp_err body_err))) : list bgp_msg :=
  flat_map (fun o => match o with Success _ (m, _) => [m] | _ => [] end) os.
