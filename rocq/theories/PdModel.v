(* crates/pcap-decoder/src: lib.rs, protocol_handler.rs and handlers/mod.rs,
   for any protocol handler. The handlers of the four protocols are in
   PdHandlers.v. Opening the files and I/O errors are not modelled. *)
From Verif Require Import Base MapLib FramingModel PcapModel.

(* netgauze_pcap_reader::TransportProtocol *)
Inductive transport : Type := TCP | UDP.
Definition transport_eqb (a b : transport) : bool :=
  match a, b with TCP, TCP | UDP, UDP => true | _, _ => false end.
(* (src_ip, src_port, dst_ip, dst_port); an address is a number here *)
Definition key : Type := (N * N * N * N)%type.
Definition dst_port (k : key) : N := snd k.
Definition key_eqb (a b : key) : bool :=
  match a, b with (a1, a2, a3, a4), (b1, b2, b3, b4) => (a1 =? b1) && (a2 =? b2) && (a3 =? b3) && (a4 =? b4) end.
(* what PcapIter::next hands out: addresses and ports, transport, payload *)
Record pkt : Type := mkP { p_key : key; p_proto : transport; p_data : list N }.

(* protocol_handler.rs:31-34 DecodeOutcome *)
Inductive outcome (M E : Type) : Type := Success (k : key) (m : M) | Failure (e : E).
Arguments Success {M E} k m.
Arguments Failure {M E} e.
(* how a call ended: it returned, it panicked, or it never returns *)
Inductive ending : Type := Returned | Crashed | Endless.
(* ProtocolHandler::serialize: a JSON value, an error, or a panic *)
Inductive rendered (L : Type) : Type := RLine (l : L) | RError | RPanic.
Arguments RLine {L} l.
Arguments RError {L}.
Arguments RPanic {L}.

(* A protocol handler: the transport and the destination ports it accepts, a
   fresh codec, the codec's decode, and serialize. *)
Record handler (C M E L : Type) : Type := mkH {
  h_proto : transport; h_ports : list N; h_init : C; h_decode : decoder C M E;
  h_render : outcome M E -> rendered L }.
Arguments mkH {C M E L} _ _ _ _ _.
Arguments h_proto {C M E L} _.
Arguments h_ports {C M E L} _.
Arguments h_init {C M E L} _.
Arguments h_decode {C M E L} _ _ _.
Arguments h_render {C M E L} _ _.

Section Decoder.
Context {C M E L : Type} (h : handler C M E L).

(* handlers/mod.rs:36-60 decode_buffer. Every turn that pushes a message and
   leaves the buffer as long as it was counts against [fuel]. *)
Fixpoint decode_loop (fuel : nat) (k : key) (s : C) (b : list N) : C * list N * list (outcome M E) * ending :=
  match b with
  | [] => (s, b, [], Returned)
  | _ =>
      match fuel with
      | O => (s, b, [], Endless)
      | S f =>
          match h_decode h s b with
          | (s', b', DItem m) =>
              match decode_loop f k s' b' with (s2, b2, os, e) => (s2, b2, Success k m :: os, e) end
          | (s', b', DNone) => (s', b', [], Returned)
          | (s', _, DErr e) =>
              match decode_loop f k s' [] with (s2, b2, os, r) => (s2, b2, Failure e :: os, r) end
          | (s', b', DPanic) => (s', b', [], Crashed)
          end
      end
  end.
Definition decode_buffer (k : key) (s : C) (b : list N) := decode_loop (length b) k s b.

(* exporter_peers (lib.rs:84-85) *)
Definition peers : Type := list (key * (C * list N)).
(* bgp.rs:40-75, bmp.rs:37-59, flow.rs:37-59, udp_notif.rs:38-62 decode *)
Definition handle (ps : peers) (p : pkt) : peers * option (list (outcome M E)) * ending :=
  if transport_eqb (p_proto p) (h_proto h) && existsb (N.eqb (dst_port (p_key p))) (h_ports h) then
    match (match mget key_eqb (p_key p) ps with Some cb => cb | None => (h_init h, []) end) with
    | (s, b) =>
        match decode_buffer (p_key p) s (b ++ p_data p) with
        | (s', b', os, e) =>
            (mset key_eqb (p_key p) (s', b') ps, match os with [] => None | _ => Some os end, e)
        end
    end
  else (ps, None, Returned).

(* What decoding a sequence of packets answers, packet by packet, until a call
   does not return. *)
Fixpoint handle_all (ps : peers) (l : list pkt) : list (pkt * option (list (outcome M E))) * ending :=
  match l with
  | [] => ([], Returned)
  | p :: l' =>
      match handle ps p with
      | (ps', r, Returned) => match handle_all ps' l' with (rs, e) => ((p, r) :: rs, e) end
      | (_, _, e) => ([], e)
      end
  end.

(* how load_pcap_and_process ends *)
Inductive verdict : Type :=
| Finished        (* Ok(()) *)
| Failed          (* Err: a result could not be serialized *)
| Panicked
| NeverEnds.

(* lib.rs:114-128 the results of one frame, each one line of output *)
Fixpoint write_results (n : N) (os : list (outcome M E)) : list (N * L) * option verdict :=
  match os with
  | [] => ([], None)
  | o :: os' =>
      match h_render h o with
      | RLine l => match write_results n os' with (ls, v) => ((n, l) :: ls, v) end
      | RError => ([], Some Failed)
      | RPanic => ([], Some Panicked)
      end
  end.

Section Capture.
Context {D : Type} (dissect : N -> D -> res unit (option pkt)).
(* lib.rs:103-109 *)
Definition beyond (limit : option N) (frame : N) : bool :=
  match limit with Some n => n <? frame | None => false end.
(* lib.rs:101-134. The output is buffered; what was written before an error
   or a panic is flushed when the writer is dropped. [show] is
   config.show_frame_number. *)
Fixpoint process (fuel : nat) (limit : option N) (it : iter D) (ps : peers) : list (N * L) * verdict :=
  match fuel with
  | O => ([], NeverEnds)
  | S f =>
      match next dissect it with
      | (it', Ok (Some p)) =>
          if beyond limit (it_frames it') then ([], Finished)
          else match handle ps p with
               | (ps', r, Returned) =>
                   match write_results (it_frames it') (match r with Some os => os | None => [] end) with
                   | (ls, Some v) => (ls, v)
                   | (ls, None) => match process f limit it' ps' with (ls', v) => (ls ++ ls', v) end
                   end
               | (_, _, Crashed) => ([], Panicked)
               | (_, _, Endless) => ([], NeverEnds)
               end
      | (_, Ok None) => ([], Finished)
      | (_, _) => ([], Panicked)
      end
  end.
Definition show_line (show : bool) (x : N * L) : option N * L := (if show then Some (fst x) else None, snd x).
Definition load_pcap_and_process (limit : option N) (show : bool) (bs : list (block D)) : list (option N * L) * verdict :=
  match process (S (length bs)) limit (iter_new bs) [] with (ls, v) => (map (show_line show) ls, v) end.
End Capture.
End Decoder.
