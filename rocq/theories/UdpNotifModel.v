(* Model of crates/udp-notif-pkt: wire format and the UdpPacketCodec. *)
From Verif Require Import Base MapLib.

(* raw.rs:56-73 MediaType *)
Inductive media_type : Type :=
| MtReserved | MtJson | MtXml | MtCbor | MtUnknown (v : N) | MtPrivate (v : N).

(* raw.rs:78-89 MediaType::from_wire *)
Definition mt_from_wire (value : N) (private : bool) : media_type :=
  if private then MtPrivate value
  else match value with
       | 0 => MtReserved
       | 1 => MtJson
       | 2 => MtXml
       | 3 => MtCbor
       | v => MtUnknown v
       end.
(* raw.rs:93-95 is_private *)
Definition mt_is_private (m : media_type) : bool :=
  match m with MtPrivate _ => true | _ => false end.
(* raw.rs:106-116 From<MediaType> for u8 *)
Definition mt_to_u8 (m : media_type) : N :=
  match m with
  | MtReserved => 0 | MtJson => 1 | MtXml => 2 | MtCbor => 3
  | MtUnknown v | MtPrivate v => v
  end.

(* raw.rs:121-125 UdpNotifOptionCode *)
Inductive opt_code : Type := CSegment | CPrivate | CUnknown (v : N).
Definition opt_code_eqb (a b : opt_code) : bool :=
  match a, b with
  | CSegment, CSegment => true
  | CPrivate, CPrivate => true
  | CUnknown x, CUnknown y => x =? y
  | _, _ => false
  end.
(* raw.rs:139-143 UdpNotifOption *)
Inductive notif_opt : Type :=
| OSegment (number : N) (last : bool)
| OPrivate (value : list N)
| OUnknown (typ : N) (value : list N).
(* raw.rs:146-152 code *)
Definition opt_code_of (o : notif_opt) : opt_code :=
  match o with
  | OSegment _ _ => CSegment
  | OPrivate _ => CPrivate
  | OUnknown t _ => CUnknown t
  end.

(* raw.rs:158-165 UdpNotifPacket. The option map is an association list;
   its order stands for the (arbitrary) iteration order of the HashMap. *)
Definition opt_map : Type := list (opt_code * notif_opt).
Record packet : Type := mkPkt {
  p_media : media_type;
  p_publisher : N;
  p_message : N;
  p_options : opt_map;
  p_payload : list N
}.

(* ---------------- serializer: wire/serialize.rs ---------------- *)
(* serialize.rs:33-43 UdpNotifOption::len *)
Definition opt_len (o : notif_opt) : N :=
  match o with
  | OSegment _ _ => 2 + 2
  | OPrivate v => 2 + blen v
  | OUnknown _ v => 2 + blen v
  end.
(* serialize.rs:45-64 UdpNotifOption::write. [number << 1] is a u16 shift and
   drops bit 15; [value.len() as u8 + 2] wraps (release build). *)
Definition opt_write (o : notif_opt) : list N :=
  match o with
  | OSegment number last =>
      [1; 4] ++ be_enc 2 (N.lor (as_u16 (N.shiftl number 1)) (if last then 1 else 0))
  | OPrivate v => [2; as_u8 (as_u8 (blen v) + 2)] ++ v
  | OUnknown t v => [t; as_u8 (as_u8 (blen v) + 2)] ++ v
  end.

Inductive udp_write_err : Type :=
| WInvalidHeaderLength (n : N)
| WInvalidMessageLength (n : N).

Definition opts_len (m : opt_map) : N := fold_right (fun kv a => opt_len (snd kv) + a) 0 m.

(* serialize.rs:87-95 UdpNotifPacket::len *)
Definition packet_len (p : packet) : N := 12 + opts_len (p_options p) + blen (p_payload p).

(* serialize.rs:97-134 UdpNotifPacket::write. Writing goes to memory, so the
   I/O error branch is absent; bytes emitted before an error are not modelled. *)
Definition packet_write (p : packet) : res udp_write_err (list N) :=
  let first_byte := N.shiftl 1 5 in
  let first_byte := if mt_is_private (p_media p) then N.lor first_byte 16 else first_byte in
  let first_byte := N.lor first_byte (mt_to_u8 (p_media p)) in
  let header_len := 12 + opts_len (p_options p) in
  if 255 <? header_len then Err (WInvalidHeaderLength header_len)
  else
    let message_len := header_len + blen (p_payload p) in
    if 65535 <? message_len then Err (WInvalidMessageLength message_len)
    else Ok ([first_byte; as_u8 header_len] ++ be_enc 2 (as_u16 message_len)
             ++ be_enc 4 (p_publisher p) ++ be_enc 4 (p_message p)
             ++ flat_map (fun kv => opt_write (snd kv)) (p_options p)
             ++ p_payload p).

(* ---------------- deserializer: wire/deserialize.rs ---------------- *)
(* deserialize.rs:25-31 and 63-90 error types (variants that are produced) *)
Inductive udp_parse_err : Type :=
| UParse (e : perr)
| UInvalidOptionLength (n : N)
| UOptParse (e : perr)
| UInvalidVersion (n : N)
| UInvalidHeaderLength (n : N).

(* deserialize.rs:36-59 UdpNotifOption::parse *)
Definition opt_parse : parser udp_parse_err notif_opt :=
  do typ <- pmap_err UOptParse read_u8;;
  do option_len <- pmap_err UOptParse read_u8;;
  if option_len <? 2 then fail (UInvalidOptionLength option_len)
  else
    do value_buf <- pmap_err UOptParse (read_bytes (option_len - 2));;
    match typ with
    | 1 =>
        on_sub (rnew value_buf)
          (do high <- pmap_err UOptParse read_u8;;
           do low <- pmap_err UOptParse read_u8;;
           ret (OSegment (N.lor (as_u16 (N.shiftl high 7)) (N.shiftr low 1))
                         (negb (N.land low 1 =? 0))))
    | 2 => ret (OPrivate value_buf)
    | typ => ret (OUnknown typ value_buf)
    end.

(* deserialize.rs:152-156: the options loop, inserting in the map *)
Definition opts_collect (os : list notif_opt) : opt_map :=
  fold_left (fun m o => mset opt_code_eqb (opt_code_of o) o m) os [].

(* deserialize.rs:96-104 UdpNotifHeader *)
Record header : Type := mkHdr {
  h_media : media_type; h_publisher : N; h_message : N;
  h_options : opt_map; h_payload_len : N
}.

(* deserialize.rs:109-165 UdpNotifHeader::parse. [message_len - header_len]
   cannot underflow, the line above returns first. *)
Definition header_parse : parser udp_parse_err header :=
  do cur <- get_reader;;
  if remaining cur <? 12 then fail (UParse (Eof (roff cur) 12 (remaining cur)))
  else
  do first_word <- pmap_err UParse (peek_be 4);;
  let message_len := N.land first_word 65535 in
  let header_len := N.shiftr (N.land first_word 16711680) 16 in
  if message_len <? header_len then fail (UInvalidHeaderLength header_len)
  else
  let payload_len := message_len - header_len in
  do first_octet <- pmap_err UParse read_u8;;
  let version := N.land (N.shiftr first_octet 5) 7 in
  if negb (version =? 1) then fail (UInvalidVersion version)
  else
  let s_flag := negb (N.land first_octet 16 =? 0) in
  let media := mt_from_wire (N.land first_octet 15) s_flag in
  do header_len2 <- pmap_err UParse read_u8;;
  if header_len2 <? 2 then fail (UInvalidHeaderLength header_len2)
  else
  do cur2 <- get_reader;;
  if remaining cur2 <? header_len2 - 2 then fail (UInvalidHeaderLength header_len2)
  else
  do header_buf <- pmap_err UParse (take_slice (header_len2 - 2));;
  on_sub header_buf
    (do_ pmap_err UParse read_u16;;
     do publisher_id <- pmap_err UParse read_u32;;
     do message_id <- pmap_err UParse read_u32;;
     do os <- many_all opt_parse;;
     ret (mkHdr media publisher_id message_id (opts_collect os) payload_len)).

(* deserialize.rs:171-184 <UdpNotifPacket as ParseFrom>::parse *)
Definition packet_parse : parser udp_parse_err packet :=
  do h <- header_parse;;
  do payload <- pmap_err UParse (read_bytes (h_payload_len h));;
  ret (mkPkt (h_media h) (h_publisher h) (h_message h) (h_options h) payload).

(* deserialize.rs:192-208 UdpNotifPacket::from_bytes. [Bytes::slice] panics
   when the range exceeds the buffer. *)
Definition packet_from_bytes (buf : list N) : res udp_parse_err packet :=
  match header_parse (rnew buf) with
  | (cur, Ok h) =>
      let start := roff cur in
      let stop := start + h_payload_len h in
      if blen buf <? stop then Panic
      else Ok (mkPkt (h_media h) (h_publisher h) (h_message h) (h_options h)
                     (take (h_payload_len h) (drop start buf)))
  | (_, Err e) => Err e
  | (_, Panic) => Panic
  | (_, Diverge) => Diverge
  end.

(* ---------------- reassembly: codec.rs ---------------- *)
(* BTreeMap<u16, _>: association list sorted by key *)
Fixpoint bt_insert {V} (k : N) (v : V) (m : list (N * V)) : list (N * V) :=
  match m with
  | [] => [(k, v)]
  | (k', v') :: m' =>
      if k <? k' then (k, v) :: m
      else if k =? k' then (k, v) :: m'
      else (k', v') :: bt_insert k v m'
  end.

(* codec.rs:72-77 ReassemblyBuffer; Instant is an N *)
Record reasm : Type := mkReasm {
  rb_timestamp : N;
  rb_has_last : bool;
  rb_expected : N;
  rb_segments : list (N * packet)
}.
(* codec.rs:154-163 Default *)
Definition reasm_new (now : N) : reasm := mkReasm now false 1 [].
(* codec.rs:80-82 is_timed_out; duration_since saturates to zero *)
Definition reasm_timed_out (now dur : N) (b : reasm) : bool := dur <? now - rb_timestamp b.
(* codec.rs:84-90 add_segment. [segment_number + 1] cannot overflow a u16: a
   parsed segment number has 15 bits. *)
Definition reasm_add (seg : N) (p : packet) (is_last : bool) (b : reasm) : reasm :=
  mkReasm (rb_timestamp b)
          (if is_last then true else rb_has_last b)
          (if is_last then seg + 1 else rb_expected b)
          (bt_insert seg p (rb_segments b)).
(* codec.rs:93-95 ready_to_reassemble *)
Definition reasm_ready (b : reasm) : bool :=
  rb_has_last b && (blen (rb_segments b) =? rb_expected b).

(* codec.rs:32-67 ReassemblyBufferError (ids dropped) *)
Inductive reasm_err : Type :=
| LastSegmentIsNotReceived (received : N)
| IncompleteSegments (needed received : N)
| MissingSegment (received missing : N).

(* codec.rs:121-132: first segment whose number differs from its position *)
Fixpoint first_gap (i : N) (m : list (N * packet)) : option N :=
  match m with
  | [] => None
  | (n, _) :: m' => if i =? n then first_gap (i + 1) m' else Some n
  end.

(* codec.rs:135-143: options of the segments after the first one *)
Definition add_opts (acc : opt_map) (p : packet) : opt_map :=
  fold_left (fun m kv => if opt_code_eqb (fst kv) CSegment then m
                         else mset opt_code_eqb (fst kv) (snd kv) m) (p_options p) acc.

(* codec.rs:97-151 reassemble. [pop_first().unwrap()] is the Panic branch. *)
Definition reasm_assemble (b : reasm) : res reasm_err packet :=
  if negb (rb_has_last b) then Err (LastSegmentIsNotReceived (blen (rb_segments b)))
  else if negb (rb_expected b =? blen (rb_segments b))
  then Err (IncompleteSegments (rb_expected b) (as_u16 (blen (rb_segments b))))
  else match first_gap 0 (rb_segments b) with
       | Some n => Err (MissingSegment (blen (rb_segments b)) n)
       | None =>
           match rb_segments b with
           | [] => Panic
           | (_, first) :: others =>
               Ok (mkPkt (p_media first) (p_publisher first) (p_message first)
                         (fold_left (fun acc kv => add_opts acc (snd kv)) others [])
                         (fold_left (fun acc kv => acc ++ p_payload (snd kv)) others (p_payload first)))
           end
       end.

(* codec.rs:213-216 UdpPacketCodec *)
Definition msg_key : Type := (N * N)%type.
Definition msg_key_eqb : msg_key -> msg_key -> bool := pair_eqb N.eqb N.eqb.
Record codec : Type := mkCodec {
  in_message : bool;
  incomplete : list (msg_key * reasm)
}.
Definition codec_new : codec := mkCodec false [].

Inductive codec_err : Type :=
| CInvalidHeaderLength (n : N)
| CInvalidMessageLength (n : N)
| CNotif (e : udp_parse_err)
| CReasm (e : reasm_err).

(* codec.rs:219-227 cleanup_timed_out_messages / clean_timed_out_packets *)
Definition codec_cleanup (now dur : N) (c : codec) : codec :=
  mkCodec (in_message c) (filter (fun kv => negb (reasm_timed_out now dur (snd kv))) (incomplete c)).

(* Rust indexing [buf[i]]: None is a panic *)
Definition index (buf : list N) (i : nat) : option N := nth_error buf i.

(* codec.rs:230-255 check_len: new codec state, and the result *)
Definition check_len (c : codec) (buf : list N) : codec * res codec_err (option (N * N)) :=
  let set_in := mkCodec true (incomplete c) in
  if negb (in_message c) && (blen buf <? 12) then (c, Ok None)
  else match index buf 1 with
  | None => (c, Panic)
  | Some header_len =>
    if header_len <? 12 then (c, Err (CInvalidHeaderLength header_len))
    else if blen buf <? header_len then (set_in, Ok None)
    else match index buf 2, index buf 3 with
    | Some b2, Some b3 =>
      let message_length := be_val [b2; b3] in
      if message_length <? header_len then (c, Err (CInvalidMessageLength message_length))
      else if blen buf <? message_length then (set_in, Ok None)
      else (c, Ok (Some (header_len, message_length)))
    | _, _ => (c, Panic)
    end
  end.

(* codec.rs:266-277 extract_segment_info: a map entry under the Segment code
   that is not a Segment option is unreachable!() *)
Definition extract_segment_info (m : opt_map) : res codec_err (N * bool) :=
  match mget opt_code_eqb CSegment m with
  | None => Ok (0, true)
  | Some (OSegment number last) => Ok (number, last)
  | Some _ => Panic
  end.

(* codec.rs:280-307 try_reassemble_segments *)
Definition try_reassemble (now : N) (c : codec) (p : packet)
  : codec * res codec_err (option packet) :=
  match extract_segment_info (p_options p) with
  | Ok (seg_no, is_last) =>
      if (seg_no =? 0) && is_last then (c, Ok (Some p))
      else
        let key := (p_publisher p, p_message p) in
        let cur := match mget msg_key_eqb key (incomplete c) with
                   | Some b => b
                   | None => reasm_new now
                   end in
        let b := reasm_add seg_no p is_last cur in
        if negb (reasm_ready b)
        then (mkCodec (in_message c) (mset msg_key_eqb key b (incomplete c)), Ok None)
        else
          let c' := mkCodec (in_message c) (mrem msg_key_eqb key (incomplete c)) in
          (c', match reasm_assemble b with
               | Ok q => Ok (Some q)
               | Err e => Err (CReasm e)
               | Panic => Panic
               | Diverge => Diverge
               end)
  | Err e => (c, Err e)
  | Panic => (c, Panic)
  | Diverge => (c, Diverge)
  end.

(* codec.rs:315-343 decode. The third component is what is left in [buf]. *)
Definition udp_decode (now : N) (c : codec) (buf : list N)
  : codec * res codec_err (option packet) * list N :=
  match check_len c buf with
  | (c1, Ok None) => (c1, Ok None, buf)
  | (c1, Ok (Some (_, msg_len))) =>
      let c2 := mkCodec false (incomplete c1) in
      if negb (blen buf =? msg_len) then (c2, Err (CInvalidMessageLength msg_len), [])
      else match packet_from_bytes buf with
           | Ok p => let (c3, r) := try_reassemble now c2 p in (c3, r, [])
           | Err e => (c2, Err (CNotif e), [])
           | Panic => (c2, Panic, [])
           | Diverge => (c2, Diverge, [])
           end
  | (c1, Err e) => (c1, Err e, buf)
  | (c1, Panic) => (c1, Panic, buf)
  | (c1, Diverge) => (c1, Diverge, buf)
  end.

(* crates/udp-notif-service/src/actor.rs:276-283: every datagram of a peer is
   decoded in its own buffer with the peer's long-lived codec; what decode
   leaves in the buffer is dropped. A panic kills the actor. Each datagram
   comes with its arrival time. *)
Fixpoint run_datagrams (c : codec) (ds : list (N * list N))
  : res codec_err (codec * list (res codec_err (option packet))) :=
  match ds with
  | [] => Ok (c, [])
  | (now, d) :: ds' =>
      match udp_decode now c d with
      | (_, Panic, _) => Panic
      | (_, Diverge, _) => Diverge
      | (c', r, _) =>
          match run_datagrams c' ds' with
          | Ok (c'', rs) => Ok (c'', r :: rs)
          | Err e => Err e
          | Panic => Panic
          | Diverge => Diverge
          end
      end
  end.

(* The reassembly state machine fed with already parsed packets (each with
   its arrival time). *)
Fixpoint run_packets (c : codec) (ps : list (N * packet))
  : codec * list (res codec_err (option packet)) :=
  match ps with
  | [] => (c, [])
  | (now, p) :: ps' =>
      let (c1, r) := try_reassemble now c p in
      let (c2, rs) := run_packets c1 ps' in (c2, r :: rs)
  end.
