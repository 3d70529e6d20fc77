(* Specification vocabulary for UDP-Notif (C01-C06). *)
From Verif Require Import Base MapLib UdpNotifModel.

(* Media types with one representation: a 4-bit value, and a registered
   value of the standard space is not disguised as an unknown one. *)
Definition canonical_media (m : media_type) : bool :=
  match m with
  | MtUnknown v => (4 <=? v) && (v <? 16)
  | MtPrivate v => v <? 16
  | _ => true
  end.
(* An option stored under its own code, with in-range contents. *)
Definition canonical_opt (kv : opt_code * notif_opt) : bool :=
  opt_code_eqb (fst kv) (opt_code_of (snd kv)) &&
  match snd kv with
  | OSegment n _ => n <? 32768
  | OPrivate v => bytes_ok v
  | OUnknown t v => (t <? 256) && negb (t =? 1) && negb (t =? 2) && bytes_ok v
  end.
Definition canonical (p : packet) : Prop :=
  canonical_media (p_media p) = true /\
  p_publisher p < 2 ^ 32 /\ p_message p < 2 ^ 32 /\
  forallb canonical_opt (p_options p) = true /\
  NoDup (map fst (p_options p)) /\
  bytes_ok (p_payload p) = true.

(* Segmentation header of a packet: number and last flag. *)
Definition segment_of (p : packet) : option (N * bool) :=
  match mget opt_code_eqb CSegment (p_options p) with
  | Some (OSegment i l) => Some (i, l)
  | _ => None
  end.
Definition key_of (p : packet) : N * N := (p_publisher p, p_message p).
Definition has_key (k : N * N) (p : packet) : bool :=
  (p_publisher p =? fst k) && (p_message p =? snd k).

(* The packets of a history that belong to a message, and the decoder's
   answers to exactly those. *)
Definition packets_for (k : N * N) (h : list (N * packet)) : list packet :=
  filter (has_key k) (map snd h).
Fixpoint answers_for {R} (k : N * N) (h : list (N * packet)) (rs : list R) : list R :=
  match h, rs with
  | (_, p) :: h', r :: rs' => if has_key k p then r :: answers_for k h' rs' else answers_for k h' rs'
  | _, _ => []
  end.

(* [segs] is the complete segmentation of message k into n = |segs| parts. *)
Definition segmentation (k : N * N) (segs : list packet) : Prop :=
  forall i p, nth_error segs i = Some p ->
    key_of p = k /\
    segment_of p = Some (N.of_nat i, Nat.eqb (S i) (length segs)).

(* [xs] is a list of packets numbered 0, 1, 2, ... of message k. *)
Definition numbered (k : N * N) (xs : list packet) : Prop :=
  forall i p, nth_error xs i = Some p ->
    key_of p = k /\ exists l, segment_of p = Some (N.of_nat i, l).
(* Options of a message: for every code the value carried by the
   highest-numbered of the given segments that carries it; [None] when no
   segment does, or when the code is the segmentation option itself. *)
Fixpoint last_option (code : opt_code) (segs : list packet) : option notif_opt :=
  match segs with
  | [] => None
  | p :: rest =>
      match last_option code rest with
      | Some o => Some o
      | None => mget opt_code_eqb code (p_options p)
      end
  end.

(* What a driver can do with a decoder once packets are parsed: feed one at a
   time, or discard the messages that are incomplete for too long. *)
Inductive event : Type := Arrive (now : N) (p : packet) | Cleanup (now dur : N).
Fixpoint run_events (c : codec) (es : list event)
  : codec * list (res codec_err (option packet)) :=
  match es with
  | [] => (c, [])
  | Arrive now p :: es' =>
      let (c1, r) := try_reassemble now c p in
      let (c2, rs) := run_events c1 es' in (c2, r :: rs)
  | Cleanup now dur :: es' => run_events (codec_cleanup now dur c) es'
  end.
Definition arrivals (es : list event) : list packet :=
  flat_map (fun e => match e with Arrive _ p => [p] | Cleanup _ _ => [] end) es.

(* Datagrams of a history of packets. *)
Inductive encodes : list (N * packet) -> list (N * list N) -> Prop :=
| encodes_nil : encodes [] []
| encodes_cons now p bs h ds : canonical p -> packet_write p = Ok bs -> encodes h ds ->
    encodes ((now, p) :: h) ((now, bs) :: ds).
