(* C01-C06, C41: UDP-Notif packets, datagrams and segment reassembly. *)
From Coq Require Import Permutation.
From Verif Require Import Base BaseLemmas MapLib UdpNotifModel UdpNotifSpec UdpNotifProofs UdpReasmProofs.

(* ---- C01 ---- *)
(* Written bytes parse back to the packet, whatever follows them, and there
   are len() of them. *)
Theorem C01_packet_round_trip : forall p bs, canonical p -> packet_write p = Ok bs ->
  blen bs = packet_len p /\
  (forall rest off, packet_parse (mkR (bs ++ rest) off) = (mkR rest (off + blen bs), Ok p)) /\
  (forall rest, packet_from_bytes (bs ++ rest) = Ok p).
Proof.
  intros p bs Hc Hw. split; [exact (packet_write_len p bs Hc Hw)|].
  split; [exact (packet_roundtrip p bs Hc Hw)|].
  intros rest. exact (packet_from_bytes_roundtrip p bs rest Hc Hw).
Qed.
Print Assumptions C01_packet_round_trip.

(* Writing fails exactly when the header exceeds 255 or the packet 65535
   bytes, with the matching error. *)
Theorem C01_write_outcome : forall p,
  (12 + opts_len (p_options p) <= 255 /\ packet_len p <= 65535 /\ exists bs, packet_write p = Ok bs) \/
  (255 < 12 + opts_len (p_options p) /\ packet_write p = Err (WInvalidHeaderLength (12 + opts_len (p_options p)))) \/
  (12 + opts_len (p_options p) <= 255 /\ 65535 < packet_len p /\ packet_write p = Err (WInvalidMessageLength (packet_len p))).
Proof. exact packet_write_outcome. Qed.
Print Assumptions C01_write_outcome.

(* Every packet the parser accepts is canonical, so the round trip applies to
   everything that was ever received. *)
Theorem C01_parsed_is_canonical : forall buf p, bytes_ok buf = true -> packet_from_bytes buf = Ok p -> canonical p.
Proof. intros buf p Hok H. apply from_bytes_inv in H as [? [? [? [? [? [_ [_ [_ [_ [_ Hc]]]]]]]]]]; assumption. Qed.
Print Assumptions C01_parsed_is_canonical.

Definition ex_pkt : packet :=
  mkPkt (MtPrivate 9) 16909060 7 [(CPrivate, OPrivate [1; 2]); (CSegment, OSegment 300 true); (CUnknown 77, OUnknown 77 [])] [10; 20; 30].
Example C01_nonvacuous : canonical ex_pkt /\ exists bs, packet_write ex_pkt = Ok bs /\ blen bs = 25.
Proof.
  split; [|eexists; vm_compute; split; reflexivity].
  unfold canonical, ex_pkt; cbn [p_media p_publisher p_message p_options p_payload].
  repeat split; try reflexivity. repeat constructor; cbn; intuition discriminate.
Qed.

(* ---- C02 ---- *)
Theorem C02_fresh_decoder_never_panics : forall now c buf, bytes_ok buf = true -> in_message c = false ->
  match snd (fst (udp_decode now c buf)) with Ok _ | Err _ => True | Panic | Diverge => False end.
Proof. intros now c buf Hok Hi. exact (udp_decode_no_crash now c buf Hok (or_introl Hi)). Qed.
Print Assumptions C02_fresh_decoder_never_panics.

(* A datagram that was consumed without an error is header ++ payload of the
   packet, octet 1 is the header length and octets 2-3 the datagram length;
   and an unsegmented one is delivered. *)
Theorem C02_accepted_datagram_layout : forall now c buf c' x, bytes_ok buf = true -> buf <> [] ->
  udp_decode now c buf = (c', Ok x, []) ->
  exists p hd fb hl b2 b3 rest, buf = hd ++ p_payload p /\ hd = fb :: hl :: b2 :: b3 :: rest /\
    hl = blen hd /\ be_val [b2; b3] = blen buf /\ canonical p /\
    packet_parse (rnew buf) = (mkR [] (blen buf), Ok p) /\
    (x = Some p \/ segment_of p <> None).
Proof. exact udp_decode_layout. Qed.
Print Assumptions C02_accepted_datagram_layout.

Example C02_nonvacuous : exists c' p,
  udp_decode 5 codec_new [33; 12; 0; 14; 0; 0; 0; 1; 0; 0; 0; 2; 8; 9] = (c', Ok (Some p), []) /\ p_payload p = [8; 9].
Proof. do 2 eexists. vm_compute. split; reflexivity. Qed.

(* ---- C03 ---- *)
Theorem C03_reassembly_any_order : forall k segs h c c' rs,
  segmentation k segs -> segs <> [] -> mget msg_key_eqb k (incomplete c) = None ->
  Permutation (packets_for k h) segs ->
  run_packets c h = (c', rs) ->
  exists q, answers_for k h rs = repeat (Ok None) (length segs - 1) ++ [Ok (Some q)] /\
    p_payload q = concat (map p_payload segs) /\ key_of q = k /\
    (forall first, nth_error segs 0 = Some first -> p_media q = p_media first) /\
    mget msg_key_eqb k (incomplete c') = None.
Proof.
  intros k segs h c c' rs H1 H2 H3 H4 H5.
  destruct (reassembly_any_order k segs h c c' rs H1 H2 H3 H4 H5) as [q [Ha [Hb [Hc [Hd [_ He]]]]]].
  exists q. auto.
Qed.
Print Assumptions C03_reassembly_any_order.

(* The same with duplicated segments: nothing until the last missing segment
   arrives (here p), then the whole message. *)
Theorem C03_reassembly_with_duplicates : forall k segs h c c' rs pre now p,
  segmentation k segs -> (1 < length segs)%nat -> mget msg_key_eqb k (incomplete c) = None ->
  filter (fun x => has_key k (snd x)) h = pre ++ [(now, p)] ->
  (forall q, In q (map snd (pre ++ [(now, p)])) <-> In q segs) ->
  (exists q, In q segs /\ ~ In q (map snd pre)) ->
  run_packets c h = (c', rs) ->
  exists q, answers_for k h rs = repeat (Ok None) (length pre) ++ [Ok (Some q)] /\
    p_payload q = concat (map p_payload segs) /\ key_of q = k /\
    mget msg_key_eqb k (incomplete c') = None.
Proof.
  intros k segs h c c' rs pre now p Hs Hl Hc Hf Hin Hmiss Hr.
  destruct segs as [|first others] eqn:Es; [cbn in Hl; lia|].
  destruct (reassembly_general k (first :: others) first others h c c' rs pre now p eq_refl Hs Hl Hc Hf
     (fun q => proj1 (Hin q)) Hmiss (fun q => proj2 (Hin q)) Hr) as [H1 H2].
  exists (joined first others). split; [exact H1|]. split; [apply joined_payload|].
  split; [destruct (Hs 0%nat first eq_refl) as [<- _]; reflexivity|exact H2].
Qed.
Print Assumptions C03_reassembly_with_duplicates.

(* End to end: the datagrams of the packets, fed to the decoder. *)
Theorem C03_datagrams_are_packets : forall h ds c, encodes h ds -> in_message c = false ->
  run_datagrams c ds = Ok (run_packets c h).
Proof. intros h ds c He Hi. exact (run_datagrams_written h ds He c Hi). Qed.
Print Assumptions C03_datagrams_are_packets.

Definition seg (i : N) (l : bool) (payload : list N) : packet :=
  mkPkt MtJson 1 2 [(CSegment, OSegment i l)] payload.
Definition ex_segs : list packet := [seg 0 false [1; 2]; seg 1 false [3]; seg 2 true [4; 5]].
Example C03_nonvacuous :
  segmentation (1, 2) ex_segs /\
  Permutation (packets_for (1, 2) [(9, seg 2 true [4; 5]); (9, mkPkt MtXml 7 7 [] [99]); (10, seg 0 false [1; 2]); (11, seg 1 false [3])]) ex_segs /\
  snd (run_packets codec_new [(9, seg 2 true [4; 5]); (9, mkPkt MtXml 7 7 [] [99]); (10, seg 0 false [1; 2]); (11, seg 1 false [3])])
  = [Ok None; Ok (Some (mkPkt MtXml 7 7 [] [99])); Ok None; Ok (Some (mkPkt MtJson 1 2 [] [1; 2; 3; 4; 5]))].
Proof.
  split; [|split].
  - intros [|[|[|[|i]]]] p H; cbn in H; try discriminate; injection H as <-; split; reflexivity.
  - vm_compute. eapply perm_trans; [apply perm_swap|]. apply perm_skip, perm_swap.
  - vm_compute. reflexivity.
Qed.

(* ---- C04 ---- *)
Theorem C04_emitted_is_complete_and_own : forall es c' rs i p q,
  run_events codec_new es = (c', rs) ->
  nth_error (arrivals es) i = Some p -> nth_error rs i = Some (Ok (Some q)) ->
  (* an unsegmented packet is delivered as is *)
  (q = p /\ (segment_of p = None \/ segment_of p = Some (0, true))) \/
  (* or q is made of segments 0..n-1 of p's message, all received up to now,
     and a segment n-1 flagged last was received *)
  (exists xs last, numbered (key_of p) xs /\ (0 < length xs)%nat /\
     (forall x, In x xs -> In x (firstn (S i) (arrivals es))) /\
     In last (firstn (S i) (arrivals es)) /\ key_of last = key_of p /\
     segment_of last = Some (blen xs - 1, true) /\
     key_of q = key_of p /\ p_payload q = concat (map p_payload xs)).
Proof.
  intros es c' rs i p q Hr Hp Hq.
  destruct (run_events_sound es [] codec_new c' rs (codec_new_ok []) Hr) as [_ [_ H]].
  destruct (H i p q Hp Hq) as [?|[xs [last [H1 [H2 [H3 [H4 [H5 [H6 [H7 H8]]]]]]]]]]; [left; assumption|right].
  rewrite app_nil_r in *. exists xs, last. split; [exact H1|]. split; [exact H6|].
  split; [intros x Hx; apply in_rev; auto|]. split; [apply in_rev; exact H3|]. auto.
Qed.
Print Assumptions C04_emitted_is_complete_and_own.
Theorem C04_one_answer_per_packet : forall es c' rs,
  run_events codec_new es = (c', rs) -> length rs = length (arrivals es).
Proof. intros es c' rs Hr. exact (proj1 (run_events_sound es [] codec_new c' rs (codec_new_ok []) Hr)). Qed.
Print Assumptions C04_one_answer_per_packet.
Example C04_nonvacuous :
  snd (run_events codec_new [Arrive 1 (seg 1 true [3]); Cleanup 2 10; Arrive 3 (seg 0 false [1])])
  = [Ok None; Ok (Some (mkPkt MtJson 1 2 [] [1; 3]))].
Proof. vm_compute. reflexivity. Qed.

(* ---- C05 ---- *)
(* Refuted: an option carried by the first segment of a segmented message is
   lost (codec.rs 133-143 starts from an empty map and visits the others). *)
Definition first_with_option : packet :=
  mkPkt MtJson 1 2 [(CSegment, OSegment 0 false); (CPrivate, OPrivate [42])] [1].
Theorem C05_options_survive_refuted : exists segs h c' rs q x o,
  segmentation (1, 2) segs /\ Permutation (packets_for (1, 2) h) segs /\
  run_packets codec_new h = (c', rs) /\ answers_for (1, 2) h rs = [Ok None; Ok (Some q)] /\
  In x segs /\ mget opt_code_eqb CPrivate (p_options x) = Some o /\
  mget opt_code_eqb CPrivate (p_options q) = None.
Proof.
  exists [first_with_option; seg 1 true [2]], [(0, first_with_option); (1, seg 1 true [2])].
  do 5 eexists. split; [|split; [|split; [|split; [|split]]]].
  - intros [|[|[|i]]] p H; cbn in H; try discriminate; injection H as <-; split; reflexivity.
  - apply Permutation_refl.
  - vm_compute. reflexivity.
  - vm_compute. reflexivity.
  - left; reflexivity.
  - split; vm_compute; reflexivity.
Qed.
Print Assumptions C05_options_survive_refuted.

(* What does hold: the options of all segments but the first survive, the
   highest numbered segment winning, and the segmentation option is gone. *)
Theorem C05_options_survive_partial : forall k first others h c c' rs,
  segmentation k (first :: others) -> others <> [] ->
  Forall (fun p => NoDup (map fst (p_options p))) others ->
  mget msg_key_eqb k (incomplete c) = None ->
  Permutation (packets_for k h) (first :: others) ->
  run_packets c h = (c', rs) ->
  exists q, answers_for k h rs = repeat (Ok None) (length others) ++ [Ok (Some q)] /\
    segment_of q = None /\
    forall code, code <> CSegment -> mget opt_code_eqb code (p_options q) = last_option code others.
Proof.
  intros k first others h c c' rs H1 H2 Hnd H3 H4 H5.
  destruct (reassembly_any_order k (first :: others) h c c' rs H1 ltac:(discriminate) H3 H4 H5) as [q [Ha [_ [_ [_ [Hq _]]]]]].
  exists q. cbn [length Nat.sub] in Ha. rewrite Nat.sub_0_r in Ha. split; [exact Ha|].
  assert (Hl : (1 < length (first :: others))%nat) by (destruct others; [congruence|cbn; lia]).
  rewrite (Hq Hl). cbn [hd tl joined p_options]. split.
  - unfold segment_of. cbn [joined p_options]. rewrite (joined_no_segment others [] eq_refl). reflexivity.
  - intros code Hcode. cbn [joined p_options]. rewrite (joined_options others [] code Hcode Hnd). destruct (last_option code others); reflexivity.
Qed.
Print Assumptions C05_options_survive_partial.
Example C05_nonvacuous : 
  last_option CPrivate [mkPkt MtJson 1 2 [(CSegment, OSegment 1 false); (CPrivate, OPrivate [7])] [2]; seg 2 true [2]] = Some (OPrivate [7]).
Proof. reflexivity. Qed.

(* ---- C06 ---- *)
(* Refuted: a truncated datagram followed by a datagram of one byte. *)
Theorem C06_datagrams_never_panic_refuted : exists ds,
  (forall t d, In (t, d) ds -> bytes_ok d = true) /\ run_datagrams codec_new ds = Panic.
Proof.
  exists [(0, [33; 12; 0; 20; 0; 0; 0; 1; 0; 0; 0; 2]); (1, [33])]. split; [|vm_compute; reflexivity].
  intros t d [E|[E|[]]]; injection E as <- <-; reflexivity.
Qed.
Print Assumptions C06_datagrams_never_panic_refuted.
(* The panic happens exactly for a datagram shorter than two bytes after one
   that was cut short. *)
Theorem C06_panics_exactly_when : forall now c buf, bytes_ok buf = true ->
  (snd (fst (udp_decode now c buf)) = Panic <-> in_message c = true /\ blen buf < 2).
Proof. exact udp_decode_panic_iff. Qed.
Print Assumptions C06_panics_exactly_when.
Theorem C06_datagrams_never_panic_partial : forall c ds,
  (forall t d, In (t, d) ds -> bytes_ok d = true /\ 2 <= blen d) ->
  exists c' rs, run_datagrams c ds = Ok (c', rs) /\ length rs = length ds.
Proof. intros c ds H. exact (run_datagrams_no_crash ds c H). Qed.
Print Assumptions C06_datagrams_never_panic_partial.
Example C06_nonvacuous : exists c' rs,
  run_datagrams codec_new [(0, [33; 12; 0; 20; 0; 0; 0; 1; 0; 0; 0; 2]); (1, [33; 3]); (2, [0; 0; 255])] = Ok (c', rs) /\
  in_message c' = true.
Proof. do 2 eexists. vm_compute. split; reflexivity. Qed.

(* ---- C41 ---- *)
(* Cleaning up removes exactly the messages whose first segment arrived more
   than [dur] before [now]. The hypothesis holds in every reachable state. *)
Theorem C41_cleanup_exact : forall es c rs now dur k,
  run_events codec_new es = (c, rs) ->
  mget msg_key_eqb k (incomplete (codec_cleanup now dur c)) =
  match mget msg_key_eqb k (incomplete c) with
  | Some b => if dur <? now - rb_timestamp b then None else Some b
  | None => None
  end.
Proof.
  intros es c rs now dur k Hr.
  destruct (run_events_sound es [] codec_new c rs (codec_new_ok []) Hr) as [_ [[Hn _] _]].
  exact (codec_cleanup_get now dur c k Hn).
Qed.
Print Assumptions C41_cleanup_exact.
Example C41_nonvacuous :
  map fst (incomplete (codec_cleanup 20 5 (fst (run_events codec_new [Arrive 1 (seg 0 false [1]); Arrive 18 (mkPkt MtJson 5 5 [(CSegment, OSegment 0 false)] [1])]))))
  = [(5, 5)].
Proof. vm_compute. reflexivity. Qed.
