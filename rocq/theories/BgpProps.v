(* C09-C14, C42-C49: BGP messages, framing and sessions. *)
From Verif Require Import Base BaseLemmas MapLib AfModel FramingModel FramingProofs BgpCapModel BgpCapSpec BgpCapProofs
  BgpFrameModel BgpFrameSpec BgpFrameProofs BgpNlriModel BgpNlriSpec BgpNlriProofs
  BgpAttrModel BgpAttrSpec BgpAttrProofs BgpMsgModel BgpMsgSpec BgpMsgProofs.

(* ---- C09 ---- *)
Theorem C09_chunking_is_irrelevant : forall k xs ys, concat xs = concat ys ->
  feed_all decode_bgp (conn_new k) xs = feed_all decode_bgp (conn_new k) ys.
Proof.
  intros k xs ys H. pose proof (codec_feed_all bgp_ops parse_body asn4_of xs k) as H1.
  pose proof (codec_feed_all bgp_ops parse_body asn4_of ys k) as H2. cbv zeta in H1, H2.
  change (bgp_decode bgp_ops parse_body asn4_of) with decode_bgp in *. rewrite H in H1. etransitivity; [exact H1|symmetry; exact H2].
Qed.
Print Assumptions C09_chunking_is_irrelevant.
(* the driver that decodes until nothing more comes out always ends *)
Theorem C09_decoding_terminates : forall k xs, c_status (feed_all decode_bgp (conn_new k) xs) <> Looping.
Proof. intros k xs. apply (codec_settled bgp_ops parse_body asn4_of xs k). Qed.
Print Assumptions C09_decoding_terminates.

Definition keepalive : list N := repeat 255 16 ++ [0; 19; 4].
Example C09_nonvacuous :
  c_out (feed_all decode_bgp (conn_new codec_default) [take 5 keepalive; drop 5 keepalive ++ take 18 keepalive; drop 18 keepalive])
    = [DItem (MKeepAlive, no_ignored); DItem (MKeepAlive, no_ignored)].
Proof. vm_compute. reflexivity. Qed.

(* ---- C10 ---- *)
Theorem C10_nothing_reported_nothing_consumed : forall k b k' b',
  decode_bgp k b = (k', b', DNone) -> k' = k /\ b' = b.
Proof. intros k b k' b'. apply (decode_none bgp_ops parse_body asn4_of). Qed.
Print Assumptions C10_nothing_reported_nothing_consumed.
(* nothing is reported exactly while the message is incomplete *)
Theorem C10_reports_when_complete : forall k b,
  snd (decode_bgp k b) = DNone <-> blen b < 19 \/ blen b < length_field b.
Proof.
  intros k b. unfold decode_bgp, bgp_decode.
  destruct (19 <=? blen b) eqn:H19; [|cbn; split; intros; [left; lia|reflexivity]].
  rewrite <- length_field_be by lia.
  destruct (blen b <? be_val (take 2 (drop 16 b))) eqn:Hl; [cbn; split; intros; [right; lia|reflexivity]|].
  destruct (parse_message _ _ _) as [[c' r'] [m|e| |]]; cbn [op_reset bgp_ops reset_errors snd];
    split; try discriminate; lia.
Qed.
Print Assumptions C10_reports_when_complete.
Theorem C10_message_consumed_by_its_length : forall k b k' b' i, decode_bgp k b = (k', b', DItem i) ->
  b' = drop (length_field b) b /\ (length b' < length b)%nat.
Proof.
  intros k b k' b' i H. destruct (decode_some bgp_ops parse_body asn4_of _ _ _ _ _ H eq_refl) as (H19 & Hl & Hb).
  rewrite <- length_field_be by exact H19. split; [exact Hb|].
  exact (decode_item_progress bgp_ops parse_body asn4_of _ _ _ _ _ H).
Qed.
Print Assumptions C10_message_consumed_by_its_length.
(* Missing: an error on a length field of zero. *)
Theorem C10_error_consumes_partial : forall k b k' b' e, decode_bgp k b = (k', b', DErr e) -> length_field b <> 0 ->
  b' = drop (length_field b) b /\ (length b' < length b)%nat.
Proof.
  intros k b k' b' e H Hz. destruct (decode_some bgp_ops parse_body asn4_of _ _ _ _ _ H eq_refl) as (H19 & Hl & Hb).
  rewrite <- length_field_be in * by exact H19. split; [exact Hb|].
  exact (decode_error_progress bgp_ops parse_body asn4_of _ _ _ _ _ H eq_refl Hz).
Qed.
Print Assumptions C10_error_consumes_partial.
(* the error repeats for ever on the same octets *)
Theorem C10_zero_length_refuted : exists k b e k',
  decode_bgp k b = (k', b, DErr e) /\ decode_bgp k' b = (k', b, DErr e) /\ 19 <= blen b.
Proof.
  exists codec_default, (repeat 255 16 ++ [0; 0; 4]). eexists. eexists. vm_compute.
  split; [reflexivity|]. split; [reflexivity|discriminate].
Qed.
Print Assumptions C10_zero_length_refuted.
Example C10_nonvacuous : exists k' e,
  decode_bgp codec_default (repeat 255 16 ++ [0; 18; 4; 7; 7]) = (k', [4; 7; 7], DErr e).
Proof. eexists. eexists. vm_compute. reflexivity. Qed.

(* ---- C11 ---- *)
(* An accepted message is a marker, its own length, its type, and a body the
   parser consumed to the last octet; the rest of the buffer is untouched. *)
Theorem C11_accepted_length : forall c buf c' r' m, bytes_ok buf = true ->
  parse_bgp c (rnew buf) = (c', r', Ok m) ->
  exists t b, buf = framed t b (rbuf r') /\ length_allowed t b /\ body_accepts (parse_body t) c b c' m.
Proof. intros. eapply parse_message_ok; eassumption. Qed.
Print Assumptions C11_accepted_length.
(* and conversely every well-framed acceptable body is accepted *)
Theorem C11_framed_is_accepted : forall c t b rest c' m, length_allowed t b -> body_accepts (parse_body t) c b c' m ->
  parse_bgp c (rnew (framed t b rest)) = (c', mkR rest (19 + blen b), Ok m).
Proof.
  intros c t b rest c' m Hl (r & Hb & Hr). unfold parse_bgp. rewrite parse_message_framed by exact Hl. rewrite Hb.
  unfold ris_empty. rewrite Hr. reflexivity.
Qed.
Print Assumptions C11_framed_is_accepted.
(* Missing: messages longer than 65535 octets (refuted below). *)
Theorem C11_written_length_partial : forall asn4 labels ap m b, msg_fits asn4 labels ap m -> write_bgp m = Ok b ->
  length_field b = blen b /\ blen b = 19 + msg_len m /\
  exists body, b = framed (msg_type m) body [] /\ length_allowed (msg_type m) body.
Proof.
  intros asn4 labels ap m b Hf Hw. destruct (write_framed _ _ _ _ _ Hf Hw) as (body & Hb & -> & Hl).
  pose proof (framed_blen (msg_type m) body []) as Hbl. rewrite blen_nil, N.add_0_r in Hbl.
  split; [|split; [|eauto]].
  - rewrite <- length_field_be by lia. rewrite framed_field by (destruct Hl; lia). now rewrite Hbl.
  - rewrite Hbl. f_equal.
    apply (body_roundtrip (mkCtx asn4 labels ap true true true true no_ignored) m body Hf Hb).
Qed.
Print Assumptions C11_written_length_partial.
Theorem C11_oversize_notification_refuted : exists n b, iana_error (n_code n) (n_sub n) /\
  write_bgp (MNotification n) = Ok b /\ blen b = 65536 /\ length_field b = 0.
Proof.
  set (d := repeat 0 (N.to_nat 65515)). assert (Hd : blen d = 65515).
  { unfold d, blen. rewrite repeat_length, N2Nat.id. reflexivity. }
  exists (mkNotif 6 2 d). exists (repeat 255 16 ++ [0; 0; 3; 6; 2] ++ d).
  split; [cbn; do 5 right; left; lia|]. split; [|split].
  - unfold write_bgp, write_message. cbn [msg_type msg_len]. unfold notif_len, bgp_min_len. cbn [n_data].
    rewrite Hd. vm_compute (be_enc 16 u128_max). reflexivity.
  - rewrite !blen_app, Hd. reflexivity.
  - reflexivity.
Qed.
Print Assumptions C11_oversize_notification_refuted.

(* ---- C12 ---- *)
Theorem C12_capability_round_trip_partial : forall c, cap_fits c -> not_multiple_labels c ->
  exists b, write_cap c = Ok b /\ blen b = cap_len c /\
    forall rest off, parse_cap (mkR (b ++ rest) off) = (mkR rest (off + blen b), Ok c).
Proof.
  intros c Hf Hm. destruct (write_cap_total c Hf) as [b Hb]. exists b. split; [exact Hb|].
  destruct (cap_roundtrip c b Hf Hm Hb) as [Hp Hl]. split; [exact Hl|exact Hp].
Qed.
Print Assumptions C12_capability_round_trip_partial.
Theorem C12_open_round_trip_partial : forall o, open_fits o ->
  exists b, write_bgp (MOpen o) = Ok b /\
    forall c rest, parse_bgp c (rnew (b ++ rest)) = (c, mkR rest (blen b), Ok (MOpen o)).
Proof.
  intros o Ho. assert (Hf : msg_fits true [] [] (MOpen o)) by exact Ho.
  destruct (bgp_written _ _ _ _ Hf) as [b Hb]. exists b. split; [exact Hb|]. intros c rest.
  destruct (write_framed _ _ _ _ _ Hf Hb) as (body & Hbody & -> & Hl). rewrite framed_app.
  unfold parse_bgp. rewrite parse_message_framed by exact Hl.
  assert (Hx : fits_ctx c (MOpen o)) by exact Ho. destruct (body_roundtrip c _ body Hx Hbody) as [Hp _].
  rewrite Hp. cbn [ris_empty rbuf]. f_equal. f_equal. rewrite framed_blen, blen_nil. f_equal. lia.
Qed.
Print Assumptions C12_open_round_trip_partial.
(* The multiple-labels capability has no length octet on the wire: an OPEN
   that carries it is not read back. *)
Theorem C12_multiple_labels_refuted : exists o b, write_bgp (MOpen o) = Ok b /\
  Forall cap_fits (open_caps o) /\
  forall m, snd (parse_bgp default_ctx (rnew b)) = Ok m -> m <> MOpen o.
Proof.
  exists (mkOpen 100 180 167772161 [[CMultipleLabels [(Ipv4Unicast, 3)]; CRouteRefresh]]).
  eexists. split; [vm_compute; reflexivity|]. split.
  - cbn. repeat constructor. vm_compute. discriminate.
  - intros m. vm_compute. discriminate.
Qed.
Print Assumptions C12_multiple_labels_refuted.
Definition ex_open : open_msg :=
  mkOpen 23456 90 167772161
    [[CMultiProtocol Ipv6Unicast; CRouteRefresh; CFourOctetAs 4200000000];
     [CAddPath [(Ipv4Unicast, true, true)]; CFqdn [97; 98] []; CUnrecognized 200 [9]; CGracefulRestart true false 120 [(true, Ipv4Unicast)]]].
Example C12_nonvacuous : open_fits ex_open /\ exists b, write_bgp (MOpen ex_open) = Ok b /\ blen b = 70.
Proof.
  split; [|eexists; vm_compute; split; reflexivity].
  unfold open_fits, ex_open, u16, hold_time_fits, host_id. cbn [o_as o_hold o_id o_params].
  split; [lia|]. split; [right; lia|]. split; [lia|]. split; [|vm_compute; discriminate].
  assert (H200 : ~ dedicated_code 200).
  { unfold dedicated_code. cbn [In]. lia. }
  repeat constructor; try (vm_compute; congruence); try assumption; try reflexivity.
Qed.

(* ---- C13 ---- *)
(* one length octet and ceil(len/8) octets, read back to the same prefix *)
Theorem C13_prefix_round_trip : forall w n, w = 4 \/ w = 16 -> net_wf w n -> no_host_bits n ->
  blen (enc_net n) = 1 + (snd n + 7) / 8 /\
  forall rest off, parse_net w (mkR (enc_net n ++ rest) off) = (mkR rest (off + blen (enc_net n)), Ok n).
Proof.
  intros w n Hw Hn Hh. split; [|apply p_net; auto; lia].
  unfold enc_net. rewrite blen_cons, (enc_net_octets_len w n Hn). reflexivity.
Qed.
Print Assumptions C13_prefix_round_trip.
(* what is accepted names at most the width of the family, and the octets on
   the wire are the bits of the prefix *)
Theorem C13_accepted_prefix : forall w r r' n, w = 4 \/ w = 16 -> parse_net w r = (r', Ok n) ->
  snd n <= 8 * w /\ blen (fst n) = w /\
  exists o, rbuf r = (snd n :: o) ++ rbuf r' /\ blen o = (snd n + 7) / 8 /\
            forall i, i < snd n -> bit_at (fst n) i = bit_at o i.
Proof.
  intros w r r' n Hw H. destruct (net_parsed w r r' n ltac:(lia) H) as (o & H1 & H2 & H3 & H4 & H5 & H6).
  split; [exact H3|]. split; [exact H5|]. exists o. auto.
Qed.
Print Assumptions C13_accepted_prefix.
Theorem C13_too_long_is_rejected : forall w plen rest off, w = 4 \/ w = 16 -> 8 * w < plen ->
  exists r' e, parse_net w (mkR (plen :: rest) off) = (r', Err e).
Proof.
  intros w plen rest off Hw Hp. destruct (parse_net w (mkR (plen :: rest) off)) as [r' [n|e| |]] eqn:H.
  - destruct (net_parsed w _ r' n ltac:(lia) H) as (o & H1 & _ & H3 & _). cbn [rbuf app] in H1. inversion H1. lia.
  - eauto.
  - exfalso. destruct (safe_net w (mkR (plen :: rest) off)) as [_ Hs]. rewrite H in Hs. exact Hs.
  - exfalso. destruct (safe_net w (mkR (plen :: rest) off)) as [_ Hs]. rewrite H in Hs. exact Hs.
Qed.
Print Assumptions C13_too_long_is_rejected.
(* the octets written are the first [plen] bits of the address, then zeros *)
Theorem C13_written_bits : forall w n i, net_wf w n -> i < 8 * ((snd n + 7) / 8) ->
  exists o, enc_net n = snd n :: o /\ bit_at o i = (i <? snd n) && bit_at (fst n) i.
Proof. intros w n i Hn Hi. exists (enc_net_octets n). split; [reflexivity|]. exact (net_written_bits w n i Hn Hi). Qed.
Print Assumptions C13_written_bits.
(* with a path id and in the unicast and multicast families *)
Theorem C13_unicast_nlri_round_trip : forall t ap limit pid n b,
  nlri_fits t ap limit (NPlain pid n) -> write_nlri (NPlain pid n) = Ok b ->
  forall rest off, parse_nlri_of t ap limit (mkR (b ++ rest) off) = (mkR rest (off + blen b), Ok (NPlain pid n)).
Proof.
  intros t ap limit pid n b Hf Hw. apply (nlri_roundtrip t ap limit); auto.
  destruct t; cbn in *; try contradiction; exact I.
Qed.
Print Assumptions C13_unicast_nlri_round_trip.
(* 240.0.0.1/3 is accepted as an IPv4 unicast prefix; it is written as
   224.0.0.0/3, which is refused. *)
Theorem C13_host_bits_refuted : exists b x b', parse_nlri_of Ipv4Unicast false 1 (rnew b) = (mkR [] (blen b), Ok x) /\
  write_nlri x = Ok b' /\ exists r e, parse_nlri_of Ipv4Unicast false 1 (rnew b') = (r, Err e).
Proof.
  exists [3; 240]. eexists. eexists. split; [vm_compute; reflexivity|]. split; [vm_compute; reflexivity|].
  eexists. eexists. vm_compute. reflexivity.
Qed.
Print Assumptions C13_host_bits_refuted.
Example C13_nonvacuous : net_wf 4 ([10; 1; 128; 0], 17) /\ no_host_bits ([10; 1; 128; 0], 17) /\
  enc_net ([10; 1; 128; 0], 17) = [17; 10; 1; 128].
Proof.
  split; [vm_compute; intuition congruence|]. split; [|reflexivity].
  intros i H1 H2. cbn [snd fst] in *. vm_compute (8 * blen [10; 1; 128; 0]) in H2.
  assert (Hc : In i (map N.of_nat (seq 17 15))).
  { replace i with (N.of_nat (N.to_nat i)) by lia. apply in_map. apply in_seq. lia. }
  cbn in Hc. repeat (destruct Hc as [<-|Hc]; [reflexivity|]). contradiction.
Qed.

(* ---- C48 ---- *)
(* Missing: labelled-unicast elements with a path id, and elements whose
   labels and prefix exceed 248 bits (both refuted below). *)
Theorem C48_nlri_round_trip_partial : forall t ap limit x, nlri_fits t ap limit x -> keeps_path_id t ap ->
  exists b, write_nlri x = Ok b /\ blen b = nlri_len x /\
    forall rest off, parse_nlri_of t ap limit (mkR (b ++ rest) off) = (mkR rest (off + blen b), Ok x).
Proof.
  intros t ap limit x Hf Hk. destruct (nlri_written t ap limit x Hf) as (b & Hb & Hl). exists b.
  split; [exact Hb|]. split; [exact Hl|]. exact (nlri_roundtrip t ap limit x b Hf Hk Hb).
Qed.
Print Assumptions C48_nlri_round_trip_partial.
Theorem C48_labelled_path_id_refuted : exists t x b, nlri_fits t true 1 x /\ write_nlri x = Ok b /\
  forall r y, parse_nlri_of t true 1 (rnew b) = (r, Ok y) -> y <> x.
Proof.
  exists Ipv4NlriMplsLabels, (NLabelled (Some 7) [[0; 1; 1]] ([10; 0; 0; 0], 8)). eexists.
  split; [|split; [vm_compute; reflexivity|]].
  - cbn [nlri_fits path_id_fits]. split; [split; [reflexivity|reflexivity]|]. split.
    { split; [repeat constructor|]. split; [vm_compute; discriminate|]. split; [constructor|].
      left. split; [discriminate|reflexivity]. }
    split; [vm_compute; intuition congruence|]. split; [|vm_compute; discriminate].
    intros i H1 H2. cbn [snd fst] in *. vm_compute (8 * blen [10; 0; 0; 0]) in H2.
    assert (Hc : In i (map N.of_nat (seq 8 24))).
    { replace i with (N.of_nat (N.to_nat i)) by lia. apply in_map. apply in_seq. lia. }
    cbn in Hc. repeat (destruct Hc as [<-|Hc]; [reflexivity|]). contradiction.
  - intros r y. vm_compute. discriminate.
Qed.
Print Assumptions C48_labelled_path_id_refuted.
(* one length octet covers labels and prefix; above 248 bits the reader asks
   for 255 octets *)
Theorem C48_long_label_refuted : exists x b,
  x = NLabelled None (repeat [0; 0; 0] 5 ++ [[0; 0; 1]]) ([32; 1; 0; 0; 0; 0; 0; 0; 0; 0; 0; 0; 0; 0; 0; 1], 108) /\
  write_nlri x = Ok b /\ blen b = 33 /\
  exists r e, parse_nlri_of Ipv6NlriMplsLabels false 6 (rnew b) = (r, Err e).
Proof.
  eexists. eexists. split; [reflexivity|]. split; [vm_compute; reflexivity|]. split; [reflexivity|].
  eexists. eexists. vm_compute. reflexivity.
Qed.
Print Assumptions C48_long_label_refuted.
Definition ex_vpn : nlri := NVpn (Some 9) (RdAs2 65000 7) [[0; 1; 0]; [0; 2; 1]] ([10; 0; 0; 0], 8).
Example C48_nonvacuous : exists b, write_nlri ex_vpn = Ok b /\ blen b = 20 /\
  keeps_path_id Ipv4MplsLabeledVpn true /\ nlri_fits Ipv4MplsLabeledVpn true 3 ex_vpn.
Proof.
  eexists. split; [vm_compute; reflexivity|]. split; [reflexivity|]. split; [exact I|].
  cbn [nlri_fits ex_vpn path_id_fits rd_fits]. split; [split; reflexivity|]. split; [split; reflexivity|]. split.
  { split; [repeat constructor|]. split; [vm_compute; discriminate|]. split; [repeat constructor|].
    left. split; [discriminate|reflexivity]. }
  split; [vm_compute; intuition congruence|]. split; [|split; [reflexivity|vm_compute; discriminate]].
  intros i H1 H2. cbn [snd fst] in *. vm_compute (8 * blen [10; 0; 0; 0]) in H2.
  assert (Hc : In i (map N.of_nat (seq 8 24))).
  { replace i with (N.of_nat (N.to_nat i)) by lia. apply in_map. apply in_seq. lia. }
  cbn in Hc. repeat (destruct Hc as [<-|Hc]; [reflexivity|]). contradiction.
Qed.

(* ---- C14 ---- *)
(* Missing: MP_REACH_NLRI of a family without a reader, and values longer
   than 255 octets whose extended-length flag is off (both refuted below). *)
Theorem C14_attributes_round_trip_partial : forall c xs,
  Forall (attr_sendable (x_asn4 c) (x_labels c) (x_add_path c)) xs ->
  exists b, write_attrs xs = Ok b /\ blen b = sum_len attr_len xs /\
    forall off, cmany_all attr_step c (mkR b off) = (c, mkR [] (off + blen b), Ok xs).
Proof.
  intros c xs Hx. destruct (write_attrs_ok _ _ _ _ Hx) as [Hw Hl]. eexists. split; [exact Hw|]. split; [exact Hl|].
  apply (cp_many_all attr_step c attr_octets). intros a Ha. rewrite Forall_forall in Hx.
  apply attr_step_written, Hx, Ha.
Qed.
Print Assumptions C14_attributes_round_trip_partial.
(* the flags and the type code are the first two octets *)
Theorem C14_flags_on_the_wire : forall a b, write_attr a = Ok b ->
  exists f rest, b = f :: attr_code (pa_val a) :: rest /\ N.testbit f 7 = pa_opt a /\ N.testbit f 6 = pa_trans a /\
                 N.testbit f 5 = pa_partial a /\ N.testbit f 4 = pa_ext a.
Proof.
  intros a b. unfold write_attr. destruct (enc_value (pa_val a)) as [v| | |]; cbn [rbind]; try discriminate.
  intros H. apply Ok_inj in H. subst b. eexists. eexists. split; [reflexivity|].
  unfold flags_octet. destruct (pa_opt a), (pa_trans a), (pa_partial a), (pa_ext a); repeat split.
Qed.
Print Assumptions C14_flags_on_the_wire.
Theorem C14_mp_reach_unknown_refuted : exists a b, write_attr a = Ok b /\
  flags_conform (category_of (pa_val a)) (pa_opt a) (pa_trans a) (pa_partial a) /\ value_fits true [] [] (pa_val a) /\
  length_fits a /\ exists r e, parse_attr true [] [] (rnew b) = (r, Err e).
Proof.
  exists (mkPattr true false false false (AMpReach (MrUnknown 1 5 [1; 2; 3]))). eexists.
  split; [vm_compute; reflexivity|]. split; [repeat split|]. split.
  { cbn. repeat split. }
  split; [vm_compute; reflexivity|]. eexists. eexists. vm_compute. reflexivity.
Qed.
Print Assumptions C14_mp_reach_unknown_refuted.
Theorem C14_short_flag_refuted : exists a b, write_attr a = Ok b /\
  flags_conform (category_of (pa_val a)) (pa_opt a) (pa_trans a) (pa_partial a) /\ value_fits true [] [] (pa_val a) /\
  value_len (pa_val a) < 65536 /\ pa_ext a = false /\
  forall r x, parse_attr true [] [] (rnew b) = (r, Ok x) -> x <> a.
Proof.
  exists (mkPattr true true false false (ACommunities (repeat 7 64))). eexists.
  split; [vm_compute; reflexivity|]. split; [split; reflexivity|]. split.
  { apply Forall_forall. intros x Hx. apply repeat_spec in Hx. subst. reflexivity. }
  split; [vm_compute; reflexivity|]. split; [reflexivity|].
  intros r x. vm_compute. intros H. inversion H; subst; discriminate.
Qed.
Print Assumptions C14_short_flag_refuted.
Definition ex_attrs : list pattr :=
  [mkPattr false true false false (AOrigin 0);
   mkPattr false true false true (AAsPath true [(2, [4200000000; 1])]);
   mkPattr true true true true (ACommunities (repeat 7 100));
   mkPattr true false false false (AMpReach (MrKnown Ipv6Unicast (NhIp (V6 (repeat 1 16)) None) []))].
Example C14_nonvacuous : Forall (attr_sendable true [] []) ex_attrs /\
  exists b, write_attrs ex_attrs = Ok b /\ blen b = 446.
Proof.
  split; [|eexists; vm_compute; split; reflexivity].
  assert (Hc : Forall u32 (repeat 7 100)).
  { apply Forall_forall. intros x Hx. apply repeat_spec in Hx. subst. reflexivity. }
  repeat constructor; try reflexivity; try (vm_compute; congruence); try exact Hc.
  exists NhkV6. repeat split.
Qed.

(* ---- C42 ---- *)
(* Missing: a negotiated label count of 8 or more (refuted below). Every
   state of a session whose limits are at most 7 is covered, whatever was
   sent and received before. *)
Theorem C42_decoding_never_panics_partial : forall ops k k' ss vs b k2 b2 o,
  small_limits (x_labels (k_ctx k)) -> session k ops = (k', ss, vs) ->
  decode_bgp k' b = (k2, b2, o) -> o <> DPanic.
Proof.
  intros ops k k' ss vs b k2 b2 o Hl Hs Hd. refine (proj2 (decode_bgp_labels _ _ _ _ _ _ Hd)).
  clear Hd. revert k ss vs Hl Hs. induction ops as [|op ops IH]; intros k ss vs Hl; cbn [session].
  - intros H; inversion H; subst; exact Hl.
  - destruct (session_step k op) as [[k1 s] v] eqn:Hst. destruct (session k1 ops) as [[k3 ss2] vs2] eqn:Hr.
    intros H; inversion H; subst. refine (IH k1 _ _ _ Hr). destruct op as [m|x]; cbn [session_step] in Hst.
    + inversion Hst; subst. exact Hl.
    + destruct (decode_bgp k x) as [[k4 b4] o4] eqn:Hd. destruct (decode_bgp_labels _ _ _ _ _ Hl Hd) as [He _].
      rewrite <- He in Hl. destruct o4 as [|[m ig]|e|]; inversion Hst; subst; exact Hl.
Qed.
Print Assumptions C42_decoding_never_panics_partial.
(* a peer that announced eight labels per VPN prefix: an UPDATE of 300 octets *)
Theorem C42_label_overflow_refuted : exists k b, blen b = 300 /\
  x_labels (k_ctx k) = [(Ipv4MplsLabeledVpn, 8)] /\ snd (decode_bgp k b) = DPanic.
Proof.
  exists (mkCodec (Some true) (Some true) (mkCtx true [(Ipv4MplsLabeledVpn, 8)] [] true true true true no_ignored)).
  exists (repeat 255 16 ++ [1; 44; 2; 0; 0; 1; 21] ++ [144; 14; 1; 17; 0; 1; 128; 12] ++ repeat 0 12 ++ [0; 255]
          ++ repeat 0 255).
  vm_compute. repeat split.
Qed.
Print Assumptions C42_label_overflow_refuted.
Example C42_nonvacuous : small_limits (x_labels (k_ctx codec_default)).
Proof. intros t. vm_compute. discriminate. Qed.

(* ---- C43 ---- *)
(* Missing: only AS_PATH and AS4_PATH values that are no list of segments are
   skipped exactly; the other cases are refuted below. *)
Theorem C43_malformed_as_path_is_local_partial : forall c flags code v xs ys b1 b2,
  x_fail_attr c = false -> In code [2; 17] -> tlv_len_ok flags v ->
  (forall off, snd (parse_attr (x_asn4 c) (x_labels c) (x_add_path c) (mkR (attr_tlv flags code v) off)) =
               Err (AE_Attr KAsPath None)) ->
  Forall (attr_sendable (x_asn4 c) (x_labels c) (x_add_path c)) xs ->
  Forall (attr_sendable (x_asn4 c) (x_labels c) (x_add_path c)) ys ->
  write_attrs xs = Ok b1 -> write_attrs ys = Ok b2 ->
  let blk := b1 ++ attr_tlv flags code v ++ b2 in
  blen blk < 65536 ->
  exists c' off, parse_update c (rnew ([0; 0] ++ be_enc 2 (blen blk) ++ blk)) =
      (c', mkR [] off, Ok (mkUpdate [] (xs ++ ys) [])) /\
    ig_attrs (x_ign c') = ig_attrs (x_ign c) ++ [AE_Attr KAsPath None].
Proof.
  intros c flags code v xs ys b1 b2 Hf Hc Hl He Hx Hy H1 H2 blk Hb. eexists.
  destruct (update_as_path_skipped c flags code v xs ys b1 b2 Hf Hc Hl He Hx Hy H1 H2 Hb) as [off Ho].
  exists off. split; [exact Ho|reflexivity].
Qed.
Print Assumptions C43_malformed_as_path_is_local_partial.
(* ORIGIN with a wrong flag, then MED and LOCAL_PREF: the MED is lost too. *)
Definition tolerant : bctx := k_ctx (codec_new true).
Theorem C43_wrong_flags_refuted : exists bad xs b c' r, attr_tlv 192 1 [0] = bad /\
  write_attrs xs = Ok b /\ blen b = 14 /\ blen xs = 2 /\
  parse_update tolerant (rnew ([0; 0] ++ be_enc 2 18 ++ bad ++ b)) = (c', r, Ok (mkUpdate [] (drop 1 xs) [])).
Proof.
  exists [192; 1; 1; 0], [mkPattr true false false false (AMed 5); mkPattr false true false false (ALocalPref 6)].
  eexists. eexists. eexists. split; [reflexivity|]. split; [vm_compute; reflexivity|]. split; [reflexivity|].
  split; [reflexivity|]. vm_compute. reflexivity.
Qed.
Print Assumptions C43_wrong_flags_refuted.
(* NEXT_HOP of five octets, then MED and LOCAL_PREF: neither is decoded, two
   attributes nobody sent are. *)
Theorem C43_wrong_length_refuted : exists bad xs b c' r u, attr_tlv 64 3 [1; 2; 3; 4; 5] = bad /\
  write_attrs xs = Ok b /\ blen xs = 2 /\
  parse_update tolerant (rnew ([0; 0] ++ be_enc 2 (blen (bad ++ b)) ++ bad ++ b)) = (c', r, Ok u) /\
  blen (u_attrs u) = 2 /\ forall a, In a xs -> ~ In a (u_attrs u).
Proof.
  exists [64; 3; 5; 1; 2; 3; 4; 5], [mkPattr true false false false (AMed 5); mkPattr false true false false (ALocalPref 6)].
  eexists. eexists. eexists. eexists. split; [reflexivity|]. split; [vm_compute; reflexivity|]. split; [reflexivity|].
  split; [vm_compute; reflexivity|]. split; [reflexivity|].
  intros a [<-|[<-|[]]]; cbn; intuition discriminate.
Qed.
Print Assumptions C43_wrong_length_refuted.
Example C43_nonvacuous : x_fail_attr tolerant = false /\
  (forall off, snd (parse_attr true [] [] (mkR (attr_tlv 64 2 [9; 1; 0; 0; 0; 1]) off)) = Err (AE_Attr KAsPath None)) /\
  Forall (attr_sendable true [] []) ex_attrs.
Proof. split; [reflexivity|]. split; [intros; reflexivity|]. exact (proj1 C14_nonvacuous). Qed.

(* ---- C44 ---- *)
(* Missing: capabilities with a fixed length (refuted below). The codes are
   extended next hop, graceful restart, ADD-PATH and FQDN. *)
Theorem C44_malformed_capability_is_local_partial : forall c code v cs ds b1 b2 e,
  x_fail_cap c = false -> In code [5; 64; 69; 73] -> blen v < 256 ->
  (forall off, snd (parse_cap (mkR (cap_tlv code v) off)) = Err e) ->
  Forall (fun x => cap_fits x /\ not_multiple_labels x) cs ->
  Forall (fun x => cap_fits x /\ not_multiple_labels x) ds ->
  write_caps cs = Ok b1 -> write_caps ds = Ok b2 ->
  let blk := b1 ++ cap_tlv code v ++ b2 in
  forall rest off, exists c' off',
    parse_cap_param c (mkR (blen blk :: blk ++ rest) off) = (c', mkR rest off', Ok (cs ++ ds)) /\
    ig_caps (x_ign c') = ig_caps (x_ign c) ++ [e].
Proof.
  intros c code v cs ds b1 b2 e Hf Hc Hl He Hx Hy H1 H2 blk rest off. eexists.
  destruct (param_cap_skipped c code v cs ds b1 b2 e Hf Hc Hl He Hx Hy H1 H2 rest off) as [off' Ho].
  exists off'. split; [exact Ho|reflexivity].
Qed.
Print Assumptions C44_malformed_capability_is_local_partial.
(* a ROUTE-REFRESH capability of one octet, then a four-octet AS capability:
   the latter disappears *)
Theorem C44_fixed_length_refuted : exists bad b c' r cs, cap_tlv 2 [0] = bad /\ write_caps [CFourOctetAs 1] = Ok b /\
  parse_cap_param tolerant (rnew (blen (bad ++ b) :: bad ++ b)) = (c', r, Ok cs) /\ ~ In (CFourOctetAs 1) cs.
Proof.
  exists [2; 1; 0]. do 4 eexists. split; [reflexivity|]. split; [vm_compute; reflexivity|]. split; [vm_compute; reflexivity|].
  cbn [In]. intuition discriminate.
Qed.
Print Assumptions C44_fixed_length_refuted.
Example C44_nonvacuous : x_fail_cap tolerant = false /\
  exists e, forall off, snd (parse_cap (mkR (cap_tlv 69 [0; 1; 1; 9]) off)) = Err e.
Proof. split; [reflexivity|]. eexists. intros off. vm_compute. reflexivity. Qed.

(* ---- C45 ---- *)
Theorem C45_error_notification_is_readable : forall e k, 
  iana_error (n_code (notif_of e)) (n_sub (notif_of e)) /\
  exists b, write_bgp (MNotification (notif_of e)) = Ok b /\
    exists k', decode_bgp k b = (k', [], DItem (MNotification (notif_of e), x_ign (k_ctx k))).
Proof.
  intros e k. pose proof (notif_of_fits e) as Hn. split; [exact (proj1 Hn)|].
  destruct (bgp_written true [] [] (MNotification (notif_of e)) Hn) as [b Hb]. exists b. split; [exact Hb|].
  destruct (bgp_decode_one k (MNotification (notif_of e)) b [] Hn Hb) as (x' & Hd & _).
  rewrite app_nil_r in Hd. eexists. exact Hd.
Qed.
Print Assumptions C45_error_notification_is_readable.
Example C45_nonvacuous : exists k b k' e, decode_bgp codec_default b = (k, k', DErr e) /\ n_code (notif_of e) = 2.
Proof.
  eexists. exists (repeat 255 16 ++ [0; 29; 1; 3; 0; 1; 0; 9; 1; 1; 1; 1; 0]). do 2 eexists.
  vm_compute. split; reflexivity.
Qed.

(* ---- C46 ---- *)
Theorem C46_as_width_follows_negotiation : forall ops k' ss vs b k2 b2 u ig,
  session codec_default ops = (k', ss, vs) -> decode_bgp k' b = (k2, b2, DItem (MUpdate u, ig)) ->
  as_paths_have_width (last_announced ss && last_announced vs) u.
Proof.
  intros ops k' ss vs b k2 b2 u ig Hs Hd. destruct (session_known _ _ _ _ _ Hs) as [H1 H2].
  rewrite <- agreed_known. cbn [codec_default k_sent k_recv] in H1, H2. rewrite <- H1, <- H2.
  eapply decode_update_width; exact Hd.
Qed.
Print Assumptions C46_as_width_follows_negotiation.
Definition ex_open4 : open_msg := mkOpen 23456 90 167772161 [[CFourOctetAs 4200000000]].
Definition ex_open2 : open_msg := mkOpen 100 90 167772162 [[CRouteRefresh]].
Definition octets_of (m : bgp_msg) : list N := match write_bgp m with Ok b => b | _ => [] end.
(* both widths occur *)
Example C46_nonvacuous :
  let ss o := snd (fst (session codec_default [SendMsg (MOpen ex_open4); RecvBuf (octets_of (MOpen o))])) in
  let vs o := snd (session codec_default [SendMsg (MOpen ex_open4); RecvBuf (octets_of (MOpen o))]) in
  last_announced (ss ex_open4) && last_announced (vs ex_open4) = true /\
  last_announced (ss ex_open2) && last_announced (vs ex_open2) = false /\
  vs ex_open2 = [None; Some (MOpen ex_open2)].
Proof. vm_compute. repeat split. Qed.

(* ---- C47 ---- *)
(* Missing: histories in which an earlier decode ended in an error (refuted
   below). *)
Theorem C47_reported_errors_are_own_partial : forall ops k k' ss vs,
  x_ign (k_ctx k) = mkIgn [] [] [] [] -> no_decode_error k ops -> session k ops = (k', ss, vs) ->
  forall b, decode_bgp k' b = decode_bgp (forget_errors k') b.
Proof.
  intros ops k k' ss vs H0 Hn Hs b. rewrite forget_clean; [reflexivity|].
  exact (session_clean ops k k' ss vs Hs Hn H0).
Qed.
Print Assumptions C47_reported_errors_are_own_partial.
(* An UPDATE announcing 224.0.0.0/4 is refused; the KEEPALIVE after it is
   handed out with that prefix as its tolerated error. *)
Theorem C47_errors_leak_refuted : exists upd k1 r1 e,
  decode_bgp codec_default upd = (k1, r1, DErr e) /\
  exists k2 ig, decode_bgp k1 (octets_of MKeepAlive) = (k2, [], DItem (MKeepAlive, ig)) /\
    ig_update ig = [([224; 0; 0; 0], 4)].
Proof.
  exists (repeat 255 16 ++ [0; 25; 2; 0; 0; 0; 0; 4; 224]). do 3 eexists. split; [vm_compute; reflexivity|].
  do 2 eexists. vm_compute. split; reflexivity.
Qed.
Print Assumptions C47_errors_leak_refuted.
Example C47_nonvacuous : no_decode_error codec_default
  [SendMsg (MOpen ex_open4); RecvBuf (octets_of (MOpen ex_open4)); RecvBuf (octets_of MKeepAlive)].
Proof. cbn [no_decode_error]. split; [exact I|]. split; [intros e; vm_compute; split; discriminate|].
  split; [intros e; vm_compute; split; discriminate|exact I]. Qed.

(* ---- C49 ---- *)
(* Missing: the values excluded by [msg_fits], refuted under C11, C12, C14
   and C48. *)
Theorem C49_session_delivers_partial : forall k ms b xs,
  x_ign (k_ctx k) = mkIgn [] [] [] [] ->
  stream_fits (k_sent k) (k_recv k) (x_labels (k_ctx k)) (x_add_path (k_ctx k)) ms ->
  written ms b -> concat xs = b ->
  let c := feed_all decode_bgp (conn_new k) xs in
  c_out c = map (fun m => DItem (m, mkIgn [] [] [] [])) ms /\ c_buf c = [] /\ c_status c = Waiting.
Proof. exact bgp_stream_chunks. Qed.
Print Assumptions C49_session_delivers_partial.
Theorem C49_messages_are_written : forall k ms,
  stream_fits (k_sent k) (k_recv k) (x_labels (k_ctx k)) (x_add_path (k_ctx k)) ms -> exists b, written ms b.
Proof.
  intros k ms. generalize (k_recv k). induction ms as [|m ms IH]; intros v; cbn [stream_fits written].
  - intros _. exists []. reflexivity.
  - intros [Hm Hr]. destruct (bgp_written _ _ _ _ Hm) as [b1 H1]. destruct (IH _ Hr) as [b2 H2].
    exists (b1 ++ b2), b1, b2. auto.
Qed.
Print Assumptions C49_messages_are_written.
Example ex_net_ok : net_wf 4 ([10; 0; 0; 0], 8) /\ no_host_bits ([10; 0; 0; 0], 8).
Proof.
  split; [vm_compute; intuition congruence|].
  intros i H1 H2. cbn [snd fst] in *. vm_compute (8 * blen [10; 0; 0; 0]) in H2.
  assert (Hc : In i (map N.of_nat (seq 8 24))).
  { replace i with (N.of_nat (N.to_nat i)) by lia. apply in_map. apply in_seq. lia. }
  cbn in Hc. repeat (destruct Hc as [<-|Hc]; [reflexivity|]). contradiction.
Qed.
Example C49_nonvacuous : stream_fits (Some true) None [] []
  [MOpen ex_open; MKeepAlive; MUpdate (mkUpdate [(None, ([10; 0; 0; 0], 8))] ex_attrs [(None, ([10; 0; 0; 0], 8))]);
   MNotification (mkNotif 6 2 [])].
Proof.
  assert (Hr : Forall (route_fits (add_path_of [] Ipv4Unicast)) [(None, ([10; 0; 0; 0], 8))]).
  { constructor; [|constructor]. split; [reflexivity|]. split; [apply ex_net_ok|]. split; [apply ex_net_ok|reflexivity]. }
  cbn [stream_fits]. split; [exact (proj1 C12_nonvacuous)|]. split; [exact I|].
  change (learn MKeepAlive (learn (MOpen ex_open) None)) with (Some true). change (agreed (Some true) (Some true)) with true.
  split; [|split; [|exact I]].
  - split; [exact Hr|]. split; [exact (proj1 C14_nonvacuous)|]. split; [exact Hr|vm_compute; discriminate].
  - split; [|vm_compute; discriminate]. do 5 right. left. cbn. lia.
Qed.
