(* C15, C16, C50-C55: BMP. *)
From Verif Require Import Base BaseLemmas MapLib AfModel FramingModel FramingProofs BgpCapModel BgpCapSpec BgpCapProofs BgpFrameModel
  BgpFrameSpec BgpFrameProofs BgpNlriModel BgpNlriSpec BgpAttrModel BgpAttrSpec BgpAttrProofs BgpMsgModel BgpMsgSpec BgpMsgProofs
  BmpModel BmpSpec BmpFrameProofs BmpCtxProofs BmpRoundProofs BmpSafeProofs BmpStreamProofs.
From Coq Require Import Lia ZifyBool ZifyN ZifyNat.

(* ---- C15 ---- *)
(* [bk_in k = false]: the decoder is between two messages. The reader may stop
   at the first error or go on. *)
Theorem C15_chunking_is_irrelevant : forall k xs ys, bk_in k = false -> concat xs = concat ys ->
  feed_all bmp_decode (conn_new k) xs = feed_all bmp_decode (conn_new k) ys /\
  feed_all (resume bmp_decode) (conn_new k) xs = feed_all (resume bmp_decode) (conn_new k) ys.
Proof.
  intros k xs ys Hk H. destruct (fresh_settled k Hk) as [H1 H2].
  rewrite !bmp_feed_all, !resume_feed_all, H by assumption. split; reflexivity.
Qed.
Print Assumptions C15_chunking_is_irrelevant.
Theorem C15_decoding_terminates : forall k xs, bk_in k = false ->
  c_status (feed_all bmp_decode (conn_new k) xs) <> Looping /\
  c_status (feed_all (resume bmp_decode) (conn_new k) xs) <> Looping.
Proof.
  intros k xs Hk. destruct (fresh_settled k Hk) as [H1 H2].
  pose proof (bmp_settled xs _ H1) as H3. pose proof (resume_settled xs _ H2) as H4.
  unfold settled in H3, H4. split; intros Hx; [rewrite Hx in H3|rewrite Hx in H4]; assumption.
Qed.
Print Assumptions C15_decoding_terminates.
(* Missing: streams in which a peer announces more than seven labels per
   prefix, in a peer-up or in a stateless-parsing TLV (refuted below). *)
Theorem C15_never_panics_partial : forall xs, ~ overlabelled (concat xs) ->
  let c := feed_all (resume bmp_decode) (conn_new bmp_default) xs in
  Forall small_event (history (c_out c)) -> ~ In DPanic (c_out c).
Proof. exact stream_safe. Qed.
Print Assumptions C15_never_panics_partial.
(* one v4 route-monitoring message: eight labels announced, then used *)
Definition zero_header : list N := repeat 0 42.
Definition panicking_frame : list N :=
  [4; 0; 0; 1; 109; 0] ++ zero_header ++ [0; 1; 0; 5; 0; 0; 8; 0; 1; 128; 8] ++ [0; 4; 1; 44; 0; 0]
  ++ repeat 255 16 ++ [1; 44; 2; 0; 0; 1; 21] ++ [144; 14; 1; 17; 0; 1; 128; 12] ++ repeat 0 12 ++ [0; 255] ++ repeat 0 255.
Theorem C15_label_overflow_refuted : exists f, whole_frame f /\ snd (bmp_decode bmp_default f) = DPanic.
Proof. exists panicking_frame. split; [split; [|split]|]; vm_compute; (reflexivity || discriminate). Qed.
Print Assumptions C15_label_overflow_refuted.
Definition ex_header : peer_header := mkPH (PInst Global false false false false) None (Some (B4 167772161)) 65001 167772161 (Some (7, 1000)).
Definition ex_up (ap : list (addr_type * bool * bool)) : bmp_msg :=
  V3Common (CUp (mkUp ex_header (Some (B4 167772162)) (Some 179) (Some 40000)
    (MOpen (mkOpen 65000 180 167772162 [[CAddPath ap]])) (MOpen (mkOpen 65001 180 167772161 [[CAddPath ap]])) [])).
Definition octets_of (m : bmp_msg) : list N := match write_bmp m with Ok b => b | _ => [] end.
Definition ex_stream : list N := octets_of (V3Common (CInit [(2, [114; 49])])) ++ [9] ++ octets_of (ex_up [(Ipv4Unicast, true, true)]).
Example C15_nonvacuous : exists e,
  c_out (feed_all (resume bmp_decode) (conn_new bmp_default) [take 3 ex_stream; drop 3 (take 30 ex_stream); drop 30 ex_stream])
    = [DItem (inl (V3Common (CInit [(2, [114; 49])]))); DItem (inr e); DItem (inl (ex_up [(Ipv4Unicast, true, true)]))].
Proof. eexists. vm_compute. reflexivity. Qed.

(* ---- C16 ---- *)
(* Missing: peer-ups whose header carries another BGP ID than the received
   OPEN, and a peer-up for the other direction of the same peer (both refuted
   below). *)
Theorem C16_add_path_follows_history_partial : forall xs h t,
  let c := feed_all (resume bmp_decode) (conn_new bmp_default) xs in
  Forall (speaks_for_itself h) (history (c_out c)) -> Forall (up_direction (adj_rib_out h) h) (history (c_out c)) ->
  add_path_of (snd (knows (c_st c) h)) t = add_path_now (adj_rib_out h) (history (c_out c)) h t.
Proof.
  intros xs h t. cbv zeta. intros H1 H2. unfold knows. cbn [snd]. change (x_add_path (reads ?k h)) with (x_add_path (peer_ctx (key_of h) (bk_ctx k))).
  apply (stream_tracks (tracks_ap (adj_rib_out h) h t) (fun e => speaks_for_itself h e /\ up_direction (adj_rib_out h) h e)).
  - intros. eapply tracks_same; eauto.
  - intros msg m evs He. apply tracks_step; intros e Hx; apply (He e Hx).
  - reflexivity.
  - apply Forall_and; assumption.
Qed.
Print Assumptions C16_add_path_follows_history_partial.
(* ... so that an update written with the path identifiers (and label counts)
   the history says is decoded as it was written. *)
Theorem C16_route_monitoring_partial : forall xs h u labels ap,
  let c := feed_all (resume bmp_decode) (conn_new bmp_default) xs in
  Forall (speaks_for_itself h) (history (c_out c)) -> Forall (up_direction (adj_rib_out h) h) (history (c_out c)) ->
  c_buf c = [] -> bk_in (c_st c) = false ->
  settled_on labels ap (history (c_out c)) h -> header_fits h -> msg_fits (is_asn4 h) labels ap (MUpdate u) ->
  exists b k', write_bmp (V3Monitoring h (MUpdate u)) = Ok b /\
    bmp_decode (c_st c) b = (k', [], DItem (V3Monitoring h (MUpdate u))).
Proof.
  intros xs h u labels ap. cbv zeta. intros H1 H2 Hb Hk [HL HA] Hh Hf.
  set (c := feed_all (resume bmp_decode) (conn_new bmp_default) xs) in *.
  assert (HA' : forall t, add_path_of (x_add_path (reads (c_st c) h)) t = add_path_of ap t).
  { intros t. rewrite HA. apply (C16_add_path_follows_history_partial xs h t H1 H2). }
  assert (HL' : forall t, limit_of (x_labels (reads (c_st c) h)) t = limit_of labels t).
  { intros t. rewrite HL. apply (stream_tracks (tracks_label h t) (speaks_for_itself h)); [|intros; now apply tracks_label_step|reflexivity|exact H1].
    intros. eapply tracks_label_same; eauto. }
  assert (Hfit : bmp_fits (reads (c_st c)) (V3Monitoring h (MUpdate u))).
  { split.
    - assert (Hl : update_len u <= 65516) by apply Hf. change (bmp_len (V3Monitoring h (MUpdate u))) with (5 + (1 + (42 + (19 + update_len u)))).
      change (2 ^ 32) with 4294967296. lia.
    - split; [exact Hh|]. split; [eexists; reflexivity|]. unfold pdu_fits.
      eapply (msg_fits_pointwise _ labels _ ap); [intros; symmetry; apply HL'|intros; symmetry; apply HA'|exact Hf]. }
  destruct (bmp_round (c_st c) _ Hk Hfit) as (b & Hw & _ & Hd). destruct (Hd []) as [m' Hm]. rewrite app_nil_r in Hm. eauto.
Qed.
Print Assumptions C16_route_monitoring_partial.
(* A peer-up whose header and received OPEN disagree on the BGP ID leaves
   settings under the OPEN's ID that no peer-down takes back. *)
Theorem C16_alias_refuted : exists xs h t,
  let c := feed_all (resume bmp_decode) (conn_new bmp_default) xs in
  Forall (up_direction (adj_rib_out h) h) (history (c_out c)) /\
  add_path_of (snd (knows (c_st c) h)) t = true /\ add_path_now (adj_rib_out h) (history (c_out c)) h t = false.
Proof.
  set (h1 := mkPH (PInst Global false false false false) None (Some (B4 167772161)) 65001 1 None).
  set (h2 := mkPH (PInst Global false false false false) None (Some (B4 167772161)) 65001 167772161 None).
  set (ap := [CAddPath [(Ipv4Unicast, true, true)]]).
  exists [octets_of (V3Common (CUp (mkUp h1 None None None (MOpen (mkOpen 65000 180 167772162 [ap])) (MOpen (mkOpen 65001 180 167772161 [ap])) [])));
          octets_of (V3Down h1 DRemoteNoData)].
  exists h2, Ipv4Unicast. cbv zeta. split; [vm_compute; repeat constructor|]. split; vm_compute; reflexivity.
Qed.
Print Assumptions C16_alias_refuted.
(* The post-policy out view of a peer shares its settings with the in view. *)
Theorem C16_direction_refuted : exists xs h t,
  let c := feed_all (resume bmp_decode) (conn_new bmp_default) xs in
  Forall (speaks_for_itself h) (history (c_out c)) /\ header_fits h /\
  add_path_of (snd (knows (c_st c) h)) t = false /\ add_path_now (adj_rib_out h) (history (c_out c)) h t = true.
Proof.
  exists [octets_of (V3Common (CUp (mkUp ex_header None None None
            (MOpen (mkOpen 65000 180 167772162 [[CAddPath [(Ipv4Unicast, true, false)]]]))
            (MOpen (mkOpen 65001 180 167772161 [[CAddPath [(Ipv4Unicast, false, true)]]])) [])))].
  exists (mkPH (PInst Global false false false true) None (Some (B4 167772161)) 65001 167772161 None), Ipv4Unicast.
  cbv zeta. split; [vm_compute; repeat constructor; right; right; reflexivity|].
  split; [unfold header_fits, addr_fits, u32; cbn; lia|]. split; vm_compute; reflexivity.
Qed.
Print Assumptions C16_direction_refuted.
Example C16_nonvacuous :
  let c := feed_all (resume bmp_decode) (conn_new bmp_default) [octets_of (ex_up [(Ipv4Unicast, true, true)])] in
  Forall (speaks_for_itself ex_header) (history (c_out c)) /\ Forall (up_direction false ex_header) (history (c_out c)) /\
  history (c_out c) <> [] /\ add_path_of (snd (knows (c_st c) ex_header)) Ipv4Unicast = true /\
  add_path_of (snd (knows (c_st c) ex_header)) Ipv6Unicast = false /\ c_buf c = [] /\ bk_in (c_st c) = false /\ header_fits ex_header.
Proof.
  cbv zeta. split; [vm_compute; repeat constructor; right; right; reflexivity|]. split; [vm_compute; repeat constructor|].
  split; [vm_compute; discriminate|]. do 4 (split; [vm_compute; reflexivity|]).
  unfold header_fits, addr_fits, u32, time_fits, ex_header. cbn [ph_type ph_rd ph_addr ph_as ph_id ph_time check_is_ipv6].
  repeat split; try lia.
Qed.

(* ---- C50 ---- *)
(* Missing: the values bmp_fits leaves out; see its comments and C12, C14. *)
Theorem C50_message_round_trip_partial : forall k m, bk_in k = false -> bmp_fits (reads k) m ->
  exists b, write_bmp m = Ok b /\ blen b = bmp_len m /\
    forall rest, exists k', bmp_decode k (b ++ rest) = (k', rest, DItem m) /\ bk_in k' = false.
Proof.
  intros k m Hk Hf. destruct (bmp_round k m Hk Hf) as (b & Hw & Hl & Hd). exists b. split; [exact Hw|]. split; [exact Hl|].
  intros rest. destruct (Hd rest) as [m' Hm']. rewrite Hm'. eexists. split; reflexivity.
Qed.
Print Assumptions C50_message_round_trip_partial.
(* a whole stream, from the first octet: written one after the other and read
   in any pieces, the messages come back in order *)
Theorem C50_stream_round_trip_partial : forall ms, bmp_stream_fits [] ms ->
  (exists b, bmp_written ms b) /\
  forall b xs, bmp_written ms b -> concat xs = b ->
    let c := feed_all bmp_decode (conn_new bmp_default) xs in
    c_out c = map DItem ms /\ c_buf c = [] /\ c_status c = Waiting.
Proof.
  intros ms Hf. split; [apply (stream_writable ms bmp_default [] eq_refl tracks_new Hf)|].
  intros b xs Hw Hx. apply (bmp_stream_chunks ms b xs Hf Hw Hx).
Qed.
Print Assumptions C50_stream_round_trip_partial.
Definition ex_update : update_msg :=
  mkUpdate [] [mkPattr false true false false (AOrigin 0); mkPattr false true false false (AAsPath true [(2, [65001; 4200000000])]);
               mkPattr false true false false (ANextHop 167772161)]
           [(Some 7, ([10; 1; 2; 0], 24))].
Definition ex_ms : list bmp_msg :=
  [V3Common (CInit [(2, [114; 49]); (1, [])]); ex_up [(Ipv4Unicast, true, true)];
   V4Monitoring ex_header (MUpdate ex_update) [mkTlv 0 (TvVrf [114; 101; 100]); mkTlv 32769 (TvGroup [1; 2])];
   V3Monitoring ex_header (MUpdate ex_update); V3Common (CStats ex_header [(0, S32 5); (9, SAf Ipv6Unicast 7); (600, SRaw [1; 2; 3])]);
   V4Down ex_header (DLocalFsm 3) [(5, [1; 2])]; V3Common (CTerm [TiReason 1; TiString [98]])].
Lemma ex_header_fits : header_fits ex_header.
Proof.
  unfold header_fits, addr_fits, u32, time_fits, ex_header. cbn [ph_type ph_rd ph_addr ph_as ph_id ph_time check_is_ipv6].
  repeat split; try lia.
Qed.
Lemma ex_update_fits x : x_asn4 x = is_asn4 ex_header -> add_path_of (x_add_path x) Ipv4Unicast = true -> pdu_fits x (MUpdate ex_update).
Proof.
  intros Ha Hp. unfold pdu_fits. cbn [msg_fits]. unfold update_fits. rewrite Hp. rewrite Ha. cbn [u_withdrawn u_attrs u_nlri ex_update].
  split; [constructor|]. split.
  - repeat constructor; try (vm_compute; reflexivity || discriminate).
  - split; [|vm_compute; discriminate]. constructor; [|constructor]. split; [split; [reflexivity|vm_compute; reflexivity]|].
    split; [split; [reflexivity|split; [reflexivity|vm_compute; discriminate]]|]. split; [|reflexivity].
    intros i H1 H2. cbn [fst snd] in *. change (8 * blen [10; 1; 2; 0]) with 32 in H2.
    assert (Hi : i = 24 \/ i = 25 \/ i = 26 \/ i = 27 \/ i = 28 \/ i = 29 \/ i = 30 \/ i = 31) by lia.
    repeat destruct Hi as [->|Hi]; try (subst; reflexivity); reflexivity.
Qed.
Example C50_nonvacuous : bmp_stream_fits [] ex_ms.
Proof.
  pose proof ex_header_fits as Hh.
  assert (Ho : forall id, id = 167772161 \/ id = 167772162 -> forall asn, u16 asn -> open_fits (mkOpen asn 180 id [[CAddPath [(Ipv4Unicast, true, true)]]])).
  { intros id Hid asn Ha. unfold open_fits, hold_time_fits, host_id. cbn [o_as o_hold o_id o_params].
    split; [exact Ha|]. split; [right; lia|]. split; [lia|]. split; [|vm_compute; discriminate].
    repeat constructor. vm_compute. discriminate. }
  unfold ex_ms, ex_up. cbn [bmp_stream_fits event_of pu_sent pu_recv pu_hdr]. unfold fits_after. cbn [header_of pu_hdr].
  set (eu := EvUp ex_header _ _).
  assert (Hs : Forall (speaks_for_itself ex_header) [eu]) by (constructor; [right; right; reflexivity|constructor]).
  assert (Hd : Forall (up_direction (adj_rib_out ex_header) ex_header) [eu]) by (constructor; [intros _; reflexivity|constructor]).
  assert (Hpdu : forall x, x_asn4 x = is_asn4 ex_header -> settled_on (x_labels x) (x_add_path x) [eu] ex_header -> pdu_fits x (MUpdate ex_update)).
  { intros x Hx [_ Hap]. apply ex_update_fits; [exact Hx|]. rewrite Hap. reflexivity. }
  split; [|split; [|split; [|split; [|split; [|split; [|split; [|exact Logic.I]]]]]]].
  - intros x. split; [vm_compute; reflexivity|]. repeat constructor; try (vm_compute; congruence); left; (split; [lia|reflexivity]).
  - split; [constructor|]. split; [constructor|]. intros x _ _. split; [vm_compute; reflexivity|]. cbn [common_fits]. unfold up_fits.
    cbn [pu_hdr pu_addr pu_lport pu_rport pu_sent pu_recv pu_info]. split; [exact Hh|]. split; [cbn; lia|]. split; [cbn; lia|]. split; [cbn; lia|].
    split; [eexists; split; [reflexivity|apply Ho; [lia|vm_compute; reflexivity]]|].
    split; [eexists; split; [reflexivity|apply Ho; [lia|vm_compute; reflexivity]]|constructor].
  - split; [exact Hs|]. split; [exact Hd|]. intros x Hx Hset. split; [vm_compute; reflexivity|]. split; [exact Hh|]. split; [eexists; reflexivity|].
    split; [repeat constructor; vm_compute; congruence|]. split; [exact (Hpdu x Hx Hset)|vm_compute; discriminate].
  - split; [exact Hs|]. split; [exact Hd|]. intros x Hx Hset. split; [vm_compute; reflexivity|]. split; [exact Hh|]. split; [eexists; reflexivity|].
    exact (Hpdu x Hx Hset).
  - split; [exact Hs|]. split; [exact Hd|]. intros x Hx Hset. split; [vm_compute; reflexivity|]. split; [exact Hh|].
    repeat constructor; vm_compute; congruence.
  - split; [exact Hs|]. split; [exact Hd|]. intros x Hx Hset. split; [vm_compute; reflexivity|]. split; [exact Hh|].
    split; [vm_compute; reflexivity|]. split; [repeat constructor; vm_compute; congruence|exact Logic.I].
  - intros x. split; [vm_compute; reflexivity|]. constructor; [left; lia|]. constructor; [|constructor]. split; [reflexivity|vm_compute; discriminate].
Qed.

(* ---- C51 ---- *)
Theorem C51_frame_is_one_step : forall k f rest, bk_in k = false -> whole_frame f ->
  exists k' o, bmp_decode k (f ++ rest) = (k', rest, o) /\ o <> DNone /\ bk_in k' = false.
Proof. exact whole_frame_step. Qed.
Print Assumptions C51_frame_is_one_step.
(* one outcome per frame, whatever the frames hold and however they arrive;
   C15_never_panics_partial says when there is no panic *)
Theorem C51_one_outcome_per_frame : forall fs xs k, bk_in k = false -> Forall whole_frame fs -> concat xs = concat fs ->
  let c := feed_all (resume bmp_decode) (conn_new k) xs in
  ~ In DPanic (c_out c) -> length (c_out c) = length fs /\ c_buf c = [] /\ c_status c = Waiting.
Proof. exact frames_chunks. Qed.
Print Assumptions C51_one_outcome_per_frame.
(* an incomplete frame is waited for *)
Theorem C51_incomplete_frame_waits : forall k f n, bk_in k = false -> whole_frame f -> n < blen f ->
  exists k', bmp_decode k (take n f) = (k', take n f, DNone).
Proof.
  intros k f n Hk (H5 & Hv & Hl) Hn. assert (Hi : bmp_inv k (take n f)) by (intros Hx; congruence).
  assert (Hb : blen (take n f) = n) by (apply blen_take; lia).
  assert (Hf : f = take n f ++ drop n f) by (symmetry; apply take_drop).
  destruct (bmp_decode_cases k (take n f) Hi) as
    [(G5 & Gk & G)|[(G5 & Gv & G & Gk)|[(G5 & Gv & Gl & G)|[(G5 & Gv & Gl & Gw & G)|(G5 & Gv & Gl & G)]]]]; rewrite ?G; eauto;
    exfalso; rewrite Hf in Hv, Hl; rewrite ?first_app, ?frame_length_app in * by lia; rewrite <- Hf in Hl; try congruence; lia.
Qed.
Print Assumptions C51_incomplete_frame_waits.
Example C51_nonvacuous :
  Forall whole_frame [octets_of (V3Common (CInit [(2, [114; 49])])); [4; 0; 0; 0; 7; 9; 9]; octets_of (ex_up [])] /\
  length (c_out (feed_all (resume bmp_decode) (conn_new bmp_default)
    [octets_of (V3Common (CInit [(2, [114; 49])])) ++ [4; 0; 0]; [0; 7; 9; 9] ++ octets_of (ex_up [])])) = 3%nat.
Proof.
  split; [|vm_compute; reflexivity].
  repeat constructor; vm_compute; (reflexivity || discriminate).
Qed.

(* ---- C52 ---- *)
(* Missing: messages bmp_fits leaves out (one refuted below). *)
Theorem C52_length_field_partial : forall k m, bk_in k = false -> bmp_fits (reads k) m ->
  exists b, write_bmp m = Ok b /\ whole_frame b /\ blen b = bmp_len m.
Proof.
  intros k m Hk Hf. destruct (bmp_round k m Hk Hf) as (b & Hw & Hl & Hd). exists b. split; [exact Hw|]. split; [|exact Hl].
  destruct (Hd []) as [m' Hm']. rewrite app_nil_r in Hm'. assert (Hi : bmp_inv k b) by (intros Hx; congruence).
  destruct (bmp_decode_cases k b Hi) as
    [(G5 & Gk & G)|[(G5 & Gv & G & Gk)|[(G5 & Gv & Gl & G)|[(G5 & Gv & Gl & Gw & G)|(G5 & Gv & Gl & G)]]]]; try congruence.
  split; [exact G5|]. split; [exact Gv|]. rewrite Hm' in G.
  assert (Hdr : drop (frame_length b) b = []).
  { destruct (parse_bmp _ _) as [[m1 r1] [msg|e| |]]; injection G; congruence. }
  pose proof (blen_drop (frame_length b) b) as Hbd. rewrite Hdr, blen_nil in Hbd. lia.
Qed.
Print Assumptions C52_length_field_partial.
Example C52_nonvacuous : forall h, header_fits h -> bmp_fits (reads bmp_default) (V3Down h (DLocalFsm 2)).
Proof.
  intros h Hh. split; [|split; [exact Hh|vm_compute; reflexivity]]. vm_compute; reflexivity.
Qed.
(* a TLV of 65532 octets: the subtraction in the header's length underflows *)
Theorem C52_long_tlv_refuted : exists m, write_bmp m = Panic.
Proof.
  assert (H : forall v, blen v = 65532 -> write_bmp (V4Monitoring ex_header (MUpdate ex_update) [mkTlv 0 (TvUnknown 6 v)]) = Panic).
  { intros v Hv. unfold write_bmp, write_value. cbn [write_all]. unfold write_rm_tlv at 1, rm_tlv_len. cbn [tl_val tl_index tlv_code tlv_val_len].
    rewrite Hv. reflexivity. }
  exists (V4Monitoring ex_header (MUpdate ex_update) [mkTlv 0 (TvUnknown 6 (repeat 0 (N.to_nat 65532)))]). apply H.
  unfold blen. rewrite repeat_length. apply N2Nat.id.
Qed.
Print Assumptions C52_long_tlv_refuted.
(* more octets still and the length field wraps: a value of 65540 octets is
   announced as one of 4 octets *)
Theorem C52_wrapped_tlv_refuted : exists hdr v b, blen v = 65540 /\
  write_bmp (V4Down ex_header DRemoteNoData [(6, v)]) = Ok b /\ b = hdr ++ [0; 6] ++ [0; 4] ++ v.
Proof.
  assert (H : forall v, blen v = 65540 -> exists hdr b,
    write_bmp (V4Down ex_header DRemoteNoData [(6, v)]) = Ok b /\ b = hdr ++ [0; 6] ++ [0; 4] ++ v).
  { intros v Hv. unfold write_bmp, write_value, write_raw_tlv. cbn [write_all fst snd]. rewrite Hv.
    change (tlv_header 6 (as_u16 (4 + 65540))) with (Ok (E := bmp_werr) [0; 6; 0; 4]). cbn [write_reason rbind].
    exists (4 :: be_enc 4 (as_u32 (bmp_len (V4Down ex_header DRemoteNoData [(6, v)]))) ++ 2 :: enc_header ex_header ++ [4]).
    eexists. split; [reflexivity|]. generalize (bmp_len (V4Down ex_header DRemoteNoData [(6, v)])). intros l.
    generalize (be_enc 4 (as_u32 l)) (enc_header ex_header). intros b1 b2.
    cbn [app bmp_version value_code reason_code]. rewrite <- !app_assoc. cbn [app]. rewrite <- !app_assoc. rewrite app_nil_r. reflexivity. }
  set (v := repeat 0 (N.to_nat 65540)). assert (Hv : blen v = 65540) by (unfold blen, v; rewrite repeat_length; apply N2Nat.id).
  destruct (H v Hv) as (hdr & b & Hw & Hb). exists hdr, v, b. auto.
Qed.
Print Assumptions C52_wrapped_tlv_refuted.

(* ---- C53 ---- *)
(* Missing: peer-ups whose header carries another BGP ID than the received
   OPEN, as for C16. *)
Theorem C53_label_limit_follows_history_partial : forall xs h t,
  let c := feed_all (resume bmp_decode) (conn_new bmp_default) xs in
  Forall (speaks_for_itself h) (history (c_out c)) ->
  limit_of (fst (knows (c_st c) h)) t = label_limit_now (history (c_out c)) h t.
Proof.
  intros xs h t. cbv zeta. intros H1. apply (stream_tracks (tracks_label h t) (speaks_for_itself h)).
  - intros. eapply tracks_label_same; eauto.
  - intros msg m evs He. apply tracks_label_step; exact He.
  - reflexivity.
  - exact H1.
Qed.
Print Assumptions C53_label_limit_follows_history_partial.
(* written by hand: the library cannot write the capability (C12) *)
Definition labelled_open (id : list N) : list N :=
  repeat 255 16 ++ [0; 36; 1; 4; 253; 232; 0; 180] ++ id ++ [7; 2; 5; 8; 0; 1; 128; 3].
Definition labelled_up : list N :=
  [3; 0; 0; 0; 140; 3] ++ zero_header ++ repeat 0 20 ++ labelled_open [10; 0; 0; 1] ++ labelled_open [10; 0; 0; 2].
Definition null_header : peer_header := mkPH (PInst Global false false false false) None None 0 0 None.
Example C53_nonvacuous :
  let c := feed_all (resume bmp_decode) (conn_new bmp_default) [labelled_up] in
  Forall (speaks_for_itself null_header) (history (c_out c)) /\
  label_limit_now (history (c_out c)) null_header Ipv4MplsLabeledVpn = 3.
Proof.
  cbv zeta. split; [vm_compute; apply Forall_cons; [right; left; discriminate|apply Forall_nil]|vm_compute; reflexivity].
Qed.

(* ---- C54 ---- *)
Theorem C54_errors_and_reports_change_nothing : forall k b k' b' o, bmp_decode k b = (k', b', o) ->
  (forall m, o = DItem m -> event_of m = None) -> forall h, knows k' h = knows k h.
Proof. exact quiet_step. Qed.
Print Assumptions C54_errors_and_reports_change_nothing.
(* Missing: peer-ups that speak for another BGP ID (C16_alias_refuted). *)
Theorem C54_peers_are_independent_partial : forall k b k' b' m e, bmp_decode k b = (k', b', DItem m) -> event_of m = Some e ->
  forall h, ~ event_about e h -> speaks_for_itself h e -> knows k' h = knows k h.
Proof. exact other_peer_step. Qed.
Print Assumptions C54_peers_are_independent_partial.
Example C54_nonvacuous : exists k' b', 
  bmp_decode bmp_default (octets_of (ex_up [(Ipv4Unicast, true, true)])) = (k', b', DItem (ex_up [(Ipv4Unicast, true, true)])) /\
  knows k' ex_header <> knows bmp_default ex_header /\ knows k' null_header = knows bmp_default null_header.
Proof. eexists. eexists. split; [vm_compute; reflexivity|]. split; [vm_compute; discriminate|vm_compute; reflexivity]. Qed.

(* ---- C55 ---- *)
Theorem C55_as_width_is_the_headers : forall k b k' b' h u,
  bmp_decode k b = (k', b', DItem (V3Monitoring h (MUpdate u))) \/
    (exists l, bmp_decode k b = (k', b', DItem (V4Monitoring h (MUpdate u) l))) ->
  as_paths_have_width (is_asn4 h) u.
Proof. intros k b k' b' h u [H|[l H]]; exact (decode_width _ _ _ _ _ H). Qed.
Print Assumptions C55_as_width_is_the_headers.

Definition no_path (u : update_msg) : update_msg := mkUpdate (u_withdrawn u) (u_attrs u) [(None, ([10; 1; 2; 0], 24))].
Example C55_nonvacuous :
  (exists k' b', bmp_decode bmp_default (octets_of (V3Monitoring ex_header (MUpdate (no_path ex_update))))
     = (k', b', DItem (V3Monitoring ex_header (MUpdate (no_path ex_update))))) /\
  is_asn4 ex_header = true /\ as_paths_have_width true ex_update /\ ~ as_paths_have_width false ex_update.
Proof.
  split; [eexists; eexists; vm_compute; reflexivity|]. split; [reflexivity|]. split.
  - unfold as_paths_have_width. cbn [u_attrs ex_update]. repeat constructor.
  - intros H. unfold as_paths_have_width in H. cbn [u_attrs ex_update] in H. inversion H as [|? ? _ Hx]. inversion Hx as [|? ? Hy _].
    cbn in Hy. discriminate.
Qed.

(* ---- C56 ---- *)
(* Two whole frames, the first with an update the second lacks, are decoded to
   the same message. *)
Definition pdu_tlv (u : update_msg) : list N :=
  match write_pdu (MUpdate u) with Ok p => [0; 4] ++ be_enc 2 (blen p) ++ [0; 0] ++ p | _ => [] end.
Definition two_updates (us : list update_msg) : list N :=
  let body := flat_map pdu_tlv us in [4] ++ be_enc 4 (48 + blen body) ++ [0] ++ zero_header ++ body.
Theorem C56_second_update_refuted : exists u f m,
  f = two_updates [no_path ex_update; u] /\ whole_frame f /\ u <> no_path ex_update /\
  snd (bmp_decode bmp_default f) = DItem m /\ snd (bmp_decode bmp_default (two_updates [u])) = DItem m.
Proof.
  exists (mkUpdate [(None, ([10; 2; 0; 0], 16))] [] []). eexists. eexists. split; [reflexivity|].
  split; [split; [|split]; vm_compute; (reflexivity || discriminate)|]. split; [discriminate|].
  split; vm_compute; reflexivity.
Qed.
Print Assumptions C56_second_update_refuted.
