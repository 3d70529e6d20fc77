(* Properties C178-C187: the capture decoding tool (crates/pcap-decoder). *)
From Verif Require Import Base BaseLemmas MapLib FramingModel FramingProofs BgpCapModel BgpFrameModel BgpFrameProofs BgpNlriModel BgpAttrModel
  BgpMsgModel BgpMsgSpec BgpMsgProofs BmpModel BmpSpec BmpFrameProofs PcapModel PcapSpec PdModel PdHandlers PdSpec PdProofs PdProofs2 PdProofs3.
From Verif Require UdpNotifModel FlFieldModel FlModel.

(* two flows: from port 40000 to 179 and back *)
Definition ka : key := (1, 40000, 2, 179).
Definition kb : key := (2, 179, 1, 40000).
Definition ex_bgp := bgp_handler [179; 40000].
Definition keepalive : list N := repeat 255 16 ++ [0; 19; 4].
(* announces 224.0.0.0/4, which is no unicast prefix *)
Definition bad_update : list N := repeat 255 16 ++ [0; 25; 2; 0; 0; 0; 0; 4; 224].
(* one UDP-Notif message: JSON, publisher 1, message 2, options, payload *)
Definition notif (opts payload : list N) : list N :=
  [33; 12 + blen opts; 0; 12 + blen opts + blen payload; 0; 0; 0; 1; 0; 0; 0; 2] ++ opts ++ payload.
Definition anything (_ : list N) : bool := true.
Definition nothing (_ : list N) : bool := false.
Definition ex_notif := notif_handler 0 anything anything anything [10003].
Definition ku : key := (1, 5000, 2, 10003).
Definition kv : key := (3, 5000, 2, 10003).

(* ---- C178 ---- *)
Section Any.
Context {C M E L : Type} (h : handler C M E L).
(* Only packets of the handler's transport to one of its ports give results,
   and every message names the flow of its packet. *)
Theorem C178_only_selected : forall l p os, In (p, Some os) (fst (handle_all h [] l)) ->
  p_proto p = h_proto h /\ In (dst_port (p_key p)) (h_ports h) /\ os <> [] /\ forall k m, In (Success k m) os -> k = p_key p.
Proof. intros l p os H. destruct (all_wanted h l [] p os H) as [[H1 H2] H3]. auto. Qed.
(* The others make no difference at all. *)
Theorem C178_others_no_effect : forall l,
  handle_all h [] (filter (is_wanted h) l) = (filter (fun x => is_wanted h (fst x)) (fst (handle_all h [] l)), snd (handle_all h [] l)).
Proof. intros l. apply all_filter. Qed.
Theorem C178_is_wanted : forall p, is_wanted h p = true <-> p_proto p = h_proto h /\ In (dst_port (p_key p)) (h_ports h).
Proof. intros p. rewrite is_wanted_accepts. apply accepts_wanted. Qed.

(* ---- C179 ---- *)
(* When nothing panics, the results of a flow are those of its packets
   alone. *)
Theorem C179_flows_independent : forall k l, snd (handle_all h [] l) = Returned ->
  handle_all h [] (filter (of_flow k) l) = (filter (fun x => of_flow k (fst x)) (fst (handle_all h [] l)), Returned).
Proof. intros k l H. apply all_flow; [reflexivity|exact H]. Qed.
End Any.
Print Assumptions C178_only_selected.
Print Assumptions C178_others_no_effect.
Print Assumptions C178_is_wanted.
Print Assumptions C179_flows_independent.
Example C178_nonvacuous : exists r,
  handle_all ex_bgp [] [mkP ka UDP keepalive; mkP (1, 40000, 2, 180) TCP keepalive; mkP ka TCP keepalive] =
    ([(mkP ka UDP keepalive, None); (mkP (1, 40000, 2, 180) TCP keepalive, None); (mkP ka TCP keepalive, Some [Success ka r])], Returned).
Proof. eexists. vm_compute. reflexivity. Qed.
Theorem C179_bgp_flows_independent : forall ports k l,
  handle_all (bgp_handler ports) [] (filter (of_flow k) l) =
    (filter (fun x => of_flow k (fst x)) (fst (handle_all (bgp_handler ports) [] l)), Returned).
Proof. intros. apply C179_flows_independent, bgp_returns. Qed.
Print Assumptions C179_bgp_flows_independent.
Example C179_nonvacuous : exists x y,
  outcomes (fst (handle_all ex_bgp [] [mkP ka TCP (take 10 keepalive); mkP kb TCP (take 15 keepalive); mkP ka TCP (drop 10 keepalive); mkP kb TCP (drop 15 keepalive)])) =
    [Success ka x; Success kb y].
Proof. do 2 eexists. vm_compute. reflexivity. Qed.
(* Error lines do not say which flow they belong to: from the output of the
   same broken message in either of two flows the flow cannot be told. *)
Definition as_packet (lt : N) (p : pkt) : res unit (option pkt) := Ok (Some p).
Theorem C179_errors_without_flow_refuted : exists p q,
  p_key p <> p_key q /\
  load_pcap_and_process ex_bgp as_packet None true [InterfaceDescription 1; EnhancedPacket 0 p] =
  load_pcap_and_process ex_bgp as_packet None true [InterfaceDescription 1; EnhancedPacket 0 q] /\
  fst (load_pcap_and_process ex_bgp as_packet None true [InterfaceDescription 1; EnhancedPacket 0 p]) <> [].
Proof. exists (mkP ka TCP bad_update), (mkP kb TCP bad_update). split; [discriminate|]. split; [vm_compute; reflexivity|vm_compute; discriminate]. Qed.
Print Assumptions C179_errors_without_flow_refuted.

(* ---- C180 ---- *)
(* Up to and including the first error, the results of a TCP flow do not
   depend on how the stream was cut into segments: they are those of the
   stream read by the protocol's decoder. *)
Theorem C180_bgp_segmentation_partial : forall ports k xs ys, concat xs = concat ys ->
  until_error (outcomes (fst (handle_all (bgp_handler ports) [] (flow_of TCP k xs)))) =
  until_error (outcomes (fst (handle_all (bgp_handler ports) [] (flow_of TCP k ys)))).
Proof.
  intros ports k xs ys H. destruct (wanted_dec (bgp_handler ports) (mkP k TCP [])) as [W|W].
  - rewrite !bgp_stream_feed by exact W.
    pose proof (codec_feed_all bgp_ops parse_body asn4_of xs bgp_fresh) as H1. pose proof (codec_feed_all bgp_ops parse_body asn4_of ys bgp_fresh) as H2.
    rewrite <- H in H2. rewrite <- H2 in H1. exact (f_equal (fun c => as_outcomes k (c_out c)) H1).
  - rewrite !unwanted_outcomes by exact W. reflexivity.
Qed.
Theorem C180_bgp_is_the_stream : forall ports k xs, In (dst_port k) ports ->
  until_error (outcomes (fst (handle_all (bgp_handler ports) [] (flow_of TCP k xs)))) =
  as_outcomes k (c_out (feed_all decode_bgp (conn_new bgp_fresh) xs)).
Proof. intros ports k xs H. apply bgp_stream_feed. split; [reflexivity|exact H]. Qed.
(* BMP: as long as the stream does not make the decoder panic (C184) *)
Theorem C180_bmp_segmentation_partial : forall ports k xs ys, concat xs = concat ys ->
  ~ In DPanic (c_out (feed_all bmp_decode (conn_new bmp_default) xs)) ->
  until_error (outcomes (fst (handle_all (bmp_handler ports) [] (flow_of TCP k xs)))) =
  until_error (outcomes (fst (handle_all (bmp_handler ports) [] (flow_of TCP k ys)))).
Proof.
  intros ports k xs ys H HP. destruct (wanted_dec (bmp_handler ports) (mkP k TCP [])) as [W|W].
  - destruct (fresh_settled bmp_default eq_refl) as [S1 _].
    pose proof (bmp_feed_all xs _ S1) as H1. pose proof (bmp_feed_all ys _ S1) as H2. rewrite <- H, <- H1 in H2.
    rewrite !bmp_stream_feed; [|exact W|rewrite H2; exact HP|exact W|exact HP]. rewrite H2. reflexivity.
  - rewrite !unwanted_outcomes by exact W. reflexivity.
Qed.
Print Assumptions C180_bgp_segmentation_partial.
Print Assumptions C180_bgp_is_the_stream.
Print Assumptions C180_bmp_segmentation_partial.
(* Past an error it does: the rest of the segment is thrown away. *)
Theorem C180_after_an_error_refuted : exists xs ys,
  concat xs = concat ys /\
  length (outcomes (fst (handle_all ex_bgp [] (flow_of TCP ka xs)))) = 2%nat /\
  length (outcomes (fst (handle_all ex_bgp [] (flow_of TCP ka ys)))) = 1%nat.
Proof. exists [bad_update; keepalive], [bad_update ++ keepalive]. repeat split; vm_compute; reflexivity. Qed.
Print Assumptions C180_after_an_error_refuted.
Example C180_nonvacuous : exists x y e,
  until_error (outcomes (fst (handle_all ex_bgp [] (flow_of TCP ka [take 25 (keepalive ++ keepalive ++ bad_update); drop 25 (keepalive ++ keepalive ++ bad_update)])))) =
    [Success ka x; Success ka y; Failure e].
Proof. do 3 eexists. vm_compute. reflexivity. Qed.
Definition bmp_init : list N := [3; 0; 0; 0; 12; 4; 0; 2; 0; 2; 114; 49].
Example C180_bmp_nonvacuous : exists m,
  ~ In DPanic (c_out (feed_all bmp_decode (conn_new bmp_default) [take 3 bmp_init; drop 3 bmp_init])) /\
  outcomes (fst (handle_all (bmp_handler [179]) [] (flow_of TCP ka [take 3 bmp_init; drop 3 bmp_init]))) = [Success ka m].
Proof. eexists. split; [vm_compute; intros [H|[]]; discriminate H|vm_compute; reflexivity]. Qed.

(* ---- C181 ---- *)
(* Datagrams that hold the whole message they announce: each is decoded in a
   buffer of its own, and gives one message, one error, or nothing (a segment
   of a message not yet complete). *)
(* the results of the receivers' own decoders (C17-C21, C42), the second
   given what it learned from the first datagram, and so on *)
Fixpoint notif_results (now : N) (k : key) (c : UdpNotifModel.codec) (ds : list (list N)) : list (option (list (outcome UdpNotifModel.packet UdpNotifModel.codec_err))) :=
  match ds with
  | [] => []
  | d :: ds' =>
      match UdpNotifModel.udp_decode now c d with
      | (c', r, _) =>
          match r with
          | Ok (Some p) => Some [Success k p]
          | Err e => Some [Failure e]
          | _ => None
          end :: notif_results now k c' ds'
      end
  end.
Fixpoint flow_results iana vendor millis_ok (k : key) (c : FlModel.codec) (ds : list (list N)) : list (option (list (outcome FlModel.flow_info FlFieldModel.ferr))) :=
  match ds with
  | [] => []
  | d :: ds' =>
      match FlModel.decode iana vendor millis_ok c d with
      | (c', _, r) =>
          match r with
          | FlModel.Packet p => Some [Success k p]
          | FlModel.Rejected e => Some [Failure e]
          | _ => None
          end :: flow_results iana vendor millis_ok k c' ds'
      end
  end.
Theorem C181_notif_datagrams_partial : forall now json_ok utf8_ok cbor_ok ports k ds,
  In (dst_port k) ports -> Forall (fun d => bytes_ok d = true /\ complete_datagram d) ds ->
  handle_all (notif_handler now json_ok utf8_ok cbor_ok ports) [] (flow_of UDP k ds) =
    (combine (flow_of UDP k ds) (notif_results now k UdpNotifModel.codec_new ds), Returned).
Proof.
  intros now j u c ports k ds Hp Hd.
  replace (notif_results now k UdpNotifModel.codec_new ds) with (map (answer k) (alone (notif_decode now) UdpNotifModel.codec_new ds)).
  - apply (datagrams (notif_handler now j u c ports) (fun _ => True)); [exact I|split; [reflexivity|exact Hp]|].
    eapply Forall_impl; [|exact Hd]. intros d [H1 H2]. apply notif_clean; assumption.
  - clear. generalize UdpNotifModel.codec_new. induction ds as [|d ds IH]; intros s; cbn [alone map notif_results]; [reflexivity|].
    unfold notif_decode at 1. destruct (UdpNotifModel.udp_decode now s d) as [[s' r] b]. destruct r as [[p|]| | |]; cbn [map answer]; now rewrite IH.
Qed.
Theorem C181_ipfix_datagrams_partial : forall iana vendor millis_ok ports k ds,
  In (dst_port k) ports -> Forall whole_ipfix ds ->
  handle_all (flow_handler iana vendor millis_ok ports) [] (flow_of UDP k ds) =
    (combine (flow_of UDP k ds) (flow_results iana vendor millis_ok k FlModel.codec_new ds), Returned).
Proof.
  intros iana vendor ms ports k ds Hp Hd.
  replace (flow_results iana vendor ms k FlModel.codec_new ds) with (map (answer k) (alone (flow_decode iana vendor ms) FlModel.codec_new ds)).
  - apply (datagrams (flow_handler iana vendor ms ports) (fun _ => True)); [exact I|split; [reflexivity|exact Hp]|].
    eapply Forall_impl; [|exact Hd]. intros d H. apply flow_clean; assumption.
  - clear. generalize FlModel.codec_new. induction ds as [|d ds IH]; intros s; cbn [alone map flow_results]; [reflexivity|].
    unfold flow_decode at 1. destruct (FlModel.decode iana vendor ms s d) as [[s' b] r]. destruct r; cbn [map answer]; now rewrite IH.
Qed.
Print Assumptions C181_notif_datagrams_partial.
Print Assumptions C181_ipfix_datagrams_partial.
(* What a datagram cut short leaves behind is put in front of the next one,
   which is lost with it although it decodes on its own. *)
Theorem C181_leftover_refuted : exists d1 d2 p e,
  snd (notif_decode 0 UdpNotifModel.codec_new d2) = DItem p /\
  outcomes (fst (handle_all ex_notif [] (flow_of UDP ku [d2]))) = [Success ku p] /\
  outcomes (fst (handle_all ex_notif [] (flow_of UDP ku [d1; d2]))) = [Failure e].
Proof.
  exists (take 13 (notif [] [123; 125])), (notif [] [123; 125]). do 2 eexists. repeat split; vm_compute; reflexivity.
Qed.
(* Or a message comes out that no datagram held. *)
Theorem C181_forged_refuted : exists d1 d2 p,
  (forall e, snd (notif_decode 0 UdpNotifModel.codec_new d1) <> DItem e) /\
  (forall e, snd (notif_decode 0 UdpNotifModel.codec_new d2) <> DItem e) /\
  outcomes (fst (handle_all ex_notif [] (flow_of UDP ku [d1; d2]))) = [Success ku p] /\
  UdpNotifModel.p_payload p = [123; 9].
Proof.
  exists (take 13 (notif [] [123; 125])), [9]. eexists. split; [vm_compute; discriminate|]. split; [vm_compute; discriminate|].
  split; vm_compute; reflexivity.
Qed.
Print Assumptions C181_leftover_refuted.
Print Assumptions C181_forged_refuted.
Example C181_nonvacuous : exists p q e,
  Forall (fun d => bytes_ok d = true /\ complete_datagram d) [notif [] [123; 125]; notif [] [49] ++ [0]; notif [] [50]] /\
  outcomes (fst (handle_all ex_notif [] (flow_of UDP ku [notif [] [123; 125]; notif [] [49] ++ [0]; notif [] [50]]))) = [Success ku p; Failure e; Success ku q].
Proof.
  do 3 eexists. split; [|vm_compute; reflexivity].
  repeat apply Forall_cons; try apply Forall_nil; (split; [reflexivity|]); repeat split; vm_compute; discriminate.
Qed.
Definition no_elements (_ : N) : option FlFieldModel.dtype := None.
Definition no_vendors (_ : N) : option (N -> option FlFieldModel.dtype) := None.
Definition ex_flow := flow_handler no_elements no_vendors (fun _ => true) [10003].
Definition empty_ipfix : list N := [0; 10; 0; 16; 0; 0; 0; 9; 0; 0; 0; 7; 0; 0; 0; 1].
Example C181_ipfix_nonvacuous : exists p, whole_ipfix empty_ipfix /\
  outcomes (fst (handle_all ex_flow [] (flow_of UDP ku [empty_ipfix; empty_ipfix]))) = [Success ku p; Success ku p].
Proof. eexists. split; [split; [|split]; vm_compute; (reflexivity || discriminate)|vm_compute; reflexivity]. Qed.

(* ---- C182 ---- *)
Section Limit.
Context {C M E L D : Type} (h : handler C M E L) (dissect : N -> D -> res unit (option pkt)).
(* A frame limit only takes away the lines of later frames. *)
Theorem C182_limit_is_a_prefix : forall n bs,
  fst (load_pcap_and_process h dissect (Some n) true bs) =
    filter (fun x => match fst x with Some f => f <=? n | None => false end) (fst (load_pcap_and_process h dissect None true bs)) /\
  (snd (load_pcap_and_process h dissect None true bs) = Finished -> snd (load_pcap_and_process h dissect (Some n) true bs) = Finished).
Proof.
  intros n bs. unfold load_pcap_and_process. rewrite !process_go.
  pose proof (go_limit h dissect n (fst (reads dissect (S (length bs)) (iter_new bs))) [] _ (snd (reads dissect (S (length bs)) (iter_new bs))) (reads_rising dissect _ _)) as [H1 H2].
  destruct (go h (Some n) _ _ _) as [l1 v1], (go h None _ _ _) as [l2 v2]. cbn [fst snd] in *. split; [|exact H2]. subst l1. clear.
  induction l2 as [|[f l] l2 IH]; [reflexivity|]. cbn [filter map show_line fst]. unfold within at 1. cbn [fst]. destruct (f <=? n); cbn [map]; rewrite IH; reflexivity.
Qed.
(* The frame number is the only thing that showing it adds. *)
Theorem C182_numbers_optional : forall limit bs,
  map snd (fst (load_pcap_and_process h dissect limit false bs)) = map snd (fst (load_pcap_and_process h dissect limit true bs)) /\
  Forall (fun x => fst x = None) (fst (load_pcap_and_process h dissect limit false bs)) /\
  snd (load_pcap_and_process h dissect limit false bs) = snd (load_pcap_and_process h dissect limit true bs).
Proof.
  intros limit bs. unfold load_pcap_and_process. destruct (process h dissect _ _ _ _) as [ls v]. cbn [fst snd]. rewrite !map_map. split; [reflexivity|].
  split; [|reflexivity]. induction ls as [|x ls IH]; constructor; [reflexivity|exact IH].
Qed.

(* ---- C183 ---- *)
(* A capture of one section without simple packet blocks: the output has one
   line per result, in order, with the position of the packet in the capture;
   after an error it has the lines of the results before. *)
Theorem C183_one_line_per_result_partial : forall bs, calm dissect -> plain 0 bs ->
  let all := lines_for h (map fst (numbered dissect bs)) (fst (handle_all h [] (map snd (numbered dissect bs)))) in
  exists k ls, fst (load_pcap_and_process h dissect None true bs) = map (fun x => (Some (fst x), snd x)) ls /\
    Forall2 (fun x y => fst x = fst y /\ h_render h (snd x) = RLine (snd y)) (firstn k all) ls /\
    (snd (load_pcap_and_process h dissect None true bs) = Finished -> k = length all /\ snd (handle_all h [] (map snd (numbered dissect bs))) = Returned) /\
    ((forall o, In o (outcomes (fst (handle_all h [] (map snd (numbered dissect bs))))) -> exists y, h_render h o = RLine y) ->
     snd (handle_all h [] (map snd (numbered dissect bs))) = Returned -> snd (load_pcap_and_process h dissect None true bs) = Finished).
Proof.
  intros bs Hc Hp all. unfold load_pcap_and_process. rewrite process_go, (reads_numbered dissect bs Hc Hp). cbn [fst snd].
  destruct (go_spec h dissect (numbered dissect bs) []) as (k & H1 & H2 & H3). unfold results_of in *. fold all in H1, H2, H3.
  destruct (go h None [] (numbered dissect bs) Finished) as [ls v]. cbn [fst snd] in *. exists k, ls. split; [reflexivity|]. split; [exact H1|]. split; [exact H2|].
  intros H4. apply H3. intros n o Hi. apply H4. revert Hi. subst all. unfold lines_for, outcomes.
  generalize (map fst (numbered dissect bs)). generalize (fst (handle_all h [] (map snd (numbered dissect bs)))). clear.
  induction l as [|[p r] l IH]; intros ns; destruct ns as [|m ns]; cbn [combine flat_map]; try contradiction. cbn [fst snd flat_map]. rewrite !in_app_iff.
  intros [Hi|Hi]; [left|right; eapply IH; exact Hi]. rewrite app_nil_r in Hi. apply in_map_iff in Hi as (o' & E0 & Hi). inversion E0; subst. exact Hi.
Qed.
End Limit.
Print Assumptions C182_limit_is_a_prefix.
Print Assumptions C182_numbers_optional.
Print Assumptions C183_one_line_per_result_partial.
(* The reader asks for the next frame before it looks at the limit: a capture
   on which the reader panics at frame 2 also panics with a limit of 1. *)
Theorem C182_panic_past_the_limit_refuted : exists bs : list (block pkt),
  load_pcap_and_process ex_bgp as_packet (Some 1) true bs = load_pcap_and_process ex_bgp as_packet None true bs /\
  snd (load_pcap_and_process ex_bgp as_packet (Some 1) true bs) = Panicked /\
  snd (load_pcap_and_process ex_bgp as_packet None true (firstn 2 bs)) = Finished.
Proof.
  exists [InterfaceDescription 1; EnhancedPacket 0 (mkP ka TCP keepalive); EnhancedPacket 5 (mkP ka TCP keepalive)]. repeat split; vm_compute; reflexivity.
Qed.
Print Assumptions C182_panic_past_the_limit_refuted.
Definition ex_capture : list (block pkt) :=
  [InterfaceDescription 1; EnhancedPacket 0 (mkP ka TCP keepalive); EnhancedPacket 0 (mkP ku TCP keepalive); EnhancedPacket 0 (mkP ka TCP (keepalive ++ keepalive))].
Example C182_nonvacuous :
  fst (load_pcap_and_process ex_bgp as_packet (Some 2) true ex_capture) = [(Some 1, BgpLine ka MKeepAlive)] /\
  fst (load_pcap_and_process ex_bgp as_packet None false ex_capture) = repeat (None, BgpLine ka MKeepAlive) 3.
Proof. split; vm_compute; reflexivity. Qed.
Example C183_nonvacuous : calm as_packet /\ plain 0 ex_capture /\
  load_pcap_and_process ex_bgp as_packet None true ex_capture =
    ([(Some 1, BgpLine ka MKeepAlive); (Some 3, BgpLine ka MKeepAlive); (Some 3, BgpLine ka MKeepAlive)], Finished).
Proof. split; [intros lt d; eexists; reflexivity|]. split; [cbn; lia|vm_compute; reflexivity]. Qed.

(* ---- C184 ---- *)
Lemma finishes {C M E L D} (h : handler C M E L) (dissect : N -> D -> res unit (option pkt)) limit show bs :
  calm dissect -> plain 0 bs -> (forall o, exists y, h_render h o = RLine y) -> (forall l, snd (handle_all h [] l) = Returned) ->
  snd (load_pcap_and_process h dissect limit show bs) = Finished.
Proof.
  intros Hc Hp Hr Ha. assert (H0 : snd (load_pcap_and_process h dissect None true bs) = Finished).
  { destruct (C183_one_line_per_result_partial h dissect bs Hc Hp) as (k & ls & _ & _ & _ & H). apply H; [intros o _; apply Hr|apply Ha]. }
  destruct limit as [n|], show; try exact H0.
  - exact (proj2 (C182_limit_is_a_prefix h dissect n bs) H0).
  - destruct (C182_numbers_optional h dissect (Some n) bs) as (_ & _ & ->). exact (proj2 (C182_limit_is_a_prefix h dissect n bs) H0).
  - destruct (C182_numbers_optional h dissect None bs) as (_ & _ & ->). exact H0.
Qed.
(* Whatever the packets hold, decoding BGP or flow traffic runs to the end of
   the capture. *)
Theorem C184_bgp_and_flow_finish_partial : forall D (dissect : N -> D -> res unit (option pkt)) bs limit show ports iana vendor millis_ok,
  calm dissect -> plain 0 bs ->
  snd (load_pcap_and_process (bgp_handler ports) dissect limit show bs) = Finished /\
  snd (load_pcap_and_process (flow_handler iana vendor millis_ok ports) dissect limit show bs) = Finished.
Proof.
  intros D dissect bs limit show ports iana vendor ms Hc Hp. split; apply finishes; try assumption.
  - intros [k [m [[] [] [] []]]|e]; eexists; reflexivity.
  - intros l. apply bgp_returns.
  - intros o. eexists. reflexivity.
  - intros l. apply (all_returns (flow_handler iana vendor ms ports) (fun _ => True)); auto.
    + intros s b s' b' o _ H. split; [exact I|]. exact (flow_no_panic _ _ _ _ _ _ _ _ H).
    + apply flow_progresses.
Qed.
Print Assumptions C184_bgp_and_flow_finish_partial.
Example C184_nonvacuous : plain 0 [InterfaceDescription 1; EnhancedPacket 0 (mkP ka TCP bad_update); EnhancedPacket 0 (mkP ka TCP [1])] /\
  length (fst (load_pcap_and_process ex_bgp as_packet None true [InterfaceDescription 1; EnhancedPacket 0 (mkP ka TCP bad_update); EnhancedPacket 0 (mkP ka TCP [1])])) = 1%nat.
Proof. split; [cbn; lia|vm_compute; reflexivity]. Qed.
(* One BMP packet ends the tool (the decoder panics, C15). *)
Definition crashing_bmp : list N :=
  [4; 0; 0; 1; 109; 0] ++ repeat 0 42 ++ [0; 1; 0; 5; 0; 0; 8; 0; 1; 128; 8] ++ [0; 4; 1; 44; 0; 0]
  ++ repeat 255 16 ++ [1; 44; 2; 0; 0; 1; 21] ++ [144; 14; 1; 17; 0; 1; 128; 12] ++ repeat 0 12 ++ [0; 255] ++ repeat 0 255.
Theorem C184_bmp_packet_crashes_refuted : exists d good,
  snd (load_pcap_and_process (bmp_handler [179]) as_packet None true [InterfaceDescription 1; EnhancedPacket 0 (mkP ka TCP d); EnhancedPacket 0 (mkP ka TCP good)]) = Panicked /\
  fst (load_pcap_and_process (bmp_handler [179]) as_packet None true [InterfaceDescription 1; EnhancedPacket 0 (mkP ka TCP d); EnhancedPacket 0 (mkP ka TCP good)]) = [].
Proof. exists crashing_bmp, bmp_init. split; vm_compute; reflexivity. Qed.
(* So does a UDP-Notif message with an option the tool does not know, one
   whose payload is not what its media type says, and a datagram cut short
   followed by two more. *)
Theorem C184_notif_packet_crashes_refuted :
  (exists d p, outcomes (fst (handle_all ex_notif [] (flow_of UDP ku [d]))) = [Success ku p] /\
     load_pcap_and_process ex_notif as_packet None true [InterfaceDescription 1; EnhancedPacket 0 (mkP ku UDP d)] = ([], Panicked)) /\
  (exists d p, outcomes (fst (handle_all ex_notif [] (flow_of UDP ku [d]))) = [Success ku p] /\
     load_pcap_and_process (notif_handler 0 nothing nothing nothing [10003]) as_packet None true [InterfaceDescription 1; EnhancedPacket 0 (mkP ku UDP d)] = ([], Panicked)) /\
  (exists ds, Forall (fun d => bytes_ok d = true) ds /\ snd (handle_all ex_notif [] (flow_of UDP ku ds)) = Crashed).
Proof.
  split; [|split].
  - exists (notif [9; 4; 1; 1] [49]). eexists. split; vm_compute; reflexivity.
  - exists (notif [] [49]). eexists. split; vm_compute; reflexivity.
  - exists [[33; 20; 0; 13; 0; 0; 0; 1; 0; 0; 0; 2]; [0; 0; 0; 0; 0; 0; 0; 0]; [33]]. split; [repeat constructor|vm_compute; reflexivity].
Qed.
Print Assumptions C184_bmp_packet_crashes_refuted.
Print Assumptions C184_notif_packet_crashes_refuted.
(* What can be printed of UDP-Notif. *)
Theorem C184_notif_prints_exactly : forall now json_ok utf8_ok cbor_ok ports k p,
  h_render (notif_handler now json_ok utf8_ok cbor_ok ports) (Success k p) = RPanic <->
  (exists n v, In (UdpNotifModel.CUnknown n, v) (UdpNotifModel.p_options p)) \/
  (UdpNotifModel.p_media p = UdpNotifModel.MtJson /\ json_ok (UdpNotifModel.p_payload p) = false) \/
  (UdpNotifModel.p_media p = UdpNotifModel.MtXml /\ utf8_ok (UdpNotifModel.p_payload p) = false) \/
  (UdpNotifModel.p_media p = UdpNotifModel.MtCbor /\ cbor_ok (UdpNotifModel.p_payload p) = false).
Proof.
  intros now j u c ports k p. cbn [h_render notif_handler]. unfold render_notif.
  assert (Hk : forallb code_is_string (mkeys (UdpNotifModel.p_options p)) = false <-> exists n v, In (UdpNotifModel.CUnknown n, v) (UdpNotifModel.p_options p)).
  { induction (UdpNotifModel.p_options p) as [|[x v] l IH]; cbn; [split; [discriminate|intros (? & ? & [])]|]. fold (mkeys l). destruct x; cbn [code_is_string andb].
    all: try (rewrite IH; split; [intros (n & w & H); eauto|intros (n0 & w & [H|H]); [discriminate H|eauto]]).
    split; [intros _; eauto|reflexivity]. }
  destruct (forallb code_is_string _) eqn:Hf; cbn [negb].
  - unfold payload_ok. destruct (UdpNotifModel.p_media p) eqn:Hm; cbn [negb];
      try (split; [discriminate|intros [H|[[H _]|[[H _]|[H _]]]]; [apply Hk in H|..]; discriminate H]).
    + destruct (j _) eqn:Hj; cbn [negb]; split; try discriminate; auto. intros [H|[[_ H]|[[H _]|[H _]]]]; [apply Hk in H|..]; discriminate H.
    + destruct (u _) eqn:Hj; cbn [negb]; split; try discriminate; auto. intros [H|[[H _]|[[_ H]|[H _]]]]; [apply Hk in H|..]; discriminate H.
    + destruct (c _) eqn:Hj; cbn [negb]; split; try discriminate; auto. intros [H|[[H _]|[[H _]|[_ H]]]]; [apply Hk in H|..]; discriminate H.
  - split; [intros _; left; apply Hk; reflexivity|reflexivity].
Qed.
Print Assumptions C184_notif_prints_exactly.

(* ---- C185 ---- *)
(* No packet keeps any of the four handlers busy for ever, and no capture the
   tool. *)
Theorem C185_always_ends : forall D (dissect : N -> D -> res unit (option pkt)) limit show bs ports iana vendor millis_ok now json_ok utf8_ok cbor_ok,
  snd (load_pcap_and_process (bgp_handler ports) dissect limit show bs) <> NeverEnds /\
  snd (load_pcap_and_process (bmp_handler ports) dissect limit show bs) <> NeverEnds /\
  snd (load_pcap_and_process (flow_handler iana vendor millis_ok ports) dissect limit show bs) <> NeverEnds /\
  snd (load_pcap_and_process (notif_handler now json_ok utf8_ok cbor_ok ports) dissect limit show bs) <> NeverEnds.
Proof.
  intros. assert (HG : forall C M E L (h : handler C M E L), progresses h -> snd (load_pcap_and_process h dissect limit show bs) <> NeverEnds).
  { intros C M E L h P. unfold load_pcap_and_process. pose proof (process_ends h dissect P (S (length bs)) limit (iter_new bs) [] ltac:(cbn; lia)) as H.
    destruct (process h dissect _ _ _ _) as [ls v]. exact H. }
  split; [apply HG, bgp_progresses|]. split; [apply HG, bmp_progresses|]. split; [apply HG, flow_progresses|apply HG, notif_progresses].
Qed.
Print Assumptions C185_always_ends.
(* a handler whose decoder hands out messages without taking octets *)
Example C185_nonvacuous :
  snd (load_pcap_and_process (mkH UDP [10003] tt (fun s b => (s, b, @DItem unit unit tt)) (fun _ => RLine tt)) as_packet None true
         [InterfaceDescription 1; EnhancedPacket 0 (mkP ku UDP [1])]) = NeverEnds.
Proof. vm_compute. reflexivity. Qed.

(* ---- C186 ---- *)
(* Up to the first error of a flow every BGP message is printed, with its
   flow and in full. *)
Theorem C186_printed_in_full_partial : forall ports k xs k' x,
  In (Success k' x) (until_error (outcomes (fst (handle_all (bgp_handler ports) [] (flow_of TCP k xs))))) ->
  h_render (bgp_handler ports) (Success k' x) = RLine (BgpLine k (fst x)).
Proof.
  intros ports k xs k' x. destruct (wanted_dec (bgp_handler ports) (mkP k TCP [])) as [W|W]; [|rewrite unwanted_outcomes by exact W; intros []].
  rewrite bgp_stream_feed by exact W. unfold as_outcomes. rewrite in_flat_map. intros (o & Ho & Hi).
  destruct o as [|m|e|]; cbn [In] in Hi; try tauto; destruct Hi as [Hi|[]]; inversion Hi; subst. destruct x as [m ig].
  assert (ig = no_ignored) as ->; [|reflexivity].
  eapply (strict_feed xs bgp_fresh [] []); [repeat split|reflexivity|intros ? ? []|exact Ho].
Qed.
(* A capture of one session direction prints the messages that were sent,
   however they were packed into segments. *)
Theorem C186_session_printed_partial : forall D (dissect : N -> D -> res unit (option pkt)) bs ports k xs ms,
  calm dissect -> plain 0 bs -> map snd (numbered dissect bs) = flow_of TCP k xs -> In (dst_port k) ports ->
  stream_fits (Some true) (Some true) [] [] ms -> written ms (concat xs) ->
  map snd (fst (load_pcap_and_process (bgp_handler ports) dissect None false bs)) = map (BgpLine k) ms /\
  snd (load_pcap_and_process (bgp_handler ports) dissect None false bs) = Finished.
Proof.
  intros D dissect bs ports k xs ms Hc Hp Hf Hport Hs Hw.
  assert (HF : snd (load_pcap_and_process (bgp_handler ports) dissect None true bs) = Finished).
  { apply (C184_bgp_and_flow_finish_partial D dissect bs None true ports no_elements no_vendors (fun _ => true) Hc Hp). }
  destruct (C182_numbers_optional (bgp_handler ports) dissect None bs) as (-> & _ & ->). split; [|exact HF].
  destruct (C183_one_line_per_result_partial (bgp_handler ports) dissect bs Hc Hp) as (n & ls & HL & H2 & H3 & _). rewrite HL, map_map. cbn [snd].
  destruct (H3 HF) as [-> HR]. rewrite firstn_all in H2. clear H3 HL.
  assert (HO : outcomes (fst (handle_all (bgp_handler ports) [] (flow_of TCP k xs))) = map (fun m => Success k (m, no_ignored)) ms).
  { assert (HW : wanted (bgp_handler ports) (mkP k TCP [])) by (split; [reflexivity|exact Hport]).
    pose proof (bgp_stream_chunks bgp_fresh ms (concat xs) xs eq_refl Hs Hw eq_refl) as (Ho & _ & _). cbv zeta in Ho.
    pose proof (eq_trans (bgp_stream_feed ports k xs HW) (f_equal (as_outcomes k) Ho)) as HB.
    assert (HA : as_outcomes k (map (fun m => DItem (m, no_ignored)) ms) = map (fun m => @Success _ (bgp_err body_err) k (m, no_ignored)) ms).
    { clear. induction ms as [|m ms IH]; [reflexivity|]. cbn. f_equal. exact IH. }
    rewrite HA in HB. clear - HB. revert HB. generalize (outcomes (fst (handle_all (bgp_handler ports) [] (flow_of TCP k xs)))). induction ms as [|m ms IH]; intros os.
    - destruct os as [|[? ?|?] os]; cbn; [reflexivity|discriminate|discriminate].
    - destruct os as [|[? ?|?] os]; cbn [until_error map]; try discriminate. intros H. injection H as H1 H2 H. subst. rewrite (IH _ H). reflexivity. }
  rewrite Hf in *.
  assert (HQ : map snd (lines_for (bgp_handler ports) (map fst (numbered dissect bs)) (fst (handle_all (bgp_handler ports) [] (flow_of TCP k xs)))) = map (fun m => Success k (m, no_ignored)) ms).
  { rewrite <- HO. assert (HN : length (map fst (numbered dissect bs)) = length (fst (handle_all (bgp_handler ports) [] (flow_of TCP k xs)))).
    { rewrite map_length, <- (map_length snd (numbered dissect bs)), Hf. clear - HR. revert HR. generalize (flow_of TCP k xs). generalize (@nil (key * (bgp_codec * list N))).
      intros ps l. revert ps. induction l as [|p l IH]; intros ps; [reflexivity|]. cbn [handle_all]. destruct (handle (bgp_handler ports) ps p) as [[ps' r] [| |]]; try discriminate.
      specialize (IH ps'). destruct (handle_all (bgp_handler ports) ps' l) as [rs e]. cbn [fst snd length] in *. intros H. rewrite (IH H). reflexivity. }
    revert HN. generalize (map fst (numbered dissect bs)). generalize (fst (handle_all (bgp_handler ports) [] (flow_of TCP k xs))). clear.
    induction l as [|x l IH]; intros [|n ns]; cbn [length]; try discriminate; [reflexivity|]. intros H. injection H as H. rewrite lines_for_cons, map_app, (IH ns H), map_map.
    cbn [snd]. rewrite map_id. unfold outcomes. cbn [flat_map]. rewrite app_nil_r. reflexivity. }
  revert HQ H2. generalize (lines_for (bgp_handler ports) (map fst (numbered dissect bs)) (fst (handle_all (bgp_handler ports) [] (flow_of TCP k xs)))). clear.
  intros l. revert l ls. induction ms as [|m ms IH]; intros [|[n o] l] ls; cbn [map snd]; try discriminate; intros HQ H2; inversion H2 as [|? [n' y] ? ls' [E1 E2] H2']; subst; [reflexivity|].
  injection HQ as -> HQ. cbn in E2. inversion E2; subst. cbn [map snd]. rewrite (IH _ _ HQ H2'). reflexivity.
Qed.
Print Assumptions C186_printed_in_full_partial.
Print Assumptions C186_session_printed_partial.
Example C186_nonvacuous : stream_fits (Some true) (Some true) [] [] [MKeepAlive; MKeepAlive] /\ written [MKeepAlive; MKeepAlive] (keepalive ++ keepalive) /\
  fst (load_pcap_and_process ex_bgp as_packet None false
    [InterfaceDescription 1; EnhancedPacket 0 (mkP ka TCP (take 30 (keepalive ++ keepalive))); EnhancedPacket 0 (mkP ka TCP (drop 30 (keepalive ++ keepalive)))]) =
    [(None, BgpLine ka MKeepAlive); (None, BgpLine ka MKeepAlive)].
Proof.
  split; [cbn; auto|]. split; [|vm_compute; reflexivity]. exists keepalive, keepalive. split; [vm_compute; reflexivity|]. split; [|reflexivity].
  exists keepalive, []. split; [vm_compute; reflexivity|]. split; reflexivity.
Qed.
(* After an error a good message is replaced by a fixed text, without its
   flow. *)
Theorem C186_after_an_error_refuted : exists bad,
  (exists e, map snd (fst (load_pcap_and_process ex_bgp as_packet None true [InterfaceDescription 1; EnhancedPacket 0 (mkP ka TCP bad); EnhancedPacket 0 (mkP ka TCP keepalive)])) =
     [BgpError e; BgpIgnored]) /\
  map snd (fst (load_pcap_and_process ex_bgp as_packet None true [InterfaceDescription 1; EnhancedPacket 0 (mkP ka TCP keepalive)])) = [BgpLine ka MKeepAlive].
Proof. exists bad_update. split; [eexists|]; vm_compute; reflexivity. Qed.
Print Assumptions C186_after_an_error_refuted.

(* ---- C187 ---- *)
(* The AS numbers of an UPDATE are read four octets wide exactly when the last
   OPEN before it in its own flow announced that, or there was none. *)
Theorem C187_width_from_own_flow_partial : forall ports k xs i k' u ig,
  nth_error (outcomes (fst (handle_all (bgp_handler ports) [] (flow_of TCP k xs)))) i = Some (Success k' (MUpdate u, ig)) ->
  as_paths_have_width (last_said true (messages (firstn i (outcomes (fst (handle_all (bgp_handler ports) [] (flow_of TCP k xs))))))) u.
Proof.
  intros ports k xs i k' u ig. destruct (wanted_dec (bgp_handler ports) (mkP k TCP [])) as [W|W].
  - pose proof (stream_outcomes (bgp_handler ports) k xs W) as [Ho _]. cbn [h_proto bgp_handler] in Ho. rewrite Ho. apply (width_stream ports k xs bgp_fresh [] true); reflexivity.
  - rewrite unwanted_outcomes by exact W. destruct i; discriminate.
Qed.
Print Assumptions C187_width_from_own_flow_partial.
(* A session takes both OPENs (RFC 6793): the peer that announces four octets
   still sends two to one that does not. Its UPDATE is reported as broken. *)
Definition open_old : list N := repeat 255 16 ++ [0; 29; 1; 4; 253; 233; 0; 90; 10; 0; 0; 1; 0].
Definition open_new : list N := repeat 255 16 ++ [0; 37; 1; 4; 253; 232; 0; 90; 10; 0; 0; 2; 8; 2; 6; 65; 4; 0; 0; 253; 232].
Definition update2 : list N :=
  repeat 255 16 ++ [0; 43; 2; 0; 0; 0; 18; 64; 1; 1; 0; 64; 2; 4; 2; 1; 253; 232; 64; 3; 4; 10; 0; 0; 2; 8; 10].
Theorem C187_other_direction_ignored_refuted : exists oa ob i j e u,
  outcomes (fst (handle_all ex_bgp [] [mkP ka TCP open_old; mkP kb TCP open_new; mkP kb TCP update2])) =
    [Success ka (MOpen oa, i); Success kb (MOpen ob, j); Failure e] /\
  announces_four_octets (MOpen oa) = Some false /\ announces_four_octets (MOpen ob) = Some true /\
  snd (decode_bgp (mkCodec (Some false) (Some true) bgp_ctx) update2) = DItem (MUpdate u, no_ignored) /\
  as_paths_have_width false u.
Proof. do 6 eexists. split; [vm_compute; reflexivity|]. split; [reflexivity|]. split; [reflexivity|]. split; [vm_compute; reflexivity|]. repeat constructor. Qed.
Print Assumptions C187_other_direction_ignored_refuted.
Example C187_nonvacuous : exists o i u j,
  outcomes (fst (handle_all ex_bgp [] (flow_of TCP ka [open_old; update2]))) = [Success ka (MOpen o, i); Success ka (MUpdate u, j)] /\
  u_attrs u <> [].
Proof. do 4 eexists. split; [vm_compute; reflexivity|discriminate]. Qed.
