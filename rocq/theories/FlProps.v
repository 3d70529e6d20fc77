(* C17-C21, C80-C98: the IPFIX / NetFlow v9 codec. *)
From Verif Require Import Base BaseLemmas AfModel FlModel FlSpec FlDecodeProofs FlTemplateProofs FlValueProofs FlRoundProofs FlStreamProofs FlNRoundProofs FlMoreProofs FlLegalProofs FlEchoProofs.

(* ---- examples: a few information elements of the IANA registry (octet
   counter, protocol, TCP flags, IPv4 source, interface, interface name,
   reliability, packet section, flow start in microseconds and nanoseconds)
   and a vendor with one ---- *)
Definition ex_iana (id : N) : option dtype :=
  match id with
  | 1 => Some TU64 | 4 => Some TU8 | 6 => Some TTcp | 8 => Some TV4 | 10 => Some TU32 | 82 => Some TStr
  | 154 => Some TMicros | 156 => Some TNanos | 276 => Some TBool | 313 => Some TOctets
  | _ => None
  end.
Definition ex_vendor (pen : N) : option (N -> option dtype) :=
  if pen =? 9 then Some (fun id => if id =? 1 then Some TU32 else None) else None.
Definition ex_ms (_ : Z) : bool := true.
Definition ex_decode := decode ex_iana ex_vendor ex_ms.
Definition ex_receive := receive ex_iana ex_vendor ex_ms.
Definition ex_write (c : codec) (p : flow_info) : list N :=
  match encode ex_iana ex_vendor c p with Ok b => b | _ => [] end.
Definition ex_packet (domain : N) (sets : list iset) : flow_info := Ipfix (mkIP 1700000000 7 domain sets).
Definition ex_npacket (sets : list nset) : flow_info := NetFlow (mkNP 1000 1700000000 7 1 sets).
Definition ex_tmpl : trec := mkTR 256 [mkSpec 0 8 4; mkSpec 0 1 4; mkSpec 0 82 65535].
Definition ex_tmpl2 : trec := mkTR 256 [mkSpec 0 10 2; mkSpec 9 1 4].
Definition ex_opts : otrec := mkOT 257 [mkSpec 0 10 4] [mkSpec 0 82 8].
Definition ex_rec : drec :=
  mkDR [] [FVal 0 8 (VNum 167772161); FVal 0 1 (VNum 1500); FVal 0 82 (VStr [101; 116; 104])].
Definition ex_rec2 : drec := mkDR [] [FVal 0 10 (VNum 3); FVal 9 1 (VNum 77)].
Definition ex_t : list N := ex_write codec_new (ex_packet 1 [STemplate [ex_tmpl]; SOptions [ex_opts]]).
Definition ex_known : codec := snd (ex_receive codec_new [ex_t]).
Definition ex_d : list N := ex_write ex_known (ex_packet 1 [SData 256 [ex_rec; ex_rec]]).

(* ---- C17 ---- *)
(* Every call asks for more data and leaves the buffer and the templates as
   they were, or takes at least one octet off the front of the buffer. There
   is no panic and no endless loop. *)
Theorem C17_progress iana vendor millis_ok c buf :
  match decode iana vendor millis_ok c buf with
  | (c', rest, NeedMore) => c' = c /\ rest = buf
  | (_, rest, Packet _) | (_, rest, Rejected _) => exists used, used <> [] /\ buf = used ++ rest
  | _ => False
  end.
Proof.
  pose proof (decode_cases iana vendor millis_ok c buf) as H.
  destruct (decode iana vendor millis_ok c buf) as [[c' rest] []]; try exact H. tauto.
Qed.
Print Assumptions C17_progress.

(* More data is asked for exactly when there are fewer than 16 octets or fewer
   than the header announces. *)
Theorem C17_need_more iana vendor millis_ok c buf :
  snd (decode iana vendor millis_ok c buf) = NeedMore <-> blen buf < 16 \/ blen buf < declared buf.
Proof.
  pose proof (decode_cases iana vendor millis_ok c buf) as H. split.
  - destruct (decode iana vendor millis_ok c buf) as [[c' rest] o]. cbn [snd]. intros ->. tauto.
  - intros Hs. rewrite decode_short by assumption. reflexivity.
Qed.
Print Assumptions C17_need_more.

(* An IPFIX message takes exactly its declared length, decoded or rejected,
   and what follows it makes no difference. *)
Theorem C17_ipfix_exact iana vendor millis_ok c buf c' rest p :
  decode iana vendor millis_ok c buf = (c', rest, Packet (Ipfix p)) ->
  exists used, buf = used ++ rest /\ blen used = declared buf /\ 16 <= blen used /\
  forall y, decode iana vendor millis_ok c (used ++ y) = (c', y, Packet (Ipfix p)).
Proof.
  intros E. destruct (decode_packet_version _ _ _ _ _ _ _ _ E) as [Hv Hl].
  destruct (decode_ipfix_full iana vendor millis_ok c buf Hv Hl) as (used & rest' & Hb & Hu & H). rewrite E in H. cbn [fst snd] in H.
  exists used. destruct (H []) as (_ & <- & _). split; [exact Hb|]. split; [exact Hu|]. split; [lia|]. intros y. apply H.
Qed.
Print Assumptions C17_ipfix_exact.
Theorem C17_ipfix_rejected iana vendor millis_ok c buf c' rest e :
  version_of buf = 10 -> 16 <= declared buf -> decode iana vendor millis_ok c buf = (c', rest, Rejected e) ->
  exists used, buf = used ++ rest /\ blen used = declared buf /\
  forall y, decode iana vendor millis_ok c (used ++ y) = (c', y, Rejected e).
Proof.
  intros Hv Hd E.
  assert (Hl : declared buf <= blen buf).
  { destruct (N.le_gt_cases (declared buf) (blen buf)) as [?|Hc]; [assumption|].
    pose proof (proj2 (C17_need_more iana vendor millis_ok c buf) (or_intror Hc)) as Hn. rewrite E in Hn. discriminate Hn. }
  destruct (decode_ipfix_full iana vendor millis_ok c buf Hv (conj Hd Hl)) as (used & rest' & Hb & Hu & H). rewrite E in H. cbn [fst snd] in H.
  exists used. destruct (H []) as (_ & <- & _). split; [exact Hb|]. split; [exact Hu|]. intros y. apply H.
Qed.
Print Assumptions C17_ipfix_rejected.
Example C17_nonvacuous :
  (exists c', ex_decode codec_new (ex_t ++ [1; 2; 3]) = (c', [1; 2; 3], Packet (ex_packet 1 [STemplate [ex_tmpl]; SOptions [ex_opts]])))
  /\ ex_decode codec_new (ex_d ++ [1; 2; 3]) = (codec_new, [1; 2; 3], Rejected (FE_NoTemplate 256))
  /\ snd (ex_decode codec_new (take 30 ex_t)) = NeedMore.
Proof. split; [eexists; vm_compute; reflexivity|]. split; vm_compute; reflexivity. Qed.

(* ---- C18 ---- *)
(* A new decoder is handed datagrams. learnt are the sets that defined
   templates: those of the accepted packets and, for a rejected one, some that
   stand in it. Then every data set accepted has the layout (information
   elements of scope and fields, in order) of the last template or options
   template with its id before it, and there is one. *)
Theorem C18_ipfix iana vendor millis_ok ds outs c' :
  Forall (fun d => bytes_ok d = true) ds ->
  receive iana vendor millis_ok codec_new ds = (outs, c') ->
  exists learnt, length learnt = length ds /\ length outs = length ds /\
  (forall k d o sets, nth_error ds k = Some d -> nth_error outs k = Some o -> nth_error learnt k = Some sets ->
     taught d o sets) /\
  (forall k p before id recs rest, nth_error outs k = Some (Packet (Ipfix p)) ->
     ip_sets p = before ++ SData id recs :: rest ->
     exists lay, in_force nothing (concat (firstn k learnt) ++ before) id = Some lay /\ Forall (follows lay) recs) /\
  (forall i, cached c' i = in_force nothing (concat learnt) i).
Proof. intros Hb E. exact (receive_ipfix iana vendor millis_ok ds codec_new outs c' Hb E). Qed.
Print Assumptions C18_ipfix.
Theorem C18_netflow iana vendor millis_ok ds outs c' :
  Forall (fun d => bytes_ok d = true) ds ->
  receive iana vendor millis_ok codec_new ds = (outs, c') ->
  exists learnt, length learnt = length ds /\ length outs = length ds /\
  (forall k d o sets, nth_error ds k = Some d -> nth_error outs k = Some o -> nth_error learnt k = Some sets ->
     ntaught d o sets) /\
  (forall k p before id recs rest, nth_error outs k = Some (Packet (NetFlow p)) ->
     np_sets p = before ++ NSData id recs :: rest ->
     exists lay, nin_force nothing (concat (firstn k learnt) ++ before) id = Some lay /\ Forall (nfollows lay) recs) /\
  (forall i, ncached c' i = nin_force nothing (concat learnt) i).
Proof. intros Hb E. exact (receive_netflow iana vendor millis_ok ds codec_new outs c' Hb E). Qed.
Print Assumptions C18_netflow.
(* A complete message is rejected unless each of its data sets has a template,
   known before or defined earlier in the message. *)
Theorem C18_no_template_rejected iana vendor millis_ok c d :
  bytes_ok d = true -> version_of d = 10 -> 16 <= declared d <= blen d ->
  (exists e, snd (decode iana vendor millis_ok c d) = Rejected e) \/
  (exists p, snd (decode iana vendor millis_ok c d) = Packet (Ipfix p) /\
   forall before id recs rest, ip_sets p = before ++ SData id recs :: rest ->
   exists lay, in_force (cached c) before id = Some lay /\ Forall (follows lay) recs).
Proof.
  intros Hb Hv Hd. destruct (decode_ipfix_full iana vendor millis_ok c d Hv Hd) as (used & rest & _ & _ & H).
  destruct (H []) as (_ & _ & Ho). destruct (decode iana vendor millis_ok c d) as [[c' r] o] eqn:E. cbn [snd] in *.
  destruct o as [|[p|p]|e| |]; try contradiction; [right|left; now exists e].
  exists p. split; [reflexivity|]. intros before id recs rest' Hs.
  destruct (receive_ipfix iana vendor millis_ok [d] c [Packet (Ipfix p)] c') as (learnt & _ & _ & _ & H4 & _).
  - constructor; [exact Hb|constructor].
  - cbn [receive]. rewrite E. reflexivity.
  - destruct (H4 0%nat p before id recs rest' eq_refl Hs) as (lay & Hl & Hf). now exists lay.
Qed.
Print Assumptions C18_no_template_rejected.
(* The template is replaced twice, once in the packet that carries the data. *)
Definition ex_d2 : list N :=
  ex_write (snd (ex_receive codec_new [ex_t; ex_write codec_new (ex_packet 1 [STemplate [ex_tmpl2]])]))
           (ex_packet 1 [STemplate [ex_tmpl2]; SData 256 [ex_rec2]]).
Example C18_nonvacuous :
  fst (ex_receive codec_new [ex_d; ex_t; ex_d; ex_d2; ex_t; ex_d]) =
  [Rejected (FE_NoTemplate 256);
   Packet (ex_packet 1 [STemplate [ex_tmpl]; SOptions [ex_opts]]);
   Packet (ex_packet 1 [SData 256 [ex_rec; ex_rec]]);
   Packet (ex_packet 1 [STemplate [ex_tmpl2]; SData 256 [ex_rec2]]);
   Packet (ex_packet 1 [STemplate [ex_tmpl]; SOptions [ex_opts]]);
   Packet (ex_packet 1 [SData 256 [ex_rec; ex_rec]])]
  /\ forallb bytes_ok [ex_d; ex_t; ex_d2] = true.
Proof. split; vm_compute; reflexivity. Qed.

(* ---- C19 ---- *)
(* Whatever the writer and the reader knew before. *)
Theorem C19_templates_round_trip iana vendor millis_ok enc dec p :
  header_ok p -> Forall (only_templates iana vendor) (ip_sets p) ->
  exists b, encode iana vendor enc (Ipfix p) = Ok b /\
  (blen b < 65536 -> exists dec', decode iana vendor millis_ok dec b = (dec', [], Packet (Ipfix p)) /\
     c_netflow dec' = c_netflow dec /\ forall i, cached dec' i = in_force (cached dec) (ip_sets p) i).
Proof. intros Hh Hs. apply packet_round; [exact Hh|]. now apply only_templates_ok. Qed.
Print Assumptions C19_templates_round_trip.
Example C19_nonvacuous :
  header_ok (mkIP 1700000000 7 1 [STemplate [ex_tmpl]; SOptions [ex_opts]]) /\
  Forall (only_templates ex_iana ex_vendor) [STemplate [ex_tmpl; ex_tmpl2]; SOptions [ex_opts]] /\
  (exists b, encode ex_iana ex_vendor codec_new (ex_packet 1 [STemplate [ex_tmpl; ex_tmpl2]; SOptions [ex_opts]]) = Ok b /\ blen b = 70 /\
   exists dec', ex_decode codec_new b = (dec', [], Packet (ex_packet 1 [STemplate [ex_tmpl; ex_tmpl2]; SOptions [ex_opts]])) /\
   cached dec' 256 = Some ([], tr_fields ex_tmpl2) /\ cached dec' 258 = None).
Proof.
  split; [vm_compute; repeat split|]. split.
  - repeat (constructor; cbn); vm_compute; repeat split; try discriminate; eexists; split; try reflexivity; vm_compute; repeat split; discriminate.
  - eexists; split; [vm_compute; reflexivity|]. split; [vm_compute; reflexivity|]. eexists; split; [vm_compute; reflexivity|].
    split; vm_compute; reflexivity.
Qed.

(* ---- C20 ---- *)
(* Unsigned types of one to eight octets: a number that fits in the template
   length is written in exactly that many octets, high-order first, that
   length is the one announced, and it is read back. *)
Theorem C20_unsigned_partial iana vendor millis_ok pen id t w len n :
  classify iana vendor pen id = Some (Known t) -> uint_width t = Some w -> 1 <= len <= w -> n < 256 ^ len ->
  w_field iana vendor (FVal pen id (VNum n)) (Some len) = Ok (rfc_unsigned len n) /\
  blen (rfc_unsigned len n) = len /\ field_len iana vendor (FVal pen id (VNum n)) (Some len) = len /\
  reads (p_fspec_field iana vendor millis_ok (mkSpec pen id len)) (rfc_unsigned len n) (FVal pen id (VNum n)).
Proof.
  intros Hc Hw Hl Hn.
  assert (Hf : fits iana vendor millis_ok (mkSpec pen id len) (FVal pen id (VNum n))).
  { split; [reflexivity|]. cbn [fs_pen fs_id fs_len]. rewrite Hc.
    destruct t; try discriminate Hw; injection Hw as <-; cbn [value_fits]; split; try lia.
    replace len with 1 in Hn by lia. exact Hn. }
  destruct (field_round _ _ _ _ _ Hf) as (b & Hb & Hp & Hfl & Hbl). cbn [fs_len] in *.
  assert (len <> 65535) by (destruct t; try discriminate Hw; injection Hw as <-; lia).
  assert (Heq : b = rfc_unsigned len n).
  { cbn [w_field] in Hb. rewrite Hc in Hb. unfold rfc_unsigned.
    destruct t; try discriminate Hw; injection Hw as <-; cbn [w_value] in Hb.
    1: { replace len with 1 by lia. now injection Hb as <-. }
    all: unfold w_reduced in Hb; change (N.of_nat 2) with 2 in Hb; change (N.of_nat 4) with 4 in Hb; change (N.of_nat 8) with 8 in Hb;
      match type of Hb with (if ?x then _ else _) = _ => replace x with false in Hb by lia end; now injection Hb as <-. }
  subst b. rewrite <- Hfl. rewrite (Hbl H). split; [assumption|]. split; [reflexivity|]. split; [reflexivity|exact Hp].
Qed.
Print Assumptions C20_unsigned_partial.
(* Signed types, two's complement in the template length. signed16 is left
   out: it has no information element. *)
Theorem C20_signed_partial iana vendor millis_ok pen id t w len z :
  classify iana vendor pen id = Some (Known t) -> sint_width t = Some w -> 1 <= len <= w ->
  (- 2 ^ (8 * Z.of_N len - 1) <= z < 2 ^ (8 * Z.of_N len - 1))%Z ->
  exists b, w_field iana vendor (FVal pen id (VInt z)) (Some len) = Ok b /\ blen b = len /\
  field_len iana vendor (FVal pen id (VInt z)) (Some len) = len /\
  Z.of_N (be_val b) = (z mod 2 ^ (8 * Z.of_N len))%Z /\
  reads (p_fspec_field iana vendor millis_ok (mkSpec pen id len)) b (FVal pen id (VInt z)).
Proof.
  intros Hc Hw Hl Hz.
  assert (Hf : fits iana vendor millis_ok (mkSpec pen id len) (FVal pen id (VInt z))).
  { split; [reflexivity|]. cbn [fs_pen fs_id fs_len]. rewrite Hc.
    destruct t; try discriminate Hw; injection Hw as <-; cbn [value_fits]; unfold signed_in; split; try lia; try exact Hz.
    replace len with 1 in Hz by lia. exact Hz. }
  destruct (field_round _ _ _ _ _ Hf) as (b & Hb & Hp & Hfl & Hbl). cbn [fs_len] in *.
  assert (len <> 65535) by (destruct t; try discriminate Hw; injection Hw as <-; lia).
  exists b. rewrite <- Hfl, (Hbl H). split; [assumption|]. split; [reflexivity|]. split; [reflexivity|]. split; [|exact Hp].
  cbn [w_field] in Hb. rewrite Hc in Hb.
  assert (Henc : exists bits, b = be_enc (N.to_nat len) (of_signed bits z) /\ 8 * len <= bits).
  { destruct t; try discriminate Hw; injection Hw as <-; cbn [w_value] in Hb.
    1: { exists 8. replace len with 1 by lia. injection Hb as <-. split; [reflexivity|lia]. }
    all: unfold w_reduced in Hb; change (N.of_nat 4) with 4 in Hb; change (N.of_nat 8) with 8 in Hb;
      match type of Hb with (if ?x then _ else _) = _ => replace x with false in Hb by lia end;
      injection Hb as <-; eexists; split; [reflexivity|lia]. }
  destruct Henc as (bits & -> & Hbits). apply twos_val; assumption.
Qed.
Print Assumptions C20_signed_partial.
(* unsigned256 in a reduced length keeps the high-order octets: one in a single
   octet is written and read back as zero. *)
Theorem C20_unsigned256_refuted millis_ok n len : 0 < n < 256 -> 1 <= len <= 31 ->
  exists b, w_value TU256 (VBytes (u256_octets n)) (Some len) = Ok b /\ b <> rfc_unsigned len n /\
  reads (p_value millis_ok TU256 len) b (VBytes (u256_octets 0)).
Proof. apply u256_reduced. Qed.
Print Assumptions C20_unsigned256_refuted.
Example C20_nonvacuous :
  classify ex_iana ex_vendor 0 1 = Some (Known TU64) /\ uint_width TU64 = Some 8 /\ 123456 < 256 ^ 3 /\
  w_field ex_iana ex_vendor (FVal 0 1 (VNum 123456)) (Some 3) = Ok [1; 226; 64] /\
  p_field ex_iana ex_vendor ex_ms 0 1 3 (mkR [1; 226; 64; 9] 0) = (mkR [9] 3, Ok (FVal 0 1 (VNum 123456))).
Proof. vm_compute. repeat split. Qed.

(* ---- C21 ---- *)
Theorem C21_short_partial millis_ok b : blen b < 255 ->
  w_value TOctets (VBytes b) (Some 65535) = Ok (rfc_varlen b) /\
  reads (p_value millis_ok TOctets 65535) (rfc_varlen b) (VBytes b) /\
  (utf8_ok b = true ->
   w_value TStr (VStr b) (Some 65535) = Ok (rfc_varlen b) /\
   reads (p_value millis_ok TStr 65535) (rfc_varlen b) (VStr b)).
Proof.
  intros Hb. assert (E : rfc_varlen b = w_varlen b).
  { unfold rfc_varlen, w_varlen. replace (blen b <? 255) with true by lia. reflexivity. }
  assert (H16 : blen b < 256 ^ 3) by (change (256 ^ 3) with 16777216; lia).
  rewrite E. split; [reflexivity|].
  destruct (value_round millis_ok TOctets 65535 (VBytes b)) as (b1 & H1 & H2 & _); [left; split; [reflexivity|assumption]|].
  injection H1 as <-. split; [exact H2|]. intros Hu. split; [reflexivity|].
  destruct (value_round millis_ok TStr 65535 (VStr b)) as (b2 & H3 & H4 & _); [split; [exact Hu|left; split; [reflexivity|assumption]]|].
  injection H3 as <-. exact H4.
Qed.
Print Assumptions C21_short_partial.
(* From 255 octets on the length is written in three octets, not two. *)
Theorem C21_long_written_refuted b : 255 <= blen b < 65536 ->
  w_value TOctets (VBytes b) (Some 65535) = Ok ([255; 0; blen b / 256; blen b mod 256] ++ b) /\
  w_value TStr (VStr b) (Some 65535) = Ok ([255; 0; blen b / 256; blen b mod 256] ++ b) /\
  rfc_varlen b = [255; blen b / 256; blen b mod 256] ++ b.
Proof.
  intros Hb. assert (E : w_varlen b = [255; 0; blen b / 256; blen b mod 256] ++ b).
  { unfold w_varlen. replace (blen b <? 255) with false by lia. unfold as_u32. rewrite N.mod_small by lia.
    cbn [be_enc app]. set (n := blen b) in *. clearbody n. rewrite (N.mod_small (n / 256)) by lia.
    replace (n / 256 / 256) with 0 by lia. reflexivity. }
  cbn [w_value]. unfold w_bytes, w_text. change (65535 =? 65535) with true. cbn iota. rewrite E.
  split; [reflexivity|]. split; [reflexivity|]. unfold rfc_varlen. replace (blen b <? 255) with false by lia. reflexivity.
Qed.
Print Assumptions C21_long_written_refuted.
(* And no conforming encoding of such a field is read as that field. *)
Theorem C21_long_read_refuted millis_ok b rest off : 255 <= blen b < 65536 -> bytes_ok (b ++ rest) = true ->
  forall r v, p_value millis_ok TOctets 65535 (mkR (rfc_varlen b ++ rest) off) = (r, Ok v) -> v <> VBytes b.
Proof. apply long_misread. Qed.
Print Assumptions C21_long_read_refuted.
(* What is written is read back by the same code, up to 2^24 octets. *)
Theorem C21_own_round_trip_partial millis_ok b : blen b < 16777216 ->
  exists w, w_value TOctets (VBytes b) (Some 65535) = Ok w /\ blen w = value_len TOctets (VBytes b) (Some 65535) /\
  reads (p_value millis_ok TOctets 65535) w (VBytes b).
Proof.
  intros Hb. destruct (value_round millis_ok TOctets 65535 (VBytes b)) as (w & H1 & H2 & H3 & _); [left; split; [reflexivity|exact Hb]|].
  exists w. split; [exact H1|]. split; [exact H3|exact H2].
Qed.
Print Assumptions C21_own_round_trip_partial.
Example C21_nonvacuous :
  w_value TOctets (VBytes [1; 2; 3]) (Some 65535) = Ok [3; 1; 2; 3] /\
  p_value ex_ms TOctets 65535 (mkR [3; 1; 2; 3; 4] 0) = (mkR [4] 4, Ok (VBytes [1; 2; 3])) /\
  blen (repeat 7 300) = 300 /\
  match w_value TOctets (VBytes (repeat 7 300)) (Some 65535) with Ok b => firstn 5 b = [255; 0; 1; 44; 7] | _ => False end.
Proof. vm_compute. repeat split. Qed.

(* ---- C80 ---- *)
(* A stream of IPFIX messages cut in any pieces, empty ones included, gives the
   outcomes and leaves the templates of the messages handed over one by one,
   and nothing stays in the buffer. *)
Theorem C80_stream iana vendor millis_ok c ms pieces :
  Forall ipfix_message ms -> concat pieces = concat ms ->
  exists c' outs, feed iana vendor millis_ok c [] pieces = (c', [], outs) /\ receive iana vendor millis_ok c ms = (outs, c').
Proof. apply stream_of_messages. Qed.
Print Assumptions C80_stream.
Example C80_nonvacuous :
  Forall ipfix_message [ex_d; ex_t; ex_d] /\
  snd (feed ex_iana ex_vendor ex_ms codec_new [] [take 3 ex_d; drop 3 ex_d ++ take 20 ex_t; drop 20 ex_t ++ ex_d]) =
  [Rejected (FE_NoTemplate 256); Packet (ex_packet 1 [STemplate [ex_tmpl]; SOptions [ex_opts]]);
   Packet (ex_packet 1 [SData 256 [ex_rec; ex_rec]])].
Proof.
  split; [|vm_compute; reflexivity]. repeat constructor; vm_compute; try reflexivity; discriminate.
Qed.

(* ---- C81 ---- *)
(* The reader knows the templates of the data sets, from before or from
   earlier sets of the packet; the writer knows templates with the same
   lengths. Values are those with an encoding in their template length. *)
Theorem C81_packet_round_trip_partial iana vendor millis_ok enc dec p :
  header_ok p -> sets_ok iana vendor millis_ok (cached enc) (cached dec) (ip_sets p) ->
  exists b, encode iana vendor enc (Ipfix p) = Ok b /\
  (blen b < 65536 -> exists dec', decode iana vendor millis_ok dec b = (dec', [], Packet (Ipfix p)) /\
     c_netflow dec' = c_netflow dec /\ forall i, cached dec' i = in_force (cached dec) (ip_sets p) i).
Proof. apply packet_round. Qed.
Print Assumptions C81_packet_round_trip_partial.
(* A writer does not learn the templates it writes: the data that follows in
   the same packet is written in the default lengths and not read back. *)
Theorem C81_writer_forgets_refuted :
  let p := ex_packet 1 [STemplate [mkTR 256 [mkSpec 0 1 4]]; SData 256 [mkDR [] [FVal 0 1 (VNum 1500)]]] in
  (exists c', ex_decode codec_new (ex_write codec_new p) =
    (c', [], Packet (ex_packet 1 [STemplate [mkTR 256 [mkSpec 0 1 4]];
       SData 256 [mkDR [] [FVal 0 1 (VNum 0)]; mkDR [] [FVal 0 1 (VNum 1500)]]]))).
Proof. eexists. vm_compute. reflexivity. Qed.
Print Assumptions C81_writer_forgets_refuted.
Example C81_nonvacuous :
  header_ok (mkIP 1700000000 7 1 [SData 256 [ex_rec; ex_rec]]) /\
  sets_ok ex_iana ex_vendor ex_ms (cached ex_known) (cached ex_known) [SData 256 [ex_rec; ex_rec]] /\
  blen ex_d = 44 /\ snd (ex_decode ex_known ex_d) = Packet (ex_packet 1 [SData 256 [ex_rec; ex_rec]]).
Proof.
  split; [vm_compute; repeat split|]. split; [|split; vm_compute; reflexivity].
  split; [|exact I]. split; [split; [discriminate|reflexivity]|].
  exists ([], tr_fields ex_tmpl), ([], tr_fields ex_tmpl). split; [vm_compute; reflexivity|]. split; [vm_compute; reflexivity|].
  split; [split; reflexivity|].
  assert (Hr : record_fits ex_iana ex_vendor ex_ms ([], tr_fields ex_tmpl) ex_rec).
  { split; [constructor|].
    constructor; [split; [reflexivity|split; reflexivity]|].
    constructor; [split; [reflexivity|split; [split; discriminate|reflexivity]]|].
    constructor; [split; [reflexivity|split; [reflexivity|left; split; reflexivity]]|constructor]. }
  split; [constructor; [exact Hr|constructor; [exact Hr|constructor]]|].
  right. exists (mkSpec 0 8 4). split; [left; reflexivity|reflexivity].
Qed.

(* ---- C82 ---- *)
(* Sets are not empty, records have at least one octet and no variable-length
   field, and either nothing follows in the buffer (less than four octets) or
   each template set holds one record. *)
Theorem C82_netflow_round_trip_partial iana vendor millis_ok enc dec p :
  nheader_ok p -> nsets_ok iana vendor millis_ok (ncached enc) (ncached dec) (np_sets p) ->
  exists b, encode iana vendor enc (NetFlow p) = Ok b /\
  (blen b < 65536 -> forall rest, blen rest < 4 \/ Forall single (np_sets p) ->
     exists dec', decode iana vendor millis_ok dec (b ++ rest) = (dec', rest, Packet (NetFlow p)) /\
     c_ipfix dec' = c_ipfix dec /\ forall i, ncached dec' i = nin_force (ncached dec) (np_sets p) i).
Proof. apply npacket_round. Qed.
Print Assumptions C82_netflow_round_trip_partial.
(* Two packets written one after the other: the first has a set of two
   templates, the count of which is taken to be one; the second packet is then
   read as a set of the first and both are lost. *)
Definition ex_nt : flow_info := ex_npacket [NSTemplate [mkTR 256 [mkSpec 0 8 4]; mkTR 257 [mkSpec 0 1 4]]].
Theorem C82_two_packets_refuted :
  let b := ex_write codec_new ex_nt in
  snd (ex_decode codec_new b) = Packet ex_nt /\
  (exists c', ex_decode codec_new (b ++ b) = (c', [], Rejected (FE_SetId 9))).
Proof. split; [vm_compute; reflexivity|]. eexists. vm_compute. reflexivity. Qed.
Print Assumptions C82_two_packets_refuted.
Theorem C82_empty_set_refuted :
  let b := ex_write codec_new (ex_npacket [NSTemplate []]) in
  exists c', ex_decode codec_new b = (c', [0; 0; 0; 4], Packet (ex_npacket [])).
Proof. eexists. vm_compute. reflexivity. Qed.
Print Assumptions C82_empty_set_refuted.
(* Writing with alignment to four octets aligns exactly the sets of even size:
   the padding is the remainder, not what is missing. *)
Theorem C82_alignment_refuted iana vendor m s :
  nset_len iana vendor m true s mod 4 = 0 <-> nset_len iana vendor m false s mod 2 = 0.
Proof.
  unfold nset_len, nset_padding. set (n := nset_size iana vendor m s). clearbody n. rewrite N.add_0_r. lia.
Qed.
Print Assumptions C82_alignment_refuted.
Example C82_nonvacuous :
  let sets := [NSTemplate [mkTR 256 [mkSpec 0 8 4]]; NSOptions [mkNO 257 [mkNS IeSystem 4] [mkSpec 0 1 8]]] in
  nheader_ok (mkNP 1000 1700000000 7 1 sets) /\ nsets_ok ex_iana ex_vendor ex_ms nothing nothing sets /\ Forall single sets /\
  (exists c', ex_decode codec_new (ex_write codec_new (ex_npacket sets) ++ [1; 2; 3; 4; 5]) = (c', [1; 2; 3; 4; 5], Packet (ex_npacket sets)) /\
     ex_decode c' (ex_write c' (ex_npacket [NSData 256 [mkND [] [FVal 0 8 (VNum 7)]]; NSData 257 [mkND [NSystem 3] [FVal 0 1 (VNum 9)]]])) =
     (mkC [(256, mkNT [] [mkSpec 0 8 4] 1); (257, mkNT [mkNS IeSystem 4] [mkSpec 0 1 8] 1)] [], [],
      Packet (ex_npacket [NSData 256 [mkND [] [FVal 0 8 (VNum 7)]]; NSData 257 [mkND [NSystem 3] [FVal 0 1 (VNum 9)]]]))).
Proof.
  split; [vm_compute; repeat split|]. split.
  - assert (Hf : forall id t, ex_iana id = Some t -> id < 32768 -> forall len, len < 65536 ->
      legal_length t len -> Forall (spec_ok ex_iana ex_vendor) [mkSpec 0 id len]).
    { intros id t Ht Hid len Hlen Hr. constructor; [|constructor]. split; [exact Hid|]. split; [reflexivity|]. split; [exact Hlen|].
      unfold legal_spec; cbn [fs_pen fs_id fs_len N.eqb]. rewrite Ht. exact Hr. }
    split; [split; [discriminate|]; constructor; [|constructor]|].
    { split; [split; [discriminate|reflexivity]|]. split; [|reflexivity].
      apply (Hf 8 TV4); reflexivity. }
    split; [|exact I]. split; [discriminate|]. constructor; [|constructor].
    split; [split; [discriminate|reflexivity]|]. split; [constructor; [|constructor]|].
    { split; [reflexivity|exact I]. }
    apply (Hf 1 TU64); try reflexivity. cbn. lia.
  - split; [repeat constructor; cbn; eauto|]. eexists; split; [vm_compute; reflexivity|vm_compute; reflexivity].
Qed.

(* ---- C83 ---- *)
Theorem C83_own_round_trip_partial millis_ok b :
  exists w, w_value TBool (VBool b) (Some 1) = Ok w /\ reads (p_value millis_ok TBool 1) w (VBool b).
Proof.
  destruct (value_round millis_ok TBool 1 (VBool b)) as (w & H1 & H2 & _); [reflexivity|]. exists w. split; [exact H1|exact H2].
Qed.
Print Assumptions C83_own_round_trip_partial.
(* False is written 0 instead of 2, and 2 is read as true. *)
Theorem C83_false_refuted millis_ok :
  w_value TBool (VBool false) (Some 1) <> Ok (rfc_bool false) /\
  reads (p_value millis_ok TBool 1) (rfc_bool false) (VBool true).
Proof. split; [discriminate|]. intros rest off. reflexivity. Qed.
Print Assumptions C83_false_refuted.
Theorem C83_true_partial millis_ok :
  w_value TBool (VBool true) (Some 1) = Ok (rfc_bool true) /\ reads (p_value millis_ok TBool 1) (rfc_bool true) (VBool true).
Proof. split; [reflexivity|]. intros rest off. reflexivity. Qed.
Print Assumptions C83_true_partial.

(* ---- C84 ---- *)
(* Seconds, milliseconds (what chrono can represent) and, for the two NTP
   types, whole seconds are read back. *)
Theorem C84_time_round_trip_partial millis_ok t len s n :
  t = TSecs \/ t = TMillis \/ t = TMicros \/ t = TNanos -> value_fits millis_ok t len (VTime s n) ->
  exists b, w_value t (VTime s n) (Some len) = Ok b /\ blen b = len /\ reads (p_value millis_ok t len) b (VTime s n).
Proof.
  intros Ht Hf. destruct (value_round millis_ok t len (VTime s n) Hf) as (b & H1 & H2 & H3 & H4).
  exists b. split; [exact H1|]. split; [|exact H2]. apply H4.
  destruct Ht as [ -> |[ -> |[ -> | -> ]]]; cbn in Hf; lia.
Qed.
Print Assumptions C84_time_round_trip_partial.
(* The seconds of the NTP types count from 1900, not from 1970: every such
   time is read 70 years off. *)
Theorem C84_epoch_refuted millis_ok t s : t = TMicros \/ t = TNanos -> s < 4294967296 ->
  exists s', reads (p_value millis_ok t 8) (be_enc 4 s ++ be_enc 4 0) (VTime s' 0) /\ s' = (ntp_secs s + 2208988800)%Z.
Proof.
  intros Ht Hs. exists (Z.of_N s). split; [|unfold ntp_secs; lia].
  destruct (value_round millis_ok t 8 (VTime (Z.of_N s) 0)) as (b & H1 & H2 & _).
  { destruct Ht as [ -> | -> ]; cbn [value_fits]; lia. }
  assert (E : b = be_enc 4 s ++ be_enc 4 0).
  { assert (Es : of_signed 32 (Z.of_N s) = s) by (unfold of_signed; change (Z.of_N 32) with 32%Z; rewrite Z.mod_small by lia; apply N2Z.id).
    destruct Ht as [ -> | -> ]; cbn [w_value] in H1; rewrite Es in H1; injection H1 as <-; reflexivity. }
  subst b. exact H2.
Qed.
Print Assumptions C84_epoch_refuted.
(* The largest fraction is rejected, and a nanosecond or a microsecond written
   is read back as less. *)
Theorem C84_fraction_refuted :
  p_value ex_ms TMicros 8 (mkR (be_enc 4 1700000000 ++ be_enc 4 4294967295) 0) = (mkR [] 8, Err FE_Timestamp) /\
  (forall b, w_value TNanos (VTime 1700000000 1) (Some 8) = Ok b -> p_value ex_ms TNanos 8 (mkR b 0) = (mkR [] 8, Ok (VTime 1700000000 0))) /\
  (forall b, w_value TMicros (VTime 1700000000 1000) (Some 8) = Ok b -> p_value ex_ms TMicros 8 (mkR b 0) = (mkR [] 8, Ok (VTime 1700000000 999))).
Proof. split; [vm_compute; reflexivity|]. split; intros b [= <-]; vm_compute; reflexivity. Qed.
Print Assumptions C84_fraction_refuted.
Example C84_nonvacuous :
  value_fits ex_ms TMillis 8 (VTime (-5) 250000000) /\ value_fits ex_ms TSecs 4 (VTime 1700000000 0) /\
  value_fits ex_ms TMicros 8 (VTime 1700000000 0).
Proof.
  split; [|vm_compute; repeat split; discriminate].
  split; [reflexivity|]. split; [reflexivity|]. split; [reflexivity|]. exists (-4750)%Z.
  split; [reflexivity|]. split; [split; [discriminate|reflexivity]|reflexivity].
Qed.

(* ---- C85 ---- *)
(* A withdrawal is kept as a template without fields: data sets that come
   after it are accepted and their records dropped. *)
Theorem C85_withdrawal_refuted :
  let w := ex_write codec_new (ex_packet 1 [STemplate [mkTR 256 []]]) in
  let (outs, c') := ex_receive codec_new [ex_t; w; ex_d] in
  outs = [Packet (ex_packet 1 [STemplate [ex_tmpl]; SOptions [ex_opts]]); Packet (ex_packet 1 [STemplate [mkTR 256 []]]);
          Packet (ex_packet 1 [SData 256 []])] /\ cached c' 256 = Some ([], []).
Proof. vm_compute. split; reflexivity. Qed.
Print Assumptions C85_withdrawal_refuted.

(* ---- C86 ---- *)
(* Two observation domains use the same template id for different templates:
   the data of the first are decoded with the template of the second. *)
Theorem C86_domains_refuted :
  let t1 := ex_write codec_new (ex_packet 1 [STemplate [mkTR 256 [mkSpec 0 8 4]]]) in
  let t2 := ex_write codec_new (ex_packet 2 [STemplate [mkTR 256 [mkSpec 0 10 4]]]) in
  let d1 := ex_write codec_new (ex_packet 1 [SData 256 [mkDR [] [FVal 0 8 (VNum 167772161)]]]) in
  nth 1 (fst (ex_receive codec_new [t1; d1])) NeedMore = Packet (ex_packet 1 [SData 256 [mkDR [] [FVal 0 8 (VNum 167772161)]]]) /\
  nth 2 (fst (ex_receive codec_new [t1; t2; d1])) NeedMore = Packet (ex_packet 1 [SData 256 [mkDR [] [FVal 0 10 (VNum 167772161)]]]).
Proof. vm_compute. split; reflexivity. Qed.
Print Assumptions C86_domains_refuted.

(* ---- C87 ---- *)
(* Fields of vendors without a registry, and unregistered fields of vendors
   with one, are carried as they are in any fixed length, written and read. *)
Theorem C87_opaque_round_trip_partial iana vendor millis_ok pen id b :
  pen <> 0 -> blen b < 65535 ->
  (vendor pen = None ->
   w_field iana vendor (FUnknown pen id b) (Some (blen b)) = Ok b /\
   reads (p_fspec_field iana vendor millis_ok (mkSpec pen id (blen b))) b (FUnknown pen id b)) /\
  (forall tbl, vendor pen = Some tbl -> tbl id = None ->
   w_field iana vendor (FVal pen id (VBytes b)) (Some (blen b)) = Ok b /\
   reads (p_fspec_field iana vendor millis_ok (mkSpec pen id (blen b))) b (FVal pen id (VBytes b))).
Proof.
  intros Hp Hb.
  assert (Hw : w_text (Some (blen b)) b = b).
  { unfold w_text. replace (blen b =? 65535) with false by lia. unfold w_filled. rewrite N.sub_diag. apply app_nil_r. }
  split; [intros Hv|intros tbl Hv Ht].
  - assert (Hc : classify iana vendor pen id = Some Foreign) by (unfold classify; replace (pen =? 0) with false by lia; now rewrite Hv).
    cbn [w_field]. rewrite Hw. split; [reflexivity|].
    destruct (field_round iana vendor millis_ok (mkSpec pen id (blen b)) (FUnknown pen id b)) as (x & H1 & H2 & _).
    { split; [reflexivity|]. cbn [fs_pen fs_id fs_len]. rewrite Hc. split; [exact Hb|reflexivity]. }
    cbn [w_field fs_len] in H1. rewrite Hw in H1. injection H1 as <-. exact H2.
  - assert (Hc : classify iana vendor pen id = Some VendorUnknown) by (unfold classify; replace (pen =? 0) with false by lia; now rewrite Hv, Ht).
    cbn [w_field]. rewrite Hc, Hw. split; [reflexivity|].
    destruct (field_round iana vendor millis_ok (mkSpec pen id (blen b)) (FVal pen id (VBytes b))) as (x & H1 & H2 & _).
    { split; [reflexivity|]. cbn [fs_pen fs_id fs_len]. rewrite Hc. right. split; [exact Hb|reflexivity]. }
    cbn [w_field fs_len] in H1. rewrite Hc, Hw in H1. injection H1 as <-. exact H2.
Qed.
Print Assumptions C87_opaque_round_trip_partial.
(* A variable-length field of a vendor without a registry is read as 65535
   octets: a record with one is rejected in every message, since those are
   shorter. *)
Theorem C87_variable_length_refuted iana vendor millis_ok pen id r :
  pen <> 0 -> vendor pen = None -> blen (rbuf r) < 65535 ->
  exists e, p_fspec_field iana vendor millis_ok (mkSpec pen id 65535) r = (r, Err e).
Proof.
  intros Hp Hv Hb. unfold p_fspec_field, p_field. cbn [fs_pen fs_id fs_len].
  unfold classify. replace (pen =? 0) with false by lia. rewrite Hv.
  unfold bind, pmap_err, read_bytes. replace (blen (rbuf r) <? 65535) with true by lia. eexists; reflexivity.
Qed.
Print Assumptions C87_variable_length_refuted.
Example C87_nonvacuous : ex_vendor 8 = None /\ (exists tbl, ex_vendor 9 = Some tbl /\ tbl 2 = None) /\
  snd (ex_decode codec_new (ex_write codec_new (ex_packet 1 [STemplate [mkTR 256 [mkSpec 8 5 3; mkSpec 9 2 2]]]))) =
  Packet (ex_packet 1 [STemplate [mkTR 256 [mkSpec 8 5 3; mkSpec 9 2 2]]]).
Proof. split; [reflexivity|]. split; [eexists; split; reflexivity|vm_compute; reflexivity]. Qed.

(* ---- C88 ---- *)
(* One element that is not in the registry and the other template of the same
   set is not learnt from, nor is anything else in the message. *)
Theorem C88_unregistered_refuted :
  ex_iana 999 = None /\
  (let m := ex_write codec_new (ex_packet 1 [STemplate [mkTR 256 [mkSpec 0 8 4; mkSpec 0 999 4]]; STemplate [mkTR 257 [mkSpec 0 8 4]]]) in
   ex_decode codec_new m = (codec_new, [], Rejected (FE_UndefinedIE 999))).
Proof. split; [reflexivity|]. vm_compute. reflexivity. Qed.
Print Assumptions C88_unregistered_refuted.
Theorem C88_any_unregistered_refuted iana vendor id len m off rest : iana id = None -> id < 32768 -> len < 65536 ->
  exists r, p_trec iana vendor m (mkR (w_trec (mkTR 256 [mkSpec 0 id len]) ++ rest) off) = (m, r, Err (FE_UndefinedIE id)).
Proof.
  intros Hi Hid Hlen. unfold w_trec, p_trec. cbn [tr_id tr_fields flat_map]. rewrite <- !app_assoc.
  erewrite sstep by (apply (peek_app (be_enc 2 256) 2); reflexivity).
  rewrite be_val_enc by (vm_compute; reflexivity). change (256 <? 256) with false. cbn iota.
  erewrite sstep by (apply (parses_u16 256); lia).
  change (as_u16 (blen [mkSpec 0 id len])) with 1.
  erewrite sstep by (apply (parses_u16 1); lia).
  assert (Hs : forall x o, exists r, p_fspec iana vendor (mkR (be_enc 2 id ++ be_enc 2 len ++ x) o) = (r, Err (FE_UndefinedIE id))).
  { intros x o. unfold p_fspec.
    assert (Hb : forall A B (p : parser ferr A) (f : A -> parser ferr B) r r' a, p r = (r', Ok a) -> bind p f r = f a r').
    { intros A B p f r r' a E. unfold bind. now rewrite E. }
    erewrite Hb by (apply (parses_map_err _ _ _ _ (parses_u16 id ltac:(lia)))).
    erewrite Hb by (apply (parses_map_err _ _ _ _ (parses_u16 len ltac:(lia)))).
    rewrite land_top by assumption. change (0 =? 0) with true. cbn iota. erewrite Hb by reflexivity. cbn [fst snd].
    unfold classify. change (0 =? 0) with true. cbn iota. rewrite Hi. eexists; reflexivity. }
  unfold sbind, slift. change (N.to_nat 1) with 1%nat. cbn [ptimes]. unfold w_fspec. cbn [fs_pen fs_id fs_len].
  change (0 =? 0) with true. cbn iota. rewrite <- !app_assoc. cbn [app].
  destruct (Hs rest (off + blen (be_enc 2 256) + blen (be_enc 2 1))) as (r & E). exists r. unfold bind. rewrite E. reflexivity.
Qed.
Print Assumptions C88_any_unregistered_refuted.

(* ---- C89 ---- *)
(* A message is rejected for its second set, yet the template of its first one
   replaces the known one: data are decoded differently after it. *)
Theorem C89_rejected_leaves_trace_refuted :
  let bad := [0; 10; 0; 32; 0; 0; 0; 0; 0; 0; 0; 0; 0; 0; 0; 1; 0; 2; 0; 12; 1; 0; 0; 1; 0; 10; 0; 4; 0; 4; 0; 4] in
  let t := ex_write codec_new (ex_packet 1 [STemplate [mkTR 256 [mkSpec 0 8 4]]]) in
  let d := ex_write codec_new (ex_packet 1 [SData 256 [mkDR [] [FVal 0 8 (VNum 5)]]]) in
  fst (ex_receive codec_new [t; bad; d]) =
  [Packet (ex_packet 1 [STemplate [mkTR 256 [mkSpec 0 8 4]]]); Rejected (FE_SetId 4);
   Packet (ex_packet 1 [SData 256 [mkDR [] [FVal 0 10 (VNum 5)]]])].
Proof. vm_compute. reflexivity. Qed.
Print Assumptions C89_rejected_leaves_trace_refuted.

(* ---- C90 ---- *)
(* Missing: values longer than their fixed template length, and fields of
   unknown elements written without a template. *)
Theorem C90_announced_length_partial iana vendor f len b :
  w_field iana vendor f len = Ok b ->
  (forall l, len = Some l -> l <> 65535 -> blen (payload f) <= l) -> (len = None -> ~ unknown_ie iana vendor f) ->
  blen b = field_len iana vendor f len.
Proof. apply written_len. Qed.
Print Assumptions C90_announced_length_partial.
Theorem C90_unknown_refuted iana vendor pen id b : blen b < 255 ->
  field_len iana vendor (FUnknown pen id b) None = blen b /\
  w_field iana vendor (FUnknown pen id b) None = Ok (blen b :: b).
Proof.
  intros H. split; [reflexivity|]. cbn [w_field]. unfold w_text, w_varlen. replace (blen b <? 255) with true by lia. reflexivity.
Qed.
Print Assumptions C90_unknown_refuted.
Example C90_nonvacuous :
  w_field ex_iana ex_vendor (FVal 0 82 (VStr [101; 116; 104])) (Some 5) = Ok [101; 116; 104; 0; 0] /\
  field_len ex_iana ex_vendor (FVal 0 82 (VStr [101; 116; 104])) (Some 5) = 5 /\
  ~ unknown_ie ex_iana ex_vendor (FVal 0 82 (VStr [101; 116; 104])).
Proof. vm_compute. repeat split; discriminate. Qed.

(* ---- C91 ---- *)
(* Two records in a data set count as one for IPFIX, two for NetFlow. *)
Theorem C91_ipfix_count_refuted :
  let c' := snd (ex_receive codec_new [ex_t; ex_d]) in
  snd (ex_decode ex_known ex_d) = Packet (ex_packet 1 [SData 256 [ex_rec; ex_rec]]) /\
  match tget 256 (c_ipfix c') with Some t => t_count t = 1 | None => False end.
Proof. vm_compute. split; reflexivity. Qed.
Print Assumptions C91_ipfix_count_refuted.

(* ---- C92 ---- *)
(* One to three zero octets after the records of a set: accepted after data and
   options templates, rejected after templates. *)
Definition with_padding (b : list N) (k : N) : list N :=
  match b with
  | v1 :: v2 :: _ :: l :: r => v1 :: v2 :: 0 :: (l + k) :: take 15 r ++ [nth 15 r 0 + k] ++ drop 16 r ++ repeat 0 (N.to_nat k)
  | _ => []
  end.
Theorem C92_template_padding_refuted k : 1 <= k <= 3 ->
  let t := ex_write codec_new (ex_packet 1 [STemplate [mkTR 256 [mkSpec 0 8 4]]]) in
  let o := ex_write codec_new (ex_packet 1 [SOptions [ex_opts]]) in
  snd (ex_decode codec_new (with_padding o k)) = Packet (ex_packet 1 [SOptions [ex_opts]]) /\
  (exists e, snd (ex_decode codec_new (with_padding t k)) = Rejected e) /\
  snd (ex_decode ex_known (with_padding ex_d k)) = Packet (ex_packet 1 [SData 256 [ex_rec; ex_rec]]).
Proof.
  intros H. assert (Hk : k = 1 \/ k = 2 \/ k = 3) by lia. destruct Hk as [ -> |[ -> | -> ]];
    (split; [vm_compute; reflexivity|]); (split; [eexists; vm_compute; reflexivity|]); vm_compute; reflexivity.
Qed.
Print Assumptions C92_template_padding_refuted.

(* ---- C93 ---- *)
(* The length field is the length of the message modulo 65536, *)
Theorem C93_length_field_partial iana vendor millis_ok enc dec p : header_ok p ->
  sets_ok iana vendor millis_ok (cached enc) (cached dec) (ip_sets p) ->
  exists b, encode iana vendor enc (Ipfix p) = Ok b /\ version_of b = 10 /\ declared b = blen b mod 65536 /\
            (blen b < 65536 -> declared b = blen b).
Proof.
  intros Hh Hs. destruct (encode_declared iana vendor millis_ok enc dec p Hh Hs) as (b & H1 & H2 & H3 & _).
  exists b. split; [exact H1|]. split; [exact H2|]. split; [exact H3|]. intros Hl. rewrite H3. now apply N.mod_small.
Qed.
Print Assumptions C93_length_field_partial.
(* so a longer message is written without an error and never read back. *)
Theorem C93_oversize_refuted :
  let p := mkIP 1700000000 7 1 (repeat (STemplate [mkTR 256 [mkSpec 0 8 4]]) (N.to_nat 6000)) in
  exists b, encode ex_iana ex_vendor codec_new (Ipfix p) = Ok b /\ blen b = 72016 /\ declared b = 6480 /\
  forall dec dec' rest q, ex_decode dec b = (dec', rest, Packet (Ipfix q)) -> rest <> [].
Proof.
  intros p.
  assert (Hs : Forall (only_templates ex_iana ex_vendor) (ip_sets p)).
  { apply Forall_forall. intros s Hs. apply repeat_spec in Hs. subst s. cbn. constructor; [|constructor].
    split; [split; [discriminate|reflexivity]|]. split; [|reflexivity]. cbn. constructor; [|constructor].
    split; [reflexivity|]. split; [reflexivity|]. split; reflexivity. }
  destruct (encode_declared ex_iana ex_vendor ex_ms codec_new codec_new p) as (b & H1 & H2 & H3 & H4).
  { split; [|split]; reflexivity. }
  { now apply only_templates_ok. }
  exists b. split; [exact H1|].
  assert (Hb : blen b = 72016).
  { rewrite H4. subst p. cbn [ip_sets]. rewrite map_repeat, nsum_repeat, N2Nat.id. reflexivity. }
  split; [exact Hb|]. split; [now rewrite H3, Hb|].
  intros dec dec' rest q E. destruct (C17_ipfix_exact _ _ _ _ _ _ _ _ E) as (used & Hu & Hd & _).
  intros ->. rewrite app_nil_r in Hu. subst used. rewrite H3, Hb in Hd. discriminate Hd.
Qed.
Print Assumptions C93_oversize_refuted.
Example C93_nonvacuous : declared ex_t = blen ex_t /\ declared ex_d = blen ex_d /\ blen ex_d = 44.
Proof. vm_compute. repeat split. Qed.

(* ---- C94 ---- *)
(* A value with as many octets as its fixed template length or fewer is written
   in exactly that length; a longer one is written whole, and with it the set
   has another length than announced. *)
Theorem C94_fixed_size_partial b l : l <> 65535 -> blen b <= l ->
  exists w, w_value TStr (VStr b) (Some l) = Ok w /\ w_value TOctets (VBytes b) (Some l) = Ok w /\
  blen w = l /\ firstn (length b) w = b.
Proof.
  intros Hl Hb. exists (w_filled l b). cbn [w_value]. unfold w_text, w_bytes. replace (l =? 65535) with false by lia.
  split; [reflexivity|]. split; [reflexivity|]. unfold w_filled. split.
  - rewrite blen_app, blen_repeat, N2Nat.id. lia.
  - rewrite firstn_app, firstn_all, Nat.sub_diag. cbn. apply app_nil_r.
Qed.
Print Assumptions C94_fixed_size_partial.
Theorem C94_too_long_refuted b l : l <> 65535 -> l < blen b ->
  w_value TStr (VStr b) (Some l) = Ok b /\ w_value TOctets (VBytes b) (Some l) = Ok b /\
  value_len TStr (VStr b) (Some l) = l /\ value_len TOctets (VBytes b) (Some l) = l.
Proof.
  intros Hl Hb. cbn [w_value value_len]. unfold w_text, w_bytes, bytes_len. replace (l =? 65535) with false by lia.
  unfold w_filled. replace (l - blen b) with 0 by lia. cbn [N.to_nat repeat]. rewrite app_nil_r. repeat split.
Qed.
Print Assumptions C94_too_long_refuted.
(* Seen from outside: the reader gets the value cut short and the octet in
   excess stays in the buffer, in front of the next message. *)
Example C94_nonvacuous :
  let c := snd (ex_receive codec_new [ex_write codec_new (ex_packet 1 [STemplate [mkTR 256 [mkSpec 0 82 2]]])]) in
  (exists b, encode ex_iana ex_vendor c (ex_packet 1 [SData 256 [mkDR [] [FVal 0 82 (VStr [101; 116; 104])]]]) = Ok b /\
   ex_decode c b = (mkC [] [(256, mkT [] [mkSpec 0 82 2] 1)], [104], Packet (ex_packet 1 [SData 256 [mkDR [] [FVal 0 82 (VStr [101; 116])]]]))).
Proof. eexists. split; [vm_compute; reflexivity|vm_compute; reflexivity]. Qed.

(* ---- C95 ---- *)
(* Whatever is received, only legal templates come out of the decoder or stay
   in it: ids from 256 on, elements of the registry or of an enterprise, lengths
   the element's type allows. *)
Theorem C95_only_legal_templates iana vendor millis_ok ds outs c :
  receive iana vendor millis_ok codec_new ds = (outs, c) ->
  Forall (legal_packet iana vendor) outs /\
  (forall i lay, cached c i = Some lay -> legal_template iana vendor (i, lay)) /\
  (forall i lay, ncached c i = Some lay -> legal_ntemplate iana vendor (i, lay)).
Proof.
  intros E. destruct (receive_legal iana vendor millis_ok ds codec_new outs c) as (H1 & H2 & H3); [intros i t Ht; discriminate Ht|intros i t Ht; discriminate Ht|exact E|].
  split; [exact H1|]. unfold cached, ncached. split; intros i lay.
  - destruct (tget i (c_ipfix c)) as [t|] eqn:Et; [|intros X; discriminate X]. intros X; injection X as <-. exact (H2 i t Et).
  - destruct (nget i (c_netflow c)) as [t|] eqn:Et; [|intros X; discriminate X]. intros X; injection X as <-. exact (H3 i t Et).
Qed.
Print Assumptions C95_only_legal_templates.
(* Hence a template record with an illegal field is refused: no packet holding
   one is ever the result. *)
Theorem C95_illegal_refused iana vendor millis_ok ds outs c k p r s :
  receive iana vendor millis_ok codec_new ds = (outs, c) ->
  nth_error outs k = Some (Packet (Ipfix p)) -> In (STemplate [r]) (ip_sets p) -> In s (tr_fields r) ->
  legal_spec iana vendor s /\ 256 <= tr_id r.
Proof.
  intros E Hk Hr Hs. destruct (C95_only_legal_templates _ _ _ _ _ _ E) as (H & _ & _). rewrite Forall_forall in H.
  specialize (H _ (nth_error_In _ _ Hk)). cbn [legal_packet] in H. rewrite Forall_forall in H.
  destruct (H (tr_id r, ([], tr_fields r))) as (H1 & _ & H3).
  { apply in_flat_map. exists (STemplate [r]). split; [exact Hr|]. now left. }
  cbn [fst snd] in *. rewrite Forall_forall in H3. split; [now apply H3|exact H1].
Qed.
Print Assumptions C95_illegal_refused.
Example C95_nonvacuous :
  (exists i lay, cached ex_known i = Some lay /\ length (snd lay) = 3%nat) /\
  (exists e, snd (ex_decode codec_new (ex_write codec_new (ex_packet 1 [STemplate [mkTR 256 [mkSpec 0 8 5]]]))) = Rejected e) /\
  (exists e, snd (ex_decode codec_new (ex_write codec_new (ex_packet 1 [STemplate [mkTR 256 [mkSpec 0 10 0]]]))) = Rejected e) /\
  (exists e, snd (ex_decode codec_new (ex_write codec_new (ex_packet 1 [STemplate [mkTR 255 [mkSpec 0 8 4]]]))) = Rejected e).
Proof.
  split; [exists 256, ([], tr_fields ex_tmpl); split; vm_compute; reflexivity|].
  split; [eexists; vm_compute; reflexivity|]. split; [eexists; vm_compute; reflexivity|]. eexists; vm_compute; reflexivity.
Qed.

(* ---- C96 ---- *)
(* A field received in a fixed length and written again in that length gives
   the octets received, for every type but those below. *)
Theorem C96_same_octets_partial iana vendor millis_ok pen id t len data rest off r f :
  classify iana vendor pen id = Some (Known t) -> lossless t -> legal_length t len -> len <> 65535 ->
  blen data = len -> bytes_ok data = true ->
  p_field iana vendor millis_ok pen id len (mkR (data ++ rest) off) = (r, Ok f) ->
  r = mkR rest (off + len) /\ w_field iana vendor f (Some len) = Ok data.
Proof.
  intros Hc Ht Hl Hv Hd Hb E. unfold p_field in E. rewrite Hc in E. apply bind_ok in E as (r1 & v & E1 & E2).
  apply ret_ok in E2 as [-> ->]. destruct (value_back _ _ _ _ _ _ _ _ Ht Hl Hv Hd Hb E1) as [-> Hw].
  split; [reflexivity|]. cbn [w_field]. rewrite Hc. exact Hw.
Qed.
Print Assumptions C96_same_octets_partial.
(* The TCP flags keep the low octet only: the flag NS is lost. *)
Theorem C96_tcp_flags_refuted millis_ok a b rest off : 0 < a < 256 -> b < 256 ->
  exists v, p_value millis_ok TTcp 2 (mkR ([a; b] ++ rest) off) = (mkR rest (off + 2), Ok v) /\
  w_value TTcp v (Some 2) = Ok [0; b] /\ [0; b] <> [a; b].
Proof.
  intros Ha Hb. exists (VNum b). assert (E : as_u8 (a * 256 + b) = b).
  { unfold as_u8. rewrite N.add_comm, N.mod_add by lia. now apply N.mod_small. }
  split; [|split; [|intros X; injection X as X; lia]].
  - cbn [p_value]. change (2 =? 1) with false. change (2 =? 2) with true. cbn iota. unfold bind, pmap_err, read_u16.
    rewrite read_be_data by reflexivity. cbn [map_err ret]. unfold tcp_flags. change (be_val [a; b]) with (a * 256 + b). now rewrite E.
  - cbn [w_value w_reduced]. change (N.of_nat 2 <? 2) with false. cbn iota. change (N.to_nat 2) with 2%nat.
    rewrite be_enc_2. rewrite N.div_small by assumption. rewrite N.mod_small by lia. rewrite N.mod_small by assumption. reflexivity.
Qed.
Print Assumptions C96_tcp_flags_refuted.
(* A boolean that is neither 0 nor 1, and whatever follows a zero octet in a
   string, are not given back either. *)
Theorem C96_boolean_refuted millis_ok a rest off : 2 <= a < 256 ->
  exists v, p_value millis_ok TBool 1 (mkR ([a] ++ rest) off) = (mkR rest (off + 1), Ok v) /\
  w_value TBool v (Some 1) = Ok [1] /\ [1] <> [a].
Proof.
  intros Ha. exists (VBool true). split; [|split; [reflexivity|intros X; injection X as X; lia]].
  cbn [p_value]. change (negb (1 =? 1)) with false. cbn iota. unfold bind, pmap_err, read_u8. cbn [rbuf roff app map_err ret].
  replace (a =? 0) with false by lia. reflexivity.
Qed.
Print Assumptions C96_boolean_refuted.
Theorem C96_string_refuted millis_ok a rest off : 0 < a < 256 ->
  exists v, p_value millis_ok TStr 2 (mkR ([0; a] ++ rest) off) = (mkR rest (off + 2), Ok v) /\
  w_value TStr v (Some 2) = Ok [0; 0] /\ [0; 0] <> [0; a].
Proof.
  intros Ha. exists (VStr []). split; [|split; [reflexivity|intros X; injection X as X; lia]].
  cbn [p_value]. change (2 =? 65535) with false. cbn iota. unfold bind, pmap_err. rewrite read_bytes_data by reflexivity.
  reflexivity.
Qed.
Print Assumptions C96_string_refuted.
Example C96_nonvacuous :
  classify ex_iana ex_vendor 0 1 = Some (Known TU64) /\ lossless TU64 /\ legal_length TU64 3 /\
  p_field ex_iana ex_vendor ex_ms 0 1 3 (mkR ([1; 226; 64] ++ [9]) 0) = (mkR [9] 3, Ok (FVal 0 1 (VNum 123456))) /\
  p_value ex_ms TI32 2 (mkR [255; 254] 0) = (mkR [] 2, Ok (VInt (-2))) /\
  w_value TI32 (VInt (-2)) (Some 2) = Ok [255; 254].
Proof. split; [reflexivity|]. split; [exact I|]. split; [cbn; lia|]. vm_compute. repeat split. Qed.

(* ---- C97 ---- *)
(* What is left of an IPFIX data set after its last record is thrown away
   whatever it is; NetFlow rejects anything but zeros. *)
Definition with_tail (b : list N) (t : list N) : list N := take (blen b) (with_padding b (blen t)) ++ t.
Definition ex_nknown : codec := snd (ex_receive codec_new [ex_write codec_new (ex_npacket [NSTemplate [mkTR 256 [mkSpec 0 8 4]]])]).
Definition ex_nd (tail : list N) : list N :=
  [0; 9; 0; 1; 0; 0; 3; 232; 101; 83; 241; 0; 0; 0; 0; 7; 0; 0; 0; 1; 1; 0; 0; 8 + blen tail; 10; 0; 0; 1] ++ tail.
Theorem C97_tail_ignored_refuted a :
  snd (ex_decode ex_known (with_tail ex_d [a])) = Packet (ex_packet 1 [SData 256 [ex_rec; ex_rec]]) /\
  (a = 0 -> snd (ex_decode ex_nknown (ex_nd [a])) = Packet (ex_npacket [NSData 256 [mkND [] [FVal 0 8 (VNum 167772161)]]])) /\
  (0 < a -> exists e, snd (ex_decode ex_nknown (ex_nd [a])) = Rejected e).
Proof.
  split; [vm_compute; reflexivity|]. split; [intros ->; vm_compute; reflexivity|].
  intros Ha. destruct a as [|a]; [lia|]. eexists. vm_compute. reflexivity.
Qed.
Print Assumptions C97_tail_ignored_refuted.

(* ---- C98 ---- *)
(* Writing records that follow the templates the codec has received, or whose
   template it does not know, never panics. *)
Theorem C98_no_panic_partial iana vendor millis_ok ds outs c p :
  receive iana vendor millis_ok codec_new ds = (outs, c) ->
  (forall id recs r, In (SData id recs) (ip_sets p) -> In r recs ->
     Forall (typed iana vendor) (dr_scope r ++ dr_fields r) /\
     forall lay, cached c id = Some lay -> follows lay r) ->
  encode iana vendor c (Ipfix p) <> Panic /\ encode iana vendor c (Ipfix p) <> Diverge.
Proof.
  intros E Hp. destruct (receive_legal iana vendor millis_ok ds codec_new outs c) as (_ & H & _); [intros i t Ht; discriminate Ht|intros i t Ht; discriminate Ht|exact E|].
  pose proof (encode_fine iana vendor c p H Hp) as Hf. destruct (encode iana vendor c (Ipfix p)); split; intros X; try discriminate X; contradiction Hf.
Qed.
Print Assumptions C98_no_panic_partial.
(* A record with an unsigned256 where the template has a longer field does. *)
Theorem C98_mismatch_refuted iana vendor c tid t s pen id b x y z :
  classify iana vendor pen id = Some (Known TU256) -> blen b = 32 ->
  tget tid (c_ipfix c) = Some t -> t_scope t = [] -> t_fields t = [s] -> 32 < fs_len s ->
  encode iana vendor c (Ipfix (mkIP x y z [SData tid [mkDR [] [FVal pen id (VBytes b)]]])) = Panic.
Proof.
  intros Hc Hb Ht Hs Hf Hl. cbn [encode]. unfold w_ipkt. cbn [ip_sets wmapm]. unfold w_iset. cbn zeta. cbn [wmapm].
  unfold w_drec. rewrite Ht. cbn [t_scope_lens t_field_lens]. rewrite Hs, Hf. cbn [map dr_scope dr_fields with_lens wmapm rbind].
  unfold wfield. cbn [fst snd w_field]. rewrite Hc. cbn [w_value]. cbn zeta. rewrite Hb. replace (32 <? fs_len s) with true by lia. reflexivity.
Qed.
Print Assumptions C98_mismatch_refuted.
Example C98_nonvacuous :
  (forall lay, cached ex_known 256 = Some lay -> follows lay ex_rec) /\
  (exists b, encode ex_iana ex_vendor ex_known (ex_packet 1 [SData 256 [ex_rec]]) = Ok b /\ blen b = 32) /\
  let iana id := if id =? 500 then Some TU256 else ex_iana id in
  let c := snd (receive iana ex_vendor ex_ms codec_new [ex_write codec_new (ex_packet 1 [STemplate [mkTR 256 [mkSpec 0 82 65535]]])]) in
  classify iana ex_vendor 0 500 = Some (Known TU256) /\ cached c 256 = Some ([], [mkSpec 0 82 65535]).
Proof.
  split; [intros lay E; vm_compute in E; injection E as <-; split; reflexivity|].
  split; [eexists; split; [vm_compute; reflexivity|vm_compute; reflexivity]|]. vm_compute. repeat split.
Qed.
