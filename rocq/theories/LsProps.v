(* Properties C146-C153: BGP-LS and PREFIX_SID. *)
From Verif Require Import Base BaseLemmas AfModel BgpNlriModel BgpNlriSpec BgpNlriProofs BgpAttrModel BgpAttrSpec
  LsModel LsSpec LsProofs LsNlriProofs LsFaultProofs LsWireProofs.
From Coq Require Import Lia ZifyBool ZifyN ZifyNat.

(* an answer, whatever the octets, after reading a prefix of them *)
Definition answers {A} (p : parser ls_err A) : Prop := forall r,
  (exists used, rbuf r = used ++ rbuf (fst (p r)) /\ roff (fst (p r)) = roff r + blen used) /\
  snd (p r) <> Panic /\ snd (p r) <> Diverge.
Lemma safe_answers {A} (p : parser ls_err A) : safe p -> answers p.
Proof. intros H r. destruct (H r) as [Ha Hc]. split; [exact Ha|]. destruct (snd (p r)); try destruct Hc; split; discriminate. Qed.

(* C146: a BGP-LS attribute of values in range is written as the RFCs lay it out,
   and read back from that, whatever follows.  Missing: link protection types,
   non-empty route tags and forwarding addresses, see below. *)
Theorem C146_round_trip_partial : forall ext vs, ls_attr_fits ext vs -> Forall carried vs ->
  write_ls_attr ext vs = Ok (attr_wire ext vs) /\
  forall rest off, parse_ls_attr ext (mkR (attr_wire ext vs ++ rest) off) = (mkR rest (off + blen (attr_wire ext vs)), Ok vs).
Proof.
  intros ext vs F C. pose proof (ls_attr_wire ext vs F C) as W. split; [exact W|].
  destruct (ls_attr_round ext vs F C) as (b & W' & _ & P). rewrite W in W'. injection W' as E. rewrite <- E in P. exact P.
Qed.
Print Assumptions C146_round_trip_partial.
(* Refuted: that the other three kinds survive.  Whatever its flags, a link
   protection type is written with a length of two and one octet, which the
   reader refuses; and a peer's well-formed one is read as having no flag set. *)
Theorem C146_protection_refuted : forall ext extra unprotected shared d1c1 d1p1 enhanced,
  let v := LsProtection extra unprotected shared d1c1 d1p1 enhanced in
  (exists b, write_ls_attr ext [v] = Ok b /\ b <> attr_wire ext [v] /\
     forall off, exists r' e, parse_ls_attr ext (mkR b off) = (r', Err e)) /\
  forall rest off, exists r', parse_ls_attr ext (mkR (attr_wire ext [v] ++ rest) off)
    = (r', Ok [LsProtection false false false false false false]) /\ rbuf r' = rest.
Proof.
  intros ext e u s c p h v. split.
  - destruct (protection_written ext e u s c p h) as (f & _ & W). eexists. split; [exact W|]. split.
    + intros E. apply (f_equal blen) in E. revert E. unfold attr_wire, v, attr_octets, total.
      cbn [flat_map map fold_right value_octets attribute_code value_wire]. rewrite !app_nil_r, !blen_app, !blen_tlv16, !be_enc_blen.
      change (4 + 2 + 0) with 6. rewrite !blen_cons, !blen_nil. lia.
    + intros off. apply protection_unreadable.
  - intros rest off. set (w := value_wire v).
    assert (Ew : exists cap, cap < 256 /\ w = [cap; 0]).
    { unfold w, v. cbn [value_wire]. eexists. split; [|reflexivity]. destruct e, u, s, c, p, h; reflexivity. }
    destruct Ew as (cap & Hcap & Ew).
    destruct (attr_single ext (tlv_octets 1093 w) (LsProtection false false false false false false)) with (rest := rest) (off := off)
      as (r' & H & Hr).
    + apply tlv_octets_ne.
    + rewrite blen_tlv16, Ew. destruct ext; reflexivity.
    + intros rest' off'. rewrite Ew. now apply protection_low_octet.
    + exists r'. split; [|exact Hr]. rewrite <- H. f_equal. f_equal. unfold attr_wire. unfold v. cbn [flat_map attribute_code].
      fold v. fold w. rewrite app_nil_r, <- app_assoc. rewrite blen_tlv16, Ew. reflexivity.
Qed.
Print Assumptions C146_protection_refuted.
(* A forwarding address is read back with the number of its octets shifted in. *)
Theorem C146_forwarding_refuted : forall ext a off, ip_fits a ->
  exists b r', write_ls_attr ext [LsForwarding a] = Ok b /\
    parse_ls_attr ext (mkR b off) = (r', Ok [LsForwarding (match a with
      | V4 o => V4 (4 :: take 3 o) | V6 o => V6 (16 :: take 15 o) end)]) /\
    rbuf r' = drop (blen (ip_octets a) - 1) (ip_octets a).
Proof.
  intros ext a off F. destruct (forwarding_shifted ext a _ off F eq_refl) as (b & r' & W & P & R). exists b, r'. repeat split; try assumption.
  rewrite P. destruct a; reflexivity.
Qed.
Print Assumptions C146_forwarding_refuted.
(* No attribute with a route tag in it is ever read, and one that starts with
   tags is refused. *)
Theorem C146_tags_refuted :
  (forall ext r r' vs, bytes_ok (rbuf r) = true -> parse_ls_attr ext r = (r', Ok vs) -> Forall (fun v => ~ has_tags v) vs) /\
  forall ext v vs rest off, has_tags v -> ls_attr_fits ext (v :: vs) ->
    exists r' e, parse_ls_attr ext (mkR (attr_wire ext (v :: vs) ++ rest) off) = (r', Err e).
Proof.
  split.
  - intros ext r r' vs Hok H. now apply ls_attr_decoded in H as (_ & H & _).
  - intros ext v vs rest off T (Hv & Hn & Hf). inversion Hv as [|? ? Hv1 Hv2]; subst.
    set (more := flat_map (fun v => tlv_octets (attribute_code v) (value_wire v)) vs).
    assert (Hb : blen (tlv_octets (attribute_code v) (value_wire v) ++ more) = attr_octets (v :: vs)).
    { unfold more. change (tlv_octets (attribute_code v) (value_wire v) ++ flat_map (fun v => tlv_octets (attribute_code v) (value_wire v)) vs)
        with (flat_map (fun v => tlv_octets (attribute_code v) (value_wire v)) (v :: vs)).
      unfold attr_octets. apply total_wire. intros x Hx. rewrite blen_tlv16. f_equal. apply value_wire_len.
      rewrite Forall_forall in Hv. auto. }
    destruct (tags_attr ext (attribute_code v) (value_wire v) more rest off) as (r' & e & H).
    + destruct v; cbn [has_tags] in T; try contradiction; cbn; auto.
    + destruct v; cbn [has_tags] in T; try contradiction;
        match goal with T : ?l <> [] |- _ => destruct l; [exact (False_ind _ (T eq_refl))|discriminate] end.
    + rewrite Hb. exact Hf.
    + exists r', e. rewrite <- H. f_equal. f_equal. unfold attr_wire. cbn [flat_map]. fold more. rewrite Hb, <- app_assoc. reflexivity.
Qed.
Print Assumptions C146_tags_refuted.
Example C146_nonvacuous :
  let vs := [LsText NodeName [114; 49]; LsMtid [0; 2]; LsNum LocalV4 3232235521; LsSrlg [1; 4294967295];
             LsPeerSid PeerAdj (SidLabel 128 1 [0; 1; 2]); LsRouteTag []; LsUnknown 2000 [255; 0]] in
  ls_attr_fits false vs /\ Forall carried vs /\ ls_attr_fits false (LsRouteTag [7] :: vs) /\ ip_fits (V4 [10; 0; 0; 1]).
Proof.
  cbv zeta.
  assert (F : Forall value_in_range [LsText NodeName [114; 49]; LsMtid [0; 2]; LsNum LocalV4 3232235521; LsSrlg [1; 4294967295];
             LsPeerSid PeerAdj (SidLabel 128 1 [0; 1; 2]); LsRouteTag []; LsUnknown 2000 [255; 0]]).
  { repeat constructor; cbn; try lia. }
  assert (V : value_in_range (LsRouteTag [7])) by (repeat constructor).
  unfold ls_attr_fits. repeat match goal with |- _ /\ _ => split end; try exact F; try reflexivity.
  - repeat (apply Forall_cons; [first [exact I|discriminate]|]). apply Forall_nil.
  - repeat (apply Forall_cons; [unfold carried; cbn; intuition|]). apply Forall_nil.
  - apply Forall_cons; [exact V|exact F].
  - repeat (apply Forall_cons; [first [exact I|discriminate]|]). apply Forall_nil.
  - repeat split.
Qed.

(* C147: any octets give an answer, and the attribute's declared octets are what
   is consumed and all that the answer depends on. *)
Theorem C147_total : forall ext, answers (parse_ls_attr ext).
Proof. intros ext. apply safe_answers, safe_ls_attr. Qed.
Print Assumptions C147_total.
Theorem C147_attribute_confined : forall ext body off, fits_length ext (blen body) ->
  exists x, forall rest, parse_ls_attr ext (mkR (length_octets ext (blen body) ++ body ++ rest) off)
    = (mkR rest (off + blen (length_octets ext (blen body)) + blen body), x).
Proof. intros ext body off H. exact (attr_confined ext (many_all parse_ls_value) body off H). Qed.
Print Assumptions C147_attribute_confined.
(* The same for one value in it.  Missing: route tags, which read past their end
   and then refuse the whole attribute, see C146_tags_refuted. *)
Theorem C147_value_confined_partial : forall code value off, code < 65536 -> blen value < 65536 -> code <> 1153 -> code <> 1154 ->
  exists x, forall rest, parse_ls_value (mkR (tlv_octets code value ++ rest) off) = (mkR rest (off + 4 + blen value), x).
Proof. exact ls_value_confined. Qed.
Print Assumptions C147_value_confined_partial.
Theorem C147_value_confined_refuted : exists code value off, code < 65536 /\ blen value < 65536 /\
  ~ exists r x, forall rest, parse_ls_value (mkR (tlv_octets code value ++ rest) off) = (r, Ok x).
Proof.
  exists 1153, [0; 0; 0; 7], 0. split; [reflexivity|]. split; [reflexivity|]. intros (r & x & H).
  destruct (tags_err 1153 [0; 0; 0; 7] [] 0) as (r' & e & E); [auto|discriminate|reflexivity|]. rewrite H in E. discriminate.
Qed.
Print Assumptions C147_value_confined_refuted.
(* A type code without a meaning of its own is kept with its octets, from 256
   on; below it the attribute is refused. *)
Theorem C147_unknown_codes : forall code value rest off, blen value < 65536 ->
  (256 <= code < 65536 -> ~ In code assigned_attribute_codes -> bytes_ok value = true -> 4 + blen value < 65536 ->
     parse_ls_value (mkR (tlv_octets code value ++ rest) off) = (mkR rest (off + (4 + blen value)), Ok (LsUnknown code value))) /\
  (code <= 255 -> exists r', parse_ls_value (mkR (tlv_octets code value ++ rest) off) = (r', Err (LE_Type code))).
Proof.
  intros code value rest off Hl. split.
  - intros Hc Hn Hv Hs.
    destruct (ls_codec (LsUnknown code value)) as (o & W & _ & P & _).
    + exact (conj Hc (conj Hn Hv)).
    + exact I.
    + repeat split; intros [].
    + cbn. lia.
    + rewrite ls_value_wire in W; [|exact (conj Hc (conj Hn Hv))|exact I|repeat split; intros []|exact Hs].
      injection W as W. cbn [attribute_code value_wire] in W. rewrite <- W in P. rewrite (P rest off), blen_tlv16. reflexivity.
  - intros Hc. now apply low_code.
Qed.
Print Assumptions C147_unknown_codes.
Example C147_nonvacuous : exists code value, 256 <= code < 65536 /\ ~ In code assigned_attribute_codes /\ bytes_ok value = true /\
  4 + blen value < 65536 /\ fits_length true (blen (tlv_octets code value)).
Proof. exists 2000, [255; 0]. repeat split; cbn; try lia; try reflexivity. Qed.

(* C148: an attribute the reader accepts can be written and read again: the same
   values come back.  Missing: link protection types, forwarding addresses and
   node names of more than 255 octets. *)
Theorem C148_echo_partial : forall ext r r' vs, bytes_ok (rbuf r) = true -> parse_ls_attr ext r = (r', Ok vs) ->
  Forall (fun v => ~ is_protection v /\ ~ is_forwarding v /\ name_fits v) vs ->
  exists b, write_ls_attr ext vs = Ok b /\
    forall rest off, parse_ls_attr ext (mkR (b ++ rest) off) = (mkR rest (off + blen b), Ok vs).
Proof.
  intros ext r r' vs Hok H F. apply ls_attr_decoded in H as (Hv & Ht & Hl); [|exact Hok].
  exists (attr_wire ext vs). apply C146_round_trip_partial.
  - repeat split; [exact Hv| |exact Hl]. eapply Forall_impl; [|exact F]. intros v (_ & _ & Hn). exact Hn.
  - rewrite Forall_forall in *. intros v Hin. destruct (F v Hin) as (H1 & H2 & _). repeat split; auto.
Qed.
Print Assumptions C148_echo_partial.
(* Refuted: for a longer node name.  Every one of those is read but cannot be
   written. *)
Theorem C148_long_name_refuted : forall b rest off, 255 < blen b < 65532 -> utf8_ok b = true ->
  exists r', parse_ls_attr true (mkR (length_octets true (4 + blen b) ++ tlv_octets 1026 b ++ rest) off) = (r', Ok [LsText NodeName b]) /\
    write_ls_attr true [LsText NodeName b] = Err (LW_NodeName (blen b)).
Proof.
  intros b rest off Hl Hu. destruct (long_name_attr true b rest off) as (r' & P & _); [cbn; lia|exact Hu|]. exists r'.
  split; [exact P|]. now apply long_name_write.
Qed.
Print Assumptions C148_long_name_refuted.
(* Refuted: that what is written again is what was read.  Octets after a number
   are dropped in silence: here, after any IPv4 router identifier. *)
Theorem C148_unread_octets_refuted : forall n extra rest off, n < 2 ^ 32 -> blen extra < 60000 ->
  exists r', parse_ls_attr true (mkR (length_octets true (8 + blen extra) ++ tlv_octets 1028 (be_enc 4 n ++ extra) ++ rest) off)
    = (r', Ok [LsNum LocalV4 n]) /\ rbuf r' = rest.
Proof.
  intros n extra rest off Hn He.
  destruct (attr_single true (tlv_octets 1028 (be_enc 4 n ++ extra)) (LsNum LocalV4 n)) with (rest := rest) (off := off) as (r' & P & R).
  - apply tlv_octets_ne.
  - rewrite blen_tlv16, blen_app, be_enc_blen. cbn. lia.
  - intros rest' off'. apply (number_read LocalV4 n extra); [exact Hn|lia].
  - exists r'. split; [|exact R]. rewrite <- P. rewrite blen_tlv16, blen_app, be_enc_blen. f_equal. f_equal. f_equal. f_equal. lia.
Qed.
Print Assumptions C148_unread_octets_refuted.
Example C148_nonvacuous :
  (exists r r' vs, bytes_ok (rbuf r) = true /\ parse_ls_attr false r = (r', Ok vs) /\ length vs = 2%nat /\
     Forall (fun v => ~ is_protection v /\ ~ is_forwarding v /\ name_fits v) vs) /\
  255 < blen (repeat 97 (N.to_nat 300)) < 65532 /\ utf8_ok (repeat 97 (N.to_nat 300)) = true.
Proof.
  split.
  - exists (mkR (attr_wire false [LsNum TeMetric 10; LsText NodeName [114; 49]]) 0). eexists. eexists. split; [reflexivity|].
    split; [reflexivity|]. split; [reflexivity|]. repeat (apply Forall_cons; [cbn; split; [tauto|split; [tauto|first [exact I|discriminate]]]|]); apply Forall_nil.
  - rewrite blen_repeat. split; [lia|reflexivity].
Qed.

(* C149: a PREFIX_SID attribute of values in range is written as the RFCs lay it
   out, nested levels included, and read back from that, whatever follows. *)
Theorem C149_round_trip : forall ext ts, prefix_sid_fits ext ts ->
  write_prefix_sid ext ts = Ok (prefix_sid_wire ext ts) /\
  forall rest off, parse_prefix_sid ext (mkR (prefix_sid_wire ext ts ++ rest) off)
    = (mkR rest (off + blen (prefix_sid_wire ext ts)), Ok ts).
Proof.
  intros ext ts F. pose proof (write_prefix_sid_wire ext ts F) as W. split; [exact W|].
  destruct (prefix_sid_round ext ts F) as (b & W' & _ & P). rewrite W in W'. injection W' as E. rewrite <- E in P. exact P.
Qed.
Print Assumptions C149_round_trip.
(* C149: so does everything the reader accepts. *)
Theorem C149_echo : forall ext r r' ts, bytes_ok (rbuf r) = true -> parse_prefix_sid ext r = (r', Ok ts) ->
  exists b, write_prefix_sid ext ts = Ok b /\
    forall rest off, parse_prefix_sid ext (mkR (b ++ rest) off) = (mkR rest (off + blen b), Ok ts).
Proof.
  intros ext r r' ts Hok H. exists (prefix_sid_wire ext ts). apply C149_round_trip. now apply prefix_sid_decoded in H.
Qed.
Print Assumptions C149_echo.
(* Refuted: that what is written again is what was read.  The reserved octet of a
   label index and the octets after it are dropped in silence. *)
Theorem C149_unread_octets_refuted : forall f i reserved extra rest off, u16 f -> u32 i -> blen extra < 60000 ->
  exists r', parse_sid_tlv (mkR (tlv8_octets 1 ([reserved] ++ be_enc 2 f ++ be_enc 4 i ++ extra) ++ rest) off)
    = (r', Ok (SidLabelIndex f i)) /\ rbuf r' = rest.
Proof.
  intros f i r0 extra rest off Hf Hi He. destruct (label_index_read f i r0 extra rest off Hf Hi) as (o & P); [lia|].
  exists (mkR rest o). split; [|reflexivity]. rewrite <- P. f_equal. f_equal. unfold tlv8_octets. cbn [app]. f_equal.
  rewrite <- app_assoc. f_equal. f_equal. rewrite blen_cons, !blen_app, !be_enc_blen. lia.
Qed.
Print Assumptions C149_unread_octets_refuted.
Example C149_nonvacuous :
  prefix_sid_fits false [SidLabelIndex 0 100; SidOriginator 0 [([0; 62; 128], [0; 31; 64])];
    SidL3 0 [SubInfo 0 (2 ^ 127) 0 19 0 [SsStructure 40 24 16 0 16 64; SsUnknown 9 [1]]; SubUnknown 77 []]; SidUnknown 200 [1; 2]] /\
  exists r', parse_prefix_sid false (mkR (prefix_sid_wire false [SidLabelIndex 0 100]) 0) = (r', Ok [SidLabelIndex 0 100]).
Proof.
  split; [|eexists; reflexivity]. split; [|reflexivity].
  repeat constructor; cbn; try lia; try reflexivity.
Qed.

(* C150: any octets give an answer, and the declared octets, of the attribute or
   of one value in it, are what is consumed and all the answer depends on. *)
Theorem C150_total : forall ext, answers (parse_prefix_sid ext).
Proof. intros ext. apply safe_answers, safe_prefix_sid. Qed.
Print Assumptions C150_total.
Theorem C150_attribute_confined : forall ext body off, fits_length ext (blen body) ->
  exists x, forall rest, parse_prefix_sid ext (mkR (length_octets ext (blen body) ++ body ++ rest) off)
    = (mkR rest (off + blen (length_octets ext (blen body)) + blen body), x).
Proof. intros ext body off H. exact (attr_confined ext (many_all parse_sid_tlv) body off H). Qed.
Print Assumptions C150_attribute_confined.
Theorem C150_value_confined : forall code value off, blen value < 65536 ->
  exists x, forall rest, parse_sid_tlv (mkR (tlv8_octets code value ++ rest) off) = (mkR rest (off + 3 + blen value), x).
Proof.
  intros code value off H. destruct (sid_confined code value off H) as (x & E). exists x. intros rest. rewrite <- (E rest).
  unfold tlv8_octets. cbn [app]. now rewrite <- app_assoc.
Qed.
Print Assumptions C150_value_confined.
(* Refuted: that a value of an unrecognised type is passed on (RFC 8669, section
   6): types 0, 2 and 255 make the whole attribute unreadable. *)
Theorem C150_reserved_refuted : forall ext code value more rest off, code = 0 \/ code = 2 \/ code = 255 ->
  let body := tlv8_octets code value ++ more in fits_length ext (blen body) ->
  exists r', parse_prefix_sid ext (mkR (length_octets ext (blen body) ++ body ++ rest) off) = (r', Err (LE_Type code)).
Proof.
  intros ext code value more rest off Hc body Hf. pose proof (fits_lt _ _ Hf) as Hlt.
  assert (Hv : blen value < 65536) by (unfold body in Hlt; rewrite blen_app, blen_tlv8 in Hlt; lia).
  eexists. unfold parse_prefix_sid. rewrite attr_run by exact Hf. f_equal.
  set (o := off + _).
  destruct (sid_reserved code value more o Hc Hv) as (r1 & E).
  assert (E' : parse_sid_tlv (mkR body o) = (r1, Err (LE_Type code))).
  { rewrite <- E. unfold body, tlv8_octets. cbn [app]. now rewrite <- app_assoc. }
  assert (Hne : rbuf (mkR body o) <> []) by (unfold body, tlv8_octets; discriminate).
  destruct (many_all_step parse_sid_tlv (mkR body o) r1 Hne _ E') as (r' & H). rewrite H. reflexivity.
Qed.
Print Assumptions C150_reserved_refuted.
Example C150_nonvacuous : fits_length false (blen (tlv8_octets 2 [1; 2; 3])).
Proof. reflexivity. Qed.

(* C151: a BGP-LS NLRI in range whose prefixes have no bit set after their length
   is written as the RFCs lay it out and read back from that, whatever follows,
   with a path identifier exactly if the session has them. *)
Theorem C151_round_trip : forall ap pid x, path_id_fits ap pid -> ls_nlri_fits x -> nlri_size_fits 0 x ->
  write_ls_nlri (pid, x) = Ok (ls_nlri_wire (pid, x)) /\
  forall rest off, parse_ls_nlri ap (mkR (ls_nlri_wire (pid, x) ++ rest) off)
    = (mkR rest (off + blen (ls_nlri_wire (pid, x))), Ok (pid, x)).
Proof.
  intros ap pid x Hp Hx Hs. pose proof (ls_nlri_wire_ok pid x Hx Hs) as W. split; [exact W|].
  destruct (ls_nlri_round ap pid x Hp Hx Hs) as (b & W' & _ & P & _). rewrite W in W'. injection W' as E. rewrite <- E in P. exact P.
Qed.
Print Assumptions C151_round_trip.
Theorem C151_vpn_round_trip : forall ap pid d x, path_id_fits ap pid -> rd_fits d -> ls_nlri_fits x -> nlri_size_fits 8 x ->
  write_ls_vpn_nlri (pid, d, x) = Ok (ls_vpn_nlri_wire (pid, d, x)) /\
  forall rest off, parse_ls_vpn_nlri ap (mkR (ls_vpn_nlri_wire (pid, d, x) ++ rest) off)
    = (mkR rest (off + blen (ls_vpn_nlri_wire (pid, d, x))), Ok (pid, d, x)).
Proof.
  intros ap pid d x Hp Hd Hx Hs. pose proof (ls_vpn_nlri_wire_ok pid d x Hd Hx Hs) as W. split; [exact W|].
  destruct (ls_vpn_nlri_round ap pid d x Hp Hd Hx Hs) as (b & W' & _ & P & _). rewrite W in W'. injection W' as E. rewrite <- E in P. exact P.
Qed.
Print Assumptions C151_vpn_round_trip.
Example ex_prefix_clean : no_host_bits ([10; 1; 0; 0], 16).
Proof.
  intros i H1 H2. cbn [snd fst] in *. change (8 * blen [10; 1; 0; 0]) with 32 in H2.
  assert (Hc : In i (map N.of_nat (seq 16 16))).
  { replace i with (N.of_nat (N.to_nat i)) by lia. apply in_map. apply in_seq. lia. }
  cbn in Hc. repeat (destruct Hc as [<-|Hc]; [reflexivity|]). contradiction.
Qed.
Example C151_nonvacuous :
  let l := [NsNum NodeAs 65000; NsRouterId [0; 0; 0; 0; 0; 1]; NsUnknown 600 [1]] in
  ls_nlri_fits (LnLink 2 7 l l [LdIds 1 2; LdV6Neighbor (2 ^ 127); LdMtid [2]]) /\
  nlri_size_fits 8 (LnLink 2 7 l l [LdIds 1 2; LdV6Neighbor (2 ^ 127); LdMtid [2]]) /\
  ls_nlri_fits (LnPrefix false 3 0 l [PdRouteType 1; PdReach false ([10; 1; 0; 0], 16)]) /\
  path_id_fits true (Some 4) /\ rd_fits (RdAs2 65000 1).
Proof.
  cbv zeta. repeat split; try (repeat constructor; cbn; try lia; try reflexivity; fail).
  all: repeat constructor; cbn; try lia; try reflexivity; exact ex_prefix_clean.
Qed.

(* C152: any octets give an answer; the declared octets are what is consumed and
   all the answer depends on. *)
Theorem C152_total : forall ap, answers (parse_ls_nlri ap) /\ answers (parse_ls_vpn_nlri ap).
Proof. intros ap. split; apply safe_answers; [apply safe_ls_nlri|apply safe_ls_vpn_nlri]. Qed.
Print Assumptions C152_total.
Theorem C152_confined : forall ap pid code body off, path_id_fits ap pid -> 1 <= code <= 6 -> blen body < 65536 ->
  (exists x, forall rest, parse_ls_nlri ap (mkR (path_id_wire pid ++ tlv_octets code body ++ rest) off)
     = (mkR rest (off + path_id_len pid + 4 + blen body), x)) /\
  (exists x, forall rest, parse_ls_vpn_nlri ap (mkR (path_id_wire pid ++ tlv_octets code body ++ rest) off)
     = (mkR rest (off + path_id_len pid + 4 + blen body), x)).
Proof.
  intros ap pid code body off Hp Hc Hb.
  assert (K : known_nlri_type code = true) by (unfold known_nlri_type; lia).
  assert (E : path_id_wire pid = enc_path_id pid) by (destruct pid; reflexivity). rewrite E. split.
  - exact (nlri_confined_gen ap pid code body (fun pid code => do x <- parse_ls_nlri_value code;; ret (pid, x)) off Hp K Hb).
  - exact (nlri_confined_gen ap pid code body
             (fun pid code => do d <- lnl parse_rd;; do x <- parse_ls_nlri_value code;; ret (pid, d, x)) off Hp K Hb).
Qed.
Print Assumptions C152_confined.
(* C152: what the reader accepts can be written and read again.  Missing: NLRI
   with prefixes that have bits set after their length, see below. *)
Theorem C152_echo_partial : forall ap r r' pid x, bytes_ok (rbuf r) = true -> blen (rbuf r) < 65532 ->
  parse_ls_nlri ap r = (r', Ok (pid, x)) -> nlri_clean x ->
  exists b, write_ls_nlri (pid, x) = Ok b /\
    forall rest off, parse_ls_nlri ap (mkR (b ++ rest) off) = (mkR rest (off + blen b), Ok (pid, x)).
Proof.
  intros ap r r' pid x Hok Hl H C. apply ls_nlri_decoded in H as (Hp & Hx & Hs); [|exact Hok].
  exists (ls_nlri_wire (pid, x)). apply C151_round_trip; [exact Hp|split; assumption|]. unfold nlri_size_fits. lia.
Qed.
Print Assumptions C152_echo_partial.
Theorem C152_vpn_echo_partial : forall ap r r' pid d x, bytes_ok (rbuf r) = true -> blen (rbuf r) < 65532 ->
  parse_ls_vpn_nlri ap r = (r', Ok (pid, d, x)) -> nlri_clean x ->
  exists b, write_ls_vpn_nlri (pid, d, x) = Ok b /\
    forall rest off, parse_ls_vpn_nlri ap (mkR (b ++ rest) off) = (mkR rest (off + blen b), Ok (pid, d, x)).
Proof.
  intros ap r r' pid d x Hok Hl H C. apply ls_vpn_nlri_decoded in H as (Hp & Hd & Hx & Hs); [|exact Hok].
  exists (ls_vpn_nlri_wire (pid, d, x)). apply C151_vpn_round_trip; [exact Hp|exact Hd|split; assumption|]. unfold nlri_size_fits. lia.
Qed.
Print Assumptions C152_vpn_echo_partial.
(* Refuted: for bits after the length of a prefix, which come back cleared. *)
Theorem C152_host_bits_refuted : exists bytes r' x b,
  parse_ls_nlri false (mkR bytes 0) = (r', Ok (None, x)) /\ write_ls_nlri (None, x) = Ok b /\ b <> bytes /\
  exists r'' y, parse_ls_nlri false (mkR b 0) = (r'', Ok (None, y)) /\ y <> x.
Proof.
  exists (tlv_octets 3 ([3] ++ be_enc 8 0 ++ tlv_octets 256 [] ++ tlv_octets 265 [4; 175])).
  eexists. eexists. eexists. split; [lazy; reflexivity|]. split; [lazy; reflexivity|]. split; [discriminate|].
  eexists. eexists. split; [lazy; reflexivity|]. discriminate.
Qed.
Print Assumptions C152_host_bits_refuted.
(* Refuted: that an unknown type of NLRI is skipped by its length (RFC 7752,
   section 3.2): every type outside 1 to 6 is an error. *)
Theorem C152_unknown_type_refuted : forall ap pid code body rest off, path_id_fits ap pid -> code < 65536 -> ~ 1 <= code <= 6 ->
  exists r', parse_ls_nlri ap (mkR (path_id_wire pid ++ tlv_octets code body ++ rest) off) = (r', Err (LE_Type code)).
Proof.
  intros ap pid code body rest off Hp Hc Hk.
  destruct (nlri_unknown_type ap pid code ((be_enc 2 (blen body) ++ body) ++ rest) off Hp Hc Hk) as (r' & H). exists r'.
  rewrite <- H. unfold tlv_octets. rewrite <- !app_assoc. destruct pid; reflexivity.
Qed.
Print Assumptions C152_unknown_type_refuted.
(* Refuted: that what is written again is what was read.  Octets after a node's
   descriptors are dropped in silence. *)
Theorem C152_unread_octets_refuted : forall p i l extra rest off, 1 <= p <= 9 -> u64 i -> Forall node_sub_fits l ->
  21 + total node_sub_octets l + blen extra < 65536 ->
  exists r', parse_ls_nlri false (mkR (tlv_octets 1 (nlri_value_wire (LnNode p i l) ++ extra) ++ rest) off)
    = (r', Ok (None, LnNode p i l)) /\ rbuf r' = rest.
Proof.
  intros p i l extra rest off Hp Hi Hl Hs. destruct (node_trailing p i l extra Hp Hi Hl) as (b & W & P); [lia|].
  assert (Hx : ls_nlri_fits (LnNode p i l)) by (repeat split; try assumption; lia).
  rewrite ls_nlri_wire_ok in W; [|exact Hx|unfold nlri_size_fits; cbn [nlri_octets]; lia].
  assert (Eb : nlri_value_wire (LnNode p i l) = b).
  { assert (T : tlv_octets 1 (nlri_value_wire (LnNode p i l)) = tlv_octets 1 b) by (change (Ok (E := lw_err) (tlv_octets 1 (nlri_value_wire (LnNode p i l))) = Ok (tlv_octets 1 b)) in W; congruence).
    apply (f_equal (skipn 4)) in T. exact T. }
  rewrite Eb. apply P.
Qed.
Print Assumptions C152_unread_octets_refuted.
Example C152_nonvacuous : exists r r' x, bytes_ok (rbuf r) = true /\ blen (rbuf r) < 65532 /\
  parse_ls_nlri true r = (r', Ok (Some 4, x)) /\ nlri_clean x /\ x = LnPrefix false 3 0 [NsNum NodeAs 65000] [PdReach false ([10; 1; 0; 0], 16)].
Proof.
  exists (mkR (ls_nlri_wire (Some 4, LnPrefix false 3 0 [NsNum NodeAs 65000] [PdReach false ([10; 1; 0; 0], 16)])) 0).
  eexists. eexists. split; [reflexivity|]. split; [reflexivity|]. split; [lazy; reflexivity|]. split; [|reflexivity].
  repeat constructor. exact ex_prefix_clean.
Qed.

(* C153: each value is written with a length field that is the number of octets
   that follow it.  Missing: values of 65532 octets and more, see below. *)
Theorem C153_length_field_partial :
  (forall v, value_in_range v -> name_fits v -> carried v -> 4 + value_octets v < 65536 ->
     exists o, write_ls_value v = Ok (tlv_octets (attribute_code v) o) /\ blen o = value_octets v) /\
  (forall s, sid_tlv_fits s -> sid_tlv_octets s < 65536 ->
     exists code o, write_sid_tlv s = Ok (tlv8_octets code o) /\ 3 + blen o = sid_tlv_octets s).
Proof.
  split.
  - intros v H1 H2 H3 H4. exists (value_wire v). split; [now apply ls_value_wire|now apply value_wire_len].
  - intros s H1 H2. rewrite write_sid_tlv_wire by assumption. pose proof (sid_tlv_wire_len s H1) as E.
    destruct s; unfold sid_tlv_wire in *; eexists; eexists; (split; [reflexivity|]); rewrite blen_tlv8 in E; exact E.
Qed.
Print Assumptions C153_length_field_partial.
(* Refuted for the rest: the writer panics on opaque values of 65532 to 65535
   octets, and from 65536 on the length starts again from zero. *)
Theorem C153_oversize_refuted :
  (forall k b, 65532 <= blen b < 65536 -> write_ls_value (LsRaw k b) = Panic) /\
  (forall code b, 65533 <= blen b < 65536 -> write_sid_tlv (SidUnknown code b) = Panic) /\
  (forall k b, 65536 <= blen b < 131068 ->
     write_ls_value (LsRaw k b) = Ok (be_enc 2 (attribute_code (LsRaw k b)) ++ be_enc 2 (blen b - 65536) ++ b)).
Proof.
  split; [exact raw_panics|]. split; [exact sid_panics|]. intros k b H. rewrite raw_wraps by exact H. destruct k; reflexivity.
Qed.
Print Assumptions C153_oversize_refuted.
Example C153_nonvacuous :
  65533 <= blen (repeat 0 (N.to_nat 65534)) < 65536 /\ 65536 <= blen (repeat 0 (N.to_nat 70000)) < 131068 /\
  value_in_range (LsRaw OpaqueNode [1; 2]) /\ sid_tlv_fits (SidUnknown 200 [1; 2]).
Proof. rewrite !blen_repeat. repeat split; try lia; reflexivity. Qed.
