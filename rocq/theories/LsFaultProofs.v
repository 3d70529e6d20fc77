(* What the BGP-LS codecs get wrong: values that do not survive, octets that
   are not read, lengths that wrap. *)
From Verif Require Import Base BaseLemmas AfModel BgpNlriModel BgpNlriSpec BgpNlriProofs BgpAttrModel BgpAttrSpec
  BgpAttrProofs LsModel LsSpec LsProofs LsNlriProofs.
From Coq Require Import Lia ZifyBool ZifyN ZifyNat.

(* an attribute whose body is b, started anywhere *)
Lemma attr_run {A} ext (p : parser ls_err A) body rest off : fits_length ext (blen body) ->
  (do n <- lrd (read_len ext);; do buf <- lrd (take_slice n);; on_sub buf p)
    (mkR (length_octets ext (blen body) ++ body ++ rest) off)
  = (mkR rest (off + blen (length_octets ext (blen body)) + blen body),
     snd (p (mkR body (off + blen (length_octets ext (blen body)))))).
Proof.
  intros Hf. rewrite <- length_octets_enc by exact Hf. unfold bind, lrd.
  rewrite (parses_map_err LE_Parse _ _ _ (p_read_len ext (blen body) Hf)).
  unfold pmap_err, take_slice. rewrite (parses_bytes body (blen body) eq_refl). cbn [map_err roff].
  reflexivity.
Qed.
Lemma many_all_step {A} (p : parser ls_err A) r r1 : rbuf r <> [] ->
  forall x, p r = (r1, x) -> match x with Ok _ => True | _ => exists r', many_all p r = (r', match x with Ok _ => Panic | Err e => Err e | Panic => Panic | Diverge => Diverge end) end.
Proof.
  intros Hr x Hx. destruct x; auto; exists r1; unfold many_all; cbn [many]; unfold ris_empty;
    (destruct (rbuf r); [congruence|]); unfold bind; rewrite Hx; reflexivity.
Qed.
Lemma many_all_one {A} (p : parser ls_err A) b rest off x : b <> [] ->
  (forall off, snd (p (mkR (b ++ rest) off)) = Ok x) -> (forall off, exists o, fst (p (mkR (b ++ rest) off)) = mkR [] o) ->
  snd (many_all p (mkR (b ++ rest) off)) = Ok [x].
Proof.
  intros Hb H1 H2. unfold many_all. cbn [rbuf]. destruct (b ++ rest) as [|z zs] eqn:E.
  - destruct b; [congruence|discriminate].
  - cbn [many ris_empty rbuf length]. specialize (H1 off). destruct (H2 off) as [o H3].
    unfold bind. destruct (p (mkR (z :: zs) off)) as [r1 y]. cbn [fst snd] in *. subst r1 y. reflexivity.
Qed.

(* tags *)
Lemma tags_err code value rest off : code = 1153 \/ code = 1154 -> value <> [] -> blen value < 65536 ->
  exists r' e, parse_ls_value (mkR (tlv_octets code value ++ rest) off) = (r', Err e).
Proof.
  intros Hc Hv Hl.
  pose proof (safe_ls_value (mkR (tlv_octets code value ++ rest) off)) as [_ Hn].
  destruct (parse_ls_value (mkR (tlv_octets code value ++ rest) off)) as [r' [v|e| |]] eqn:E; cbn [snd no_crash] in Hn;
    try contradiction; [exfalso|eauto].
  unfold parse_ls_value in E. apply bind_ok in E as [[[c l] d] [r1 [H1 E]]].
  assert (Hq : parses read_tlv16 (tlv_octets code value) (code, blen value, mkR value 0) -> True) by auto.
  assert (Hd : c = code /\ rbuf d = value).
  { unfold read_tlv16, tlv_octets in H1. rewrite <- !app_assoc in H1. unfold bind, lrd in H1.
    rewrite (parses_map_err LE_Parse _ _ _ (parses_u16 code ltac:(lia))) in H1.
    rewrite (parses_map_err LE_Parse _ _ _ (parses_u16 (blen value) Hl)) in H1.
    unfold pmap_err, take_slice in H1. rewrite (parses_bytes value (blen value) eq_refl) in H1. cbn [map_err roff ret] in H1.
    inversion H1. split; reflexivity. }
  destruct Hd as [-> Hd].
  destruct Hc as [ -> | -> ];
    [change (ls_type_of 1153) with (Some TRouteTag) in E|change (ls_type_of 1154) with (Some TExtRouteTag) in E];
    cbn [parse_ls_body] in E; apply bind_ok in E as [vs [r2 [E _]]]; apply parse_tags_ok in E as (E & _); congruence.
Qed.
Lemma tags_attr ext code value rest more off : code = 1153 \/ code = 1154 -> value <> [] ->
  fits_length ext (blen (tlv_octets code value ++ rest)) ->
  exists r' e, parse_ls_attr ext
    (mkR (length_octets ext (blen (tlv_octets code value ++ rest)) ++ (tlv_octets code value ++ rest) ++ more) off) = (r', Err e).
Proof.
  intros Hc Hv Hf. unfold parse_ls_attr. rewrite attr_run by exact Hf.
  match goal with |- context [many_all _ (mkR _ ?o)] => set (o1 := o) end.
  destruct (tags_err code value rest o1 Hc Hv) as (r1 & e & E).
  { apply fits_lt in Hf. unfold tlv_octets in Hf. rewrite !blen_app in Hf. lia. }
  assert (Hne : rbuf (mkR (tlv_octets code value ++ rest) o1) <> []).
  { cbn [rbuf]. unfold tlv_octets. rewrite be_enc_2. discriminate. }
  destruct (many_all_step parse_ls_value _ r1 Hne (Err e) E) as [r2 H2].
  rewrite H2. eexists. eexists. reflexivity.
Qed.
(* the tlv reader on a value that is one or more octets *)
Lemma tlv_run code value rest off : code < 65536 -> blen value < 65536 ->
  read_tlv16 (mkR (tlv_octets code value ++ rest) off)
  = (mkR rest (off + 4 + blen value), Ok (code, blen value, mkR value (off + 4))).
Proof.
  intros Hc Hl. unfold read_tlv16, tlv_octets. rewrite <- !app_assoc. unfold bind, lrd.
  rewrite (parses_map_err LE_Parse _ _ _ (parses_u16 code Hc)).
  rewrite (parses_map_err LE_Parse _ _ _ (parses_u16 (blen value) Hl)).
  unfold pmap_err, take_slice. rewrite (parses_bytes value (blen value) eq_refl). cbn [map_err roff ret].
  rewrite !be_enc_blen. replace (off + N.of_nat 2 + N.of_nat 2) with (off + 4) by lia. reflexivity.
Qed.
Lemma ls_value_confined code value off : code < 65536 -> blen value < 65536 -> code <> 1153 -> code <> 1154 ->
  exists x, forall rest, parse_ls_value (mkR (tlv_octets code value ++ rest) off) = (mkR rest (off + 4 + blen value), x).
Proof.
  intros Hc Hl H1 H2.
  exists (snd (parse_ls_value (mkR (tlv_octets code value ++ []) off))). intros rest. unfold parse_ls_value, bind.
  rewrite !tlv_run by assumption.
  destruct (ls_type_of code) as [t|] eqn:E.
  - apply ls_type_of_inv in E. destruct t as [k|k|k|k| | | | | | | | | |]; cbn [parse_ls_body ls_code] in *; try congruence; reflexivity.
  - destruct (code <=? 255); reflexivity.
Qed.
Lemma low_code code value rest off : code <= 255 -> blen value < 65536 ->
  exists r', parse_ls_value (mkR (tlv_octets code value ++ rest) off) = (r', Err (LE_Type code)).
Proof.
  intros Hc Hl. unfold parse_ls_value, bind. rewrite tlv_run by lia.
  rewrite ls_type_of_none by (intros H; apply assigned_range in H; lia). replace (code <=? 255) with true by lia.
  eexists. reflexivity.
Qed.

(* protection *)
Lemma protection_written ext e u s c p h : exists f, f < 64 /\
  write_ls_attr ext [LsProtection e u s c p h] = Ok (length_octets ext 6 ++ be_enc 2 1093 ++ be_enc 2 2 ++ [f]).
Proof.
  exists (or_flags [(e, 1); (u, 2); (s, 4); (c, 8); (p, 16); (h, 32)]).
  split; [destruct e, u, s, c, p, h; reflexivity|]. destruct ext; reflexivity.
Qed.
Lemma protection_unreadable ext f off : exists r' er,
  parse_ls_attr ext (mkR (length_octets ext 6 ++ be_enc 2 1093 ++ be_enc 2 2 ++ [f]) off) = (r', Err er).
Proof. destruct ext; eexists; eexists; reflexivity. Qed.
Lemma protection_low_octet cap rest off : cap < 256 ->
  exists o, parse_ls_value (mkR (tlv_octets 1093 [cap; 0] ++ rest) off)
    = (mkR rest o, Ok (LsProtection false false false false false false)).
Proof.
  intros Hc. unfold parse_ls_value, bind. rewrite tlv_run by (try (change (blen [cap; 0]) with 2); lia).
  change (ls_type_of 1093) with (Some TProtection). cbn [parse_ls_body]. unfold on_sub.
  eexists. f_equal. unfold bind, lrd, pmap_err. rewrite <- (app_nil_r [cap; 0]).
  unfold read_u16. rewrite (parses_be_raw [cap; 0] 2 eq_refl). cbn [map_err ret snd].
  assert (Hz : forall k, k < 8 -> flag_set (2 ^ k) (be_val [cap; 0]) = false).
  { intros k Hk. rewrite flag_testbit. rewrite be_val_cons. change (be_val [0]) with 0. change (blen [0]) with 1.
    rewrite N.add_0_r. change (256 ^ 1) with (2 ^ 8). apply N.mul_pow2_bits_low. exact Hk. }
  pose proof (Hz 0 ltac:(lia)). pose proof (Hz 1 ltac:(lia)). pose proof (Hz 2 ltac:(lia)).
  pose proof (Hz 3 ltac:(lia)). pose proof (Hz 4 ltac:(lia)). pose proof (Hz 5 ltac:(lia)).
  change (2 ^ 0) with 1 in *. change (2 ^ 1) with 2 in *. change (2 ^ 2) with 4 in *. change (2 ^ 3) with 8 in *.
  change (2 ^ 4) with 16 in *. change (2 ^ 5) with 32 in *. congruence.
Qed.
(* forwarding address *)
Lemma forwarding_shifted ext a o off : ip_fits a -> o = ip_octets a ->
  exists b r', write_ls_attr ext [LsForwarding a] = Ok b /\
    parse_ls_attr ext (mkR b off) = (r', Ok [LsForwarding (match a with
      | V4 _ => V4 (4 :: take 3 o) | V6 _ => V6 (16 :: take 15 o) end)]) /\ rbuf r' = drop (blen o - 1) o.
Proof.
  intros Ha ->. destruct a as [o|o]; destruct Ha as [Hl _]; unfold blen in Hl.
  - do 4 (destruct o as [|? o]; [exfalso; cbn in Hl; lia|]). destruct o; [|exfalso; cbn in Hl; lia].
    destruct ext; (eexists; eexists; split; [reflexivity|split; [reflexivity|reflexivity]]).
  - do 16 (destruct o as [|? o]; [exfalso; cbn in Hl; lia|]). destruct o; [|exfalso; cbn in Hl; lia].
    destruct ext; (eexists; eexists; split; [reflexivity|split; [reflexivity|reflexivity]]).
Qed.
(* names *)
Lemma long_name_read b rest off : blen b < 65536 -> utf8_ok b = true ->
  exists o, parse_ls_value (mkR (tlv_octets 1026 b ++ rest) off) = (mkR rest o, Ok (LsText NodeName b)).
Proof.
  intros Hl Hu. unfold parse_ls_value, bind. rewrite tlv_run by lia. change (ls_type_of 1026) with (Some (TText NodeName)).
  cbn [parse_ls_body]. unfold on_sub. eexists. f_equal. unfold bind, lrd, pmap_err.
  pose proof (parses_bytes b (blen b) eq_refl [] (off + 4)) as E. rewrite app_nil_r in E. rewrite E. cbn [map_err]. rewrite Hu. reflexivity.
Qed.
Lemma attr_single ext body x : body <> [] -> fits_length ext (blen body) ->
  (forall rest off, exists o, parse_ls_value (mkR (body ++ rest) off) = (mkR rest o, Ok x)) ->
  forall rest off, exists r', parse_ls_attr ext (mkR (length_octets ext (blen body) ++ body ++ rest) off) = (r', Ok [x]) /\ rbuf r' = rest.
Proof.
  intros Hne Hf H rest off. unfold parse_ls_attr. rewrite attr_run by exact Hf.
  eexists. split; [f_equal|reflexivity].
  rewrite <- (app_nil_r body) at 1. apply many_all_one; [exact Hne| |].
  - intros o. destruct (H [] o) as [o' ->]. reflexivity.
  - intros o. destruct (H [] o) as [o' ->]. exists o'. reflexivity.
Qed.
Lemma tlv_octets_ne c b : tlv_octets c b <> [].
Proof. unfold tlv_octets. rewrite be_enc_2. discriminate. Qed.
Lemma long_name_attr ext b rest off : fits_length ext (4 + blen b) -> utf8_ok b = true ->
  exists r', parse_ls_attr ext (mkR (length_octets ext (4 + blen b) ++ tlv_octets 1026 b ++ rest) off)
    = (r', Ok [LsText NodeName b]) /\ rbuf r' = rest.
Proof.
  intros Hf Hu. assert (L : blen (tlv_octets 1026 b) = 4 + blen b) by (unfold tlv_octets; rewrite !blen_app, !be_enc_blen; lia).
  rewrite <- L in *. apply attr_single; [apply tlv_octets_ne|exact Hf|]. intros rest' off'.
  apply long_name_read; [apply fits_lt in Hf; lia|exact Hu].
Qed.
Lemma long_name_write ext b : 255 < blen b < 65532 -> write_ls_attr ext [LsText NodeName b] = Err (LW_NodeName (blen b)).
Proof.
  intros H. unfold write_ls_attr. cbn [write_each]. unfold write_ls_value.
  cbn [ls_raw_code ls_body]. unfold ls_len. rewrite hdr16_ok by lia. cbn [tlv rbind].
  replace (255 <? blen b) with true by lia. reflexivity.
Qed.
(* octets after a number *)
Lemma number_read k n extra rest off : n < 256 ^ N.of_nat (num_width k) -> 16 + blen extra < 65536 ->
  exists o, parse_ls_value (mkR (tlv_octets (ls_code (TNum k)) (be_enc (num_width k) n ++ extra) ++ rest) off)
    = (mkR rest o, Ok (LsNum k n)).
Proof.
  intros Hn Hl. pose proof (ls_code_range (TNum k)). unfold parse_ls_value, bind.
  rewrite tlv_run; [|lia|rewrite blen_app, be_enc_blen; destruct k; cbn [num_width]; lia].
  rewrite ls_type_of_code. cbn [parse_ls_body]. unfold on_sub. eexists. f_equal. unfold bind, lrd, pmap_err.
  rewrite (parses_be (num_width k) n Hn). reflexivity.
Qed.
(* over-long values *)
Lemma raw_panics k b : 65532 <= blen b < 65536 -> write_ls_value (LsRaw k b) = Panic.
Proof.
  intros H. unfold write_ls_value, ls_len, hdr16, as_u16.
  replace ((4 + blen b) mod 65536 <? 4) with true by lia. reflexivity.
Qed.
Lemma raw_wraps k b : 65536 <= blen b < 131068 ->
  write_ls_value (LsRaw k b) = Ok (be_enc 2 (ls_code (TRaw k)) ++ be_enc 2 (blen b - 65536) ++ b).
Proof.
  intros H. unfold write_ls_value, ls_len, hdr16, as_u16.
  replace ((4 + blen b) mod 65536) with (4 + blen b - 65536) by lia.
  replace (4 + blen b - 65536 <? 4) with false by lia. cbn [tlv rbind ls_raw_code ls_body].
  replace (4 + blen b - 65536 - 4) with (blen b - 65536) by lia. now rewrite <- app_assoc.
Qed.
Lemma sid_panics code b : 65533 <= blen b < 65536 -> write_sid_tlv (SidUnknown code b) = Panic.
Proof.
  intros H. unfold write_sid_tlv, sid_tlv_len, hdr8, as_u16.
  replace ((3 + blen b) mod 65536 <? 3) with true by lia. reflexivity.
Qed.
(* PREFIX_SID: reserved and deprecated codes *)
Lemma tlv8_run code value rest off : blen value < 65536 ->
  read_tlv8 (mkR (code :: be_enc 2 (blen value) ++ value ++ rest) off)
  = (mkR rest (off + 3 + blen value), Ok (code, blen value, mkR value (off + 3))).
Proof.
  intros Hl. unfold read_tlv8, bind, lrd.
  rewrite (parses_map_err LE_Parse _ _ _ (parses_u8 code) (be_enc 2 (blen value) ++ value ++ rest)).
  rewrite (parses_map_err LE_Parse _ _ _ (parses_u16 (blen value) Hl)).
  unfold pmap_err, take_slice. rewrite (parses_bytes value (blen value) eq_refl). cbn [map_err roff ret].
  rewrite !be_enc_blen. change (blen [code]) with 1. replace (off + 1 + N.of_nat 2) with (off + 3) by lia. reflexivity.
Qed.
Lemma sid_reserved code value rest off : code = 0 \/ code = 2 \/ code = 255 -> blen value < 65536 ->
  exists r', parse_sid_tlv (mkR (code :: be_enc 2 (blen value) ++ value ++ rest) off) = (r', Err (LE_Type code)).
Proof.
  intros Hc Hl. unfold parse_sid_tlv, bind. rewrite tlv8_run by exact Hl. cbv beta iota.
  destruct Hc as [ -> | [ -> | -> ] ]; eexists; reflexivity.
Qed.
Lemma sid_confined code value off : blen value < 65536 ->
  exists x, forall rest, parse_sid_tlv (mkR (code :: be_enc 2 (blen value) ++ value ++ rest) off)
    = (mkR rest (off + 3 + blen value), x).
Proof.
  intros Hl. exists (snd (parse_sid_tlv (mkR (code :: be_enc 2 (blen value) ++ value ++ []) off))). intros rest.
  unfold parse_sid_tlv, bind. rewrite !tlv8_run by exact Hl. cbv beta iota.
  destruct (code =? 1), (code =? 3), (code =? 5), (code =? 6), ((code =? 0) || (code =? 255) || (code =? 2)); reflexivity.
Qed.
Lemma label_index_read f i r0 extra rest off : u16 f -> u32 i -> 7 + blen extra < 65536 ->
  exists o, parse_sid_tlv (mkR (1 :: be_enc 2 (7 + blen extra) ++ (r0 :: be_enc 2 f ++ be_enc 4 i ++ extra) ++ rest) off)
    = (mkR rest o, Ok (SidLabelIndex f i)).
Proof.
  intros Hf Hi Hl. set (v := r0 :: be_enc 2 f ++ be_enc 4 i ++ extra).
  assert (L : blen v = 7 + blen extra) by (unfold v; rewrite blen_cons, !blen_app, !be_enc_blen; lia).
  rewrite <- L in *. unfold parse_sid_tlv, bind. rewrite tlv8_run by exact Hl. cbv beta iota.
  change (1 =? 1) with true. cbv beta iota. unfold on_sub. eexists. f_equal. unfold v. unfold lrd.
  rewrite (parses_map_err LE_Parse _ _ _ (parses_u8 r0) (be_enc 2 f ++ be_enc 4 i ++ extra)).
  rewrite (parses_map_err LE_Parse _ _ _ (parses_u16 f Hf)).
  rewrite (parses_map_err LE_Parse _ _ _ (parses_u32 i Hi)). reflexivity.
Qed.
(* NLRI types without a meaning *)
Lemma nlri_unknown_type ap pid code rest off : path_id_fits ap pid -> code < 65536 -> ~ 1 <= code <= 6 ->
  exists r', parse_ls_nlri ap (mkR (enc_path_id pid ++ be_enc 2 code ++ rest) off) = (r', Err (LE_Type code)).
Proof.
  intros Hp Hc Hn. unfold parse_ls_nlri, bind. rewrite (p_ls_path_id ap pid Hp). unfold lrd.
  rewrite (parses_map_err LE_Parse _ _ _ (parses_u16 code Hc)). unfold known_nlri_type.
  replace ((1 <=? code) && (code <=? 6)) with false by lia. eexists. reflexivity.
Qed.
(* octets after a node's descriptors *)
Lemma node_trailing p i l extra : 1 <= p <= 9 -> u64 i -> Forall node_sub_fits l -> 17 + total node_sub_octets l + blen extra < 65536 ->
  exists b, write_ls_nlri (None, LnNode p i l) = Ok (tlv_octets 1 b) /\
    forall rest off, exists r', parse_ls_nlri false (mkR (tlv_octets 1 (b ++ extra) ++ rest) off) = (r', Ok (None, LnNode p i l)) /\ rbuf r' = rest.
Proof.
  intros Hp Hi Hl Hs. destruct (descriptors_round 256 l) as (a & Wa & La & Sa & Pa); [auto|exact Hl|lia|].
  exists (p :: be_enc 8 i ++ a).
  assert (Lb : blen (p :: be_enc 8 i ++ a) = 13 + total node_sub_octets l) by (rewrite blen_cons, blen_app, be_enc_blen, La; lia).
  split.
  - cbn [write_ls_nlri]. unfold ls_nlri_len, ls_nlri_code. cbn [write_ls_nlri_value path_id_len]. rewrite Wa, Sa.
    replace (4 + 0 + (9 + (4 + total node_sub_octets l))) with (4 + path_id_len None + (13 + total node_sub_octets l)) by (cbn [path_id_len]; lia).
    unfold nlri_hdr, as_u16. cbn [path_id_len]. rewrite N.mod_small by lia.
    replace (4 + 0 + (13 + total node_sub_octets l) <? 0) with false by lia.
    rewrite hdr16_ok by lia. cbn [tlv rbind enc_path_id app].
    unfold tlv_octets. rewrite Lb. rewrite <- app_assoc.
    replace (4 + 0 + (13 + total node_sub_octets l) - 0 - 4) with (13 + total node_sub_octets l) by lia. reflexivity.
  - intros rest off. unfold parse_ls_nlri, bind, parse_ls_path_id, ret at 1. unfold tlv_octets. rewrite <- !app_assoc. unfold lrd.
    rewrite (parses_map_err LE_Parse _ _ _ (parses_u16 1 ltac:(lia))). change (known_nlri_type 1) with true. cbv beta iota.
    assert (Lx : blen ((p :: be_enc 8 i ++ a) ++ extra) < 65536) by (rewrite blen_app, Lb; lia).
    rewrite (parses_map_err LE_Parse _ _ _ (parses_u16 _ Lx)).
    unfold pmap_err at 1, take_slice. rewrite app_assoc. rewrite (parses_bytes _ _ eq_refl). cbn [map_err roff]. unfold on_sub.
    eexists. split; [f_equal|reflexivity].
    unfold parse_ls_nlri_value. change (1 =? 1) with true. cbv beta iota. unfold bind.
    cbn [app]. unfold parse_protocol at 1, bind at 1. unfold lrd at 1, pmap_err at 1, peek_u8. cbn [rbuf map_err].
    unfold known_protocol. replace ((1 <=? p) && (p <=? 9)) with true by lia.
    unfold bind, lrd. rewrite (parses_map_err LE_Parse _ _ _ (parses_u8 p) ((be_enc 8 i ++ a) ++ extra)). unfold ret at 1.
    rewrite <- app_assoc. rewrite (parses_map_err LE_Parse _ _ _ (parses_u64 i Hi)). rewrite Pa. reflexivity.
Qed.
