(* Proofs about the BGP-LS and PREFIX_SID codecs. *)
From Verif Require Import Base BaseLemmas AfModel BgpNlriModel BgpNlriSpec BgpNlriProofs BgpAttrModel BgpAttrSpec
  BgpAttrProofs LsModel LsSpec.
From Coq Require Import Lia ZifyBool ZifyN ZifyNat.

(* ---------------- generic TLV lemmas ---------------- *)
Lemma p_lrd {A} (p : parser perr A) b x : parses p b x -> parses (lrd p) b x.
Proof. apply parses_map_err. Qed.
Lemma p_lrest b : parses_end lrest b b.
Proof.
  intros off. unfold lrest, remaining. cbn [rbuf].
  apply (parses_to_end _ _ _ (p_lrd _ _ _ (parses_bytes b (blen b) eq_refl))).
Qed.
Lemma lrest_ok r r' v : lrest r = (r', Ok v) -> v = rbuf r.
Proof.
  unfold lrest, remaining. intros H. apply map_err_ok, read_bytes_ok_inv in H as (H & _ & Hl).
  rewrite H in Hl. rewrite blen_app in Hl. assert (rbuf r' = []) as E by (apply blen_0_nil; lia).
  rewrite H, E, app_nil_r. reflexivity.
Qed.
Lemma sum_total {A} (f g : A -> N) xs : (forall x, In x xs -> f x = g x) -> sum_len f xs = total g xs.
Proof.
  unfold total. induction xs as [|x xs IH]; intros H; [reflexivity|].
  cbn [sum_len fold_right map]. rewrite (H x (or_introl eq_refl)). f_equal. apply IH. intros; apply H; now right.
Qed.
Lemma total_in {A} (f : A -> N) xs x : In x xs -> f x <= total f xs.
Proof.
  unfold total. induction xs as [|y xs IH]; cbn [In map fold_right]; [tauto|]. intros [ -> | H]; [lia|].
  specialize (IH H). lia.
Qed.

(* w writes x as as many octets as len says, and p reads them back *)
Definition codec {A} (w : A -> res lw_err (list N)) (len : A -> N) (p : parser ls_err A) (x : A) : Prop :=
  exists b, w x = Ok b /\ blen b = len x /\ parses p b x /\ b <> [].
Lemma codec_each {A} w len (p : parser ls_err A) xs : Forall (codec w len p) xs ->
  exists b, write_each w xs = Ok b /\ blen b = sum_len len xs /\ parses_end (many_all p) b xs.
Proof.
  intros H. set (enc := fun x => match w x with Ok b => b | _ => [] end).
  exists (flat_map enc xs).
  assert (Hw : write_each w xs = Ok (flat_map enc xs) /\ blen (flat_map enc xs) = sum_len len xs).
  { induction H as [|x xs (b & Hb & Hl & _ & _) _ [IH1 IH2]]; [split; reflexivity|].
    cbn [write_each flat_map sum_len fold_right]. unfold enc at 1 3. rewrite Hb, IH1. cbn [rbind].
    rewrite blen_app, Hl, IH2. split; reflexivity. }
  destruct Hw as [Hw1 Hw2]. repeat apply conj; [exact Hw1|exact Hw2|].
  apply parses_many_all. intros x Hx. rewrite Forall_forall in H. destruct (H x Hx) as (b & Hb & _ & Hp & Hn).
  unfold enc. rewrite Hb. split; assumption.
Qed.

Lemma hdr16_ok code len : 4 <= len < 65536 -> hdr16 code len = Ok (be_enc 2 code ++ be_enc 2 (len - 4)).
Proof.
  intros H. unfold hdr16, as_u16. rewrite N.mod_small by lia. replace (len <? 4) with false by lia. reflexivity.
Qed.
Lemma hdr8_ok code len : 3 <= len < 65536 -> hdr8 code len = Ok (code :: be_enc 2 (len - 3)).
Proof.
  intros H. unfold hdr8, as_u16. rewrite N.mod_small by lia. replace (len <? 3) with false by lia. reflexivity.
Qed.
Lemma p_tlv16 {A} (k : N * N * reader -> parser ls_err A) code b x :
  code < 65536 -> blen b < 65536 -> (forall off, parses (k (code, blen b, mkR b off)) [] x) ->
  parses (bind read_tlv16 k) (tlv_octets code b) x.
Proof.
  intros Hc Hb H. unfold read_tlv16, tlv_octets. intros rest off.
  unfold bind at 1.
  assert (P : forall rest off, exists o,
    (do t <- lrd read_u16;; do l <- lrd read_u16;; do d <- lrd (take_slice l);; ret (t, l, d))
      (mkR ((be_enc 2 code ++ be_enc 2 (blen b) ++ b) ++ rest) off)
    = (mkR rest (off + blen (be_enc 2 code ++ be_enc 2 (blen b) ++ b)), Ok (code, blen b, mkR b o))).
  { intros rest' off'. exists (off' + 4).
    unfold bind, lrd. rewrite <- !app_assoc.
    rewrite (parses_map_err LE_Parse _ _ _ (parses_u16 code Hc)).
    rewrite (parses_map_err LE_Parse _ _ _ (parses_u16 (blen b) Hb)).
    unfold pmap_err, take_slice. rewrite (parses_bytes b (blen b) eq_refl). cbn [map_err roff ret].
    rewrite !blen_app, !be_enc_blen.
    replace (off' + N.of_nat 2 + N.of_nat 2) with (off' + 4) by lia.
    unfold ret. f_equal. f_equal. lia. }
  destruct (P rest off) as [o E]. rewrite E. specialize (H o rest). cbn [app] in H. rewrite H.
  f_equal. f_equal. rewrite blen_nil. lia.
Qed.
Lemma p_tlv8 {A} (k : N * N * reader -> parser ls_err A) code b x :
  blen b < 65536 -> (forall off, parses (k (code, blen b, mkR b off)) [] x) ->
  parses (bind read_tlv8 k) (code :: be_enc 2 (blen b) ++ b) x.
Proof.
  intros Hb H rest off. unfold read_tlv8. unfold bind at 1.
  assert (E : exists o,
    (do t <- lrd read_u8;; do l <- lrd read_u16;; do d <- lrd (take_slice l);; ret (t, l, d))
      (mkR ((code :: be_enc 2 (blen b) ++ b) ++ rest) off)
    = (mkR rest (off + blen (code :: be_enc 2 (blen b) ++ b)), Ok (code, blen b, mkR b o))).
  { exists (off + 3). unfold bind, lrd. change ((code :: be_enc 2 (blen b) ++ b) ++ rest) with ([code] ++ (be_enc 2 (blen b) ++ b) ++ rest).
    rewrite <- !app_assoc.
    rewrite (parses_map_err LE_Parse _ _ _ (parses_u8 code)).
    rewrite (parses_map_err LE_Parse _ _ _ (parses_u16 (blen b) Hb)).
    unfold pmap_err, take_slice. rewrite (parses_bytes b (blen b) eq_refl). cbn [map_err roff ret].
    replace (blen (code :: be_enc 2 (blen b) ++ b)) with (3 + blen b) by (rewrite blen_cons, !blen_app, be_enc_blen; lia).
    rewrite be_enc_blen. change (blen [code]) with 1. replace (off + 1 + N.of_nat 2) with (off + 3) by lia.
    unfold ret. f_equal. f_equal. lia. }
  destruct E as [o E]. rewrite E. specialize (H o rest). cbn [app] in H. rewrite H.
  f_equal. f_equal. rewrite blen_nil. lia.
Qed.
Lemma codec16 {A} (k : N * N * reader -> parser ls_err A) code len b x :
  code < 65536 -> len = 4 + blen b -> len < 65536 ->
  (forall off, parses (k (code, blen b, mkR b off)) [] x) ->
  exists o, tlv (hdr16 code len) (Ok b) = Ok o /\ blen o = len /\ parses (bind read_tlv16 k) o x /\ o <> [].
Proof.
  intros Hc Hl Hb H. exists (tlv_octets code b). rewrite hdr16_ok by lia. cbn [tlv rbind].
  replace (len - 4) with (blen b) by lia. unfold tlv_octets at 1 2 4. rewrite app_assoc.
  repeat apply conj.
  - reflexivity.
  - rewrite !blen_app, !be_enc_blen. lia.
  - apply p_tlv16; [lia|lia|exact H].
  - rewrite be_enc_2. discriminate.
Qed.
Lemma codec8 {A} (k : N * N * reader -> parser ls_err A) code len b x :
  len = 3 + blen b -> len < 65536 ->
  (forall off, parses (k (code, blen b, mkR b off)) [] x) ->
  exists o, tlv (hdr8 code len) (Ok b) = Ok o /\ blen o = len /\ parses (bind read_tlv8 k) o x /\ o <> [].
Proof.
  intros Hl Hb H. exists (code :: be_enc 2 (blen b) ++ b). rewrite hdr8_ok by lia. cbn [tlv rbind].
  replace (len - 3) with (blen b) by lia. repeat apply conj.
  - reflexivity.
  - rewrite blen_cons, blen_app, be_enc_blen. lia.
  - apply p_tlv8; [lia|exact H].
  - discriminate.
Qed.
(* what a successful TLV header says about the wire *)
Lemma tlv16_ok r r' c l d : bytes_ok (rbuf r) = true -> read_tlv16 r = (r', Ok (c, l, d)) ->
  rbuf r = tlv_octets c (rbuf d) ++ rbuf r' /\ blen (rbuf d) = l /\ c < 65536 /\ l < 65536 /\ bytes_ok (rbuf d) = true /\ bytes_ok (rbuf r') = true.
Proof.
  unfold read_tlv16. intros Hok H.
  apply bind_ok in H as [t [r1 [H1 H]]]. apply bind_ok in H as [n [r2 [H2 H]]]. apply bind_ok in H as [s [r3 [H3 H]]].
  apply ret_ok in H as [-> H]. inversion H; subst t n s.
  apply map_err_ok, read_be_ok in H1 as (b1 & E1 & _ & L1 & V1).
  apply map_err_ok, read_be_ok in H2 as (b2 & E2 & _ & L2 & V2).
  apply map_err_ok, take_slice_ok in H3 as (E3 & _ & L3 & _).
  rewrite E1, E2, E3, !bytes_ok_app in Hok. repeat (apply andb_true_iff in Hok; destruct Hok as [? Hok]).
  pose proof (be_val_bound b1 H0). pose proof (be_val_bound b2 H1). rewrite L1 in *. rewrite L2 in *.
  change (256 ^ 2) with 65536 in *. repeat apply conj; try lia; try assumption.
  rewrite E1, E2, E3. unfold tlv_octets. rewrite L3, V1, V2.
  replace 2%nat with (length b1) at 1 by (unfold blen in L1; lia).
  replace 2%nat with (length b2) by (unfold blen in L2; lia).
  rewrite !be_enc_val by assumption. now rewrite <- !app_assoc.
Qed.
Lemma tlv8_ok r r' c l d : bytes_ok (rbuf r) = true -> read_tlv8 r = (r', Ok (c, l, d)) ->
  rbuf r = c :: be_enc 2 (blen (rbuf d)) ++ rbuf d ++ rbuf r' /\ blen (rbuf d) = l /\ c < 256 /\ l < 65536 /\ bytes_ok (rbuf d) = true /\ bytes_ok (rbuf r') = true.
Proof.
  unfold read_tlv8. intros Hok H.
  apply bind_ok in H as [t [r1 [H1 H]]]. apply bind_ok in H as [n [r2 [H2 H]]]. apply bind_ok in H as [s [r3 [H3 H]]].
  apply ret_ok in H as [-> H]. inversion H; subst t n s.
  apply map_err_ok, read_u8_ok in H1 as (E1 & _).
  apply map_err_ok, read_be_ok in H2 as (b2 & E2 & _ & L2 & V2).
  apply map_err_ok, take_slice_ok in H3 as (E3 & _ & L3 & _).
  rewrite E1, bytes_ok_cons, E2, E3, !bytes_ok_app in Hok. repeat (apply andb_true_iff in Hok; destruct Hok as [? Hok]).
  pose proof (be_val_bound b2 H1). rewrite L2 in *.
  change (256 ^ 2) with 65536 in *. repeat apply conj; try lia; try assumption.
  rewrite E1, E2, E3. rewrite L3, V2.
  replace 2%nat with (length b2) by (unfold blen in L2; lia).
  rewrite !be_enc_val by assumption. reflexivity.
Qed.
Lemma many_total {A} (p : parser ls_err A) (P : A -> Prop) (f : A -> N) :
  (forall r r' x, bytes_ok (rbuf r) = true -> p r = (r', Ok x) ->
     P x /\ f x + blen (rbuf r') <= blen (rbuf r) /\ bytes_ok (rbuf r') = true) ->
  forall r r' xs, bytes_ok (rbuf r) = true -> many_all p r = (r', Ok xs) ->
    Forall P xs /\ total f xs + blen (rbuf r') <= blen (rbuf r) /\ rbuf r' = [].
Proof.
  intros Hp r r' xs. unfold many_all. generalize (S (length (rbuf r))). intros fuel.
  revert r r' xs. induction fuel as [|fuel IH]; intros r r' xs Hok H; cbn [many] in H.
  - unfold ris_empty in H. destruct (rbuf r) eqn:Eb; inversion H; subst. rewrite Eb. repeat split; [constructor|cbn; lia].
  - unfold ris_empty in H. destruct (rbuf r) eqn:Eb.
    { inversion H; subst. rewrite Eb. repeat split; [constructor|cbn; lia]. }
    rewrite <- Eb in *. apply bind_ok in H as [x [r1 [H1 H2]]]. apply bind_ok in H2 as [ys [r2 [H2 H3]]].
    apply ret_ok in H3 as [-> ->]. apply Hp in H1 as (Hx & Hl & Hok'); [|assumption].
    apply IH in H2 as (Hf & Ht & He); [|assumption]. repeat split.
    + constructor; assumption.
    + unfold total in *. cbn [map fold_right]. lia.
    + exact He.
Qed.
Lemma flag_testbit k f : flag_set (2 ^ k) f = N.testbit f k.
Proof.
  unfold flag_set. rewrite land_pow2. destruct (N.testbit f k); [apply N.eqb_refl|].
  assert (2 ^ k <> 0) by (apply N.pow_nonzero; lia). lia.
Qed.

(* ---------------- BGP-LS attribute: round trip ---------------- *)
Lemma pe_flags (f : N) (k : N -> ls_value) :
  parses_end (do x <- lrd read_u8;; ret (k x)) [f] (k f).
Proof. apply parses_to_end. eapply parses_bind_ret; [apply p_lrd, parses_u8|apply parses_ret]. Qed.
Lemma p_mtids v : Forall (fun i => i < 4096) v -> parses_end parse_mtids (flat_map (be_enc 2) v) v.
Proof.
  intros H. unfold parse_mtids. apply parses_many_all. intros x Hx. rewrite Forall_forall in H. specialize (H x Hx).
  cbv beta in H. split; [|rewrite be_enc_2; discriminate].
  eapply parses_bind_ret; [apply p_lrd, parses_u16; lia|].
  replace (N.land x mtid_mask) with x; [apply parses_ret|].
  change mtid_mask with (2 ^ 12 - 1). rewrite land_mask. symmetry. apply N.mod_small. exact H.
Qed.
Lemma flat_be_len k v : blen (flat_map (be_enc k) v) = N.of_nat k * blen v.
Proof.
  induction v as [|x v IH]; cbn [flat_map]; [rewrite !blen_nil; lia|].
  rewrite blen_app, be_enc_blen, blen_cons, IH. lia.
Qed.
Lemma ls_type_of_code t : ls_type_of (ls_code t) = Some t.
Proof. destruct t as [[]|[]|[]|[]| | | | | | | | | |]; reflexivity. Qed.
Lemma ls_code_assigned t : In (ls_code t) assigned_attribute_codes.
Proof. destruct t as [[]|[]|[]|[]| | | | | | | | | |]; cbn; tauto. Qed.
Lemma assigned_range c : In c assigned_attribute_codes -> 256 <= c < 65536.
Proof. cbn. intros H. repeat (destruct H as [ <- |H]; [lia|]). tauto. Qed.
Lemma ls_code_range t : 256 <= ls_code t < 65536.
Proof. apply assigned_range, ls_code_assigned. Qed.
Lemma ls_type_of_inv c t : ls_type_of c = Some t -> c = ls_code t.
Proof. unfold ls_type_of. intros H. apply find_some in H as [_ H]. lia. Qed.
Lemma ls_type_of_none c : ~ In c assigned_attribute_codes -> ls_type_of c = None.
Proof.
  intros H. destruct (ls_type_of c) as [t|] eqn:E; [|reflexivity]. apply ls_type_of_inv in E. subst c.
  exfalso. apply H, ls_code_assigned.
Qed.
Lemma ls_type_of_none_inv c : ls_type_of c = None -> ~ In c assigned_attribute_codes.
Proof.
  intros H Hin. cbn in Hin. repeat (destruct Hin as [ <- |Hin]; [discriminate H|]). exact Hin.
Qed.
Lemma p_unreserved vs : blen vs = 8 -> Forall u32 vs ->
  parses (times 8 (lrd read_u32)) (flat_map (be_enc 4) vs) vs.
Proof.
  intros Hl Hv. replace 8%nat with (length vs) by (unfold blen in Hl; lia). apply p_times. intros x Hx.
  apply p_lrd, parses_u32. rewrite Forall_forall in Hv. apply Hv, Hx.
Qed.
Lemma p_many_be k vs : (0 < k)%nat -> Forall (fun v => v < 256 ^ N.of_nat k) vs ->
  parses_end (many_all (lrd (read_be (N.of_nat k)))) (flat_map (be_enc k) vs) vs.
Proof.
  intros Hk Hv. apply parses_many_all. intros x Hx. rewrite Forall_forall in Hv. split.
  - apply p_lrd, parses_be, Hv, Hx.
  - intros E. apply (f_equal blen) in E. rewrite be_enc_blen, blen_nil in E. lia.
Qed.
Lemma p_peer_sid s : (match s with
    | SidLabel f w l => octets 3 l /\ N.testbit f 7 = true
    | SidIndex f w i => u32 i /\ N.testbit f 7 = false end) ->
  parses_end (parse_peer_sid (peer_sid_len s)) (enc_peer_sid s) s.
Proof.
  unfold parse_peer_sid, enc_peer_sid, v_flag. change 128 with (2 ^ 7).
  destruct s as [f w l|f w i]; intros [H1 H2]; cbn [peer_sid_len].
  - apply (parses_end_bind _ _ [f] (w :: be_enc 2 0 ++ l) f); [apply p_lrd, parses_u8|].
    apply (parses_end_bind _ _ [w] (be_enc 2 0 ++ l) w); [apply p_lrd, parses_u8|].
    eapply parses_end_bind; [apply p_lrd, parses_u16; lia|]. rewrite flag_testbit, H2. cbn.
    apply parses_to_end. eapply parses_bind_ret; [apply p_lrd, parses_bytes|apply parses_ret].
    symmetry. apply H1.
  - apply (parses_end_bind _ _ [f] (w :: be_enc 2 0 ++ be_enc 4 i) f); [apply p_lrd, parses_u8|].
    apply (parses_end_bind _ _ [w] (be_enc 2 0 ++ be_enc 4 i) w); [apply p_lrd, parses_u8|].
    eapply parses_end_bind; [apply p_lrd, parses_u16; lia|]. rewrite flag_testbit, H2. cbn.
    apply parses_to_end. eapply parses_bind_ret; [apply p_lrd, parses_u32; exact H1|apply parses_ret].
Qed.
Lemma ls_len_spec v : value_in_range v -> ls_len v = 4 + value_octets v.
Proof.
  destruct v as [[]| | |? []| | | | | | | |[]| | |]; intros H; try reflexivity.
Qed.
Lemma ls_codec v : value_in_range v -> name_fits v -> carried v -> 4 + value_octets v < 65536 ->
  codec write_ls_value ls_len parse_ls_value v.
Proof.
  intros Hv Hn (Hp & Hf & Ht) Hl. unfold codec. pose proof (ls_len_spec v Hv) as HL. rewrite <- HL in Hl.
  unfold write_ls_value, parse_ls_value.
  assert (Hgo : forall b t, ls_body v = Ok b -> ls_raw_code v = ls_code t -> blen b = value_octets v ->
            (forall off, parses (parse_ls_body t (blen b) (mkR b off)) [] v) ->
            exists o, tlv (hdr16 (ls_raw_code v) (ls_len v)) (ls_body v) = Ok o /\ blen o = ls_len v /\ parses (do h <- read_tlv16;; (let '(code, len, data) := h in
                match ls_type_of code with
                | Some t => parse_ls_body t len data
                | None => if code <=? 255 then fail (LE_Type code) else on_sub data (do v <- lrest;; ret (LsUnknown code v))
                end)) o v /\ o <> []).
  { intros b t Hb Hc Hbl Hk. rewrite Hb, Hc. apply codec16; [apply ls_code_range|lia|exact Hl|].
    intros off. rewrite ls_type_of_code. apply Hk. }
  destruct v as [k n|k b|k b|k s|vs|e u s c p h|l r|vs|a b c d|vs|vs|a|vs|a b c d e f|c b];
    cbn [value_in_range name_fits is_protection is_forwarding has_tags] in *; try tauto.
  - apply (Hgo (be_enc (num_width k) n) (TNum k)); try reflexivity.
    + destruct k; reflexivity.
    + intros off. cbn [parse_ls_body]. apply parses_on_sub, parses_to_end.
      eapply parses_bind_ret; [apply p_lrd, parses_be|apply parses_ret]. destruct k; exact Hv.
  - apply (Hgo b (TRaw k)); try reflexivity. intros off. cbn [parse_ls_body]. apply parses_on_sub.
    eapply parses_end_bind'; [apply p_lrest|apply parses_ret].
  - apply (Hgo b (TText k)); try reflexivity.
    + cbn [ls_body]. destruct k; [|reflexivity]. replace (255 <? blen b) with false by lia. reflexivity.
    + intros off. cbn [parse_ls_body]. apply parses_on_sub, parses_to_end.
      eapply parses_bind_ret; [apply p_lrd, parses_bytes; reflexivity|]. destruct Hv as [_ ->]. apply parses_ret.
  - apply (Hgo (enc_peer_sid s) (TSid k)); try reflexivity.
    + destruct s as [f w l|f w i]; cbn; [|reflexivity]. destruct Hv as (_ & _ & [Ho _] & _). cbn. rewrite !blen_cons, Ho. reflexivity.
    + intros off. cbn [parse_ls_body]. apply parses_on_sub.
      replace (blen (enc_peer_sid s)) with (peer_sid_len s).
      * eapply parses_end_bind'; [apply p_peer_sid|apply parses_ret]. destruct s; tauto.
      * destruct s as [f w l|f w i]; cbn; [|reflexivity]. destruct Hv as (_ & _ & [Ho _] & _). cbn. rewrite !blen_cons, Ho. reflexivity.
  - destruct Hv as [Hc Hv]. apply (Hgo (flat_map (be_enc 4) vs) TUnreserved); try reflexivity.
    + rewrite flat_be_len. cbn [value_octets]. lia.
    + intros off. cbn [parse_ls_body]. apply parses_on_sub, parses_to_end.
      eapply parses_bind_ret; [apply p_unreserved; assumption|apply parses_ret].
  - apply (Hgo [or_flags [(l, 128); (r, 64)]] TMask); try reflexivity. intros off. cbn [parse_ls_body].
    apply parses_on_sub. pose proof (pe_flags (or_flags [(l, 128); (r, 64)]) (fun f => LsMask (flag_set 128 f) (flag_set 64 f))) as Q.
    destruct l, r; exact Q.
  - apply (Hgo (flat_map (be_enc 4) vs) TSrlg); try reflexivity.
    + rewrite flat_be_len. cbn [value_octets]. lia.
    + intros off. cbn [parse_ls_body]. apply parses_on_sub.
      eapply parses_end_bind'; [apply (p_many_be 4); [lia|exact Hv]|apply parses_ret].
  - apply (Hgo [or_flags [(a, 128); (b, 64); (c, 32); (d, 16)]] TIgpFlags); try reflexivity. intros off. cbn [parse_ls_body].
    apply parses_on_sub.
    pose proof (pe_flags (or_flags [(a, 128); (b, 64); (c, 32); (d, 16)])
      (fun f => LsIgpFlags (flag_set 128 f) (flag_set 64 f) (flag_set 32 f) (flag_set 16 f))) as Q.
    destruct a, b, c, d; exact Q.
  - assert (vs = []) as -> by (destruct vs; [reflexivity|exfalso; apply Ht; discriminate]).
    apply (Hgo [] TRouteTag); try reflexivity. intros off. cbn [parse_ls_body]. intros rest off'. cbn.
    rewrite N.add_0_r. reflexivity.
  - assert (vs = []) as -> by (destruct vs; [reflexivity|exfalso; apply Ht; discriminate]).
    apply (Hgo [] TExtRouteTag); try reflexivity. intros off. cbn [parse_ls_body]. intros rest off'. cbn.
    rewrite N.add_0_r. reflexivity.
  - apply (Hgo (flat_map (be_enc 2) vs) TMtid); try reflexivity.
    + rewrite flat_be_len. cbn [value_octets]. lia.
    + intros off. cbn [parse_ls_body]. apply parses_on_sub.
      eapply parses_end_bind'; [apply p_mtids; exact Hv|apply parses_ret].
  - apply (Hgo [or_flags [(a, 128); (b, 64); (c, 32); (d, 16); (e, 8); (f, 4)]] TNodeFlags); try reflexivity.
    intros off. cbn [parse_ls_body]. apply parses_on_sub.
    pose proof (pe_flags (or_flags [(a, 128); (b, 64); (c, 32); (d, 16); (e, 8); (f, 4)])
      (fun f => LsNodeFlags (flag_set 128 f) (flag_set 64 f) (flag_set 32 f) (flag_set 16 f) (flag_set 8 f) (flag_set 4 f))) as Q.
    destruct a, b, c, d, e, f; exact Q.
  - destruct Hv as (Hc & Hna & Hok). cbn [ls_raw_code ls_body]. apply codec16; [lia|exact HL|exact Hl|].
    intros off. rewrite ls_type_of_none by exact Hna. replace (c <=? 255) with false by lia.
    apply parses_on_sub. eapply parses_end_bind'; [apply p_lrest|apply parses_ret].
Qed.
Lemma fits_lt ext n : fits_length ext n -> n < 65536.
Proof. destruct ext; cbn; lia. Qed.
Lemma length_octets_enc ext n : fits_length ext n -> enc_length ext n = length_octets ext n.
Proof.
  unfold fits_length, length_octets, enc_length. destruct ext; cbn [orb]; intros H.
  - now replace (n + 1 - 1) with n by lia.
  - replace (n + 0) with n by lia. replace (255 <? n) with false by lia. unfold as_u8. rewrite N.mod_small by lia.
    rewrite be_enc_1 by lia. reflexivity.
Qed.
Lemma p_attr {A} ext (p : parser ls_err (list A)) b x : fits_length ext (blen b) -> parses_end p b x ->
  parses (do n <- lrd (read_len ext);; do buf <- lrd (take_slice n);; on_sub buf p) (length_octets ext (blen b) ++ b) x.
Proof.
  intros Hn Hp. rewrite <- length_octets_enc by exact Hn. eapply parses_bind; [apply p_lrd, p_read_len, Hn|].
  rewrite <- (app_nil_r b) at 2. unfold lrd. apply parses_slice; [reflexivity|]. intros off. now apply parses_on_sub.
Qed.
Lemma ls_attr_round ext vs : ls_attr_fits ext vs -> Forall carried vs ->
  exists b, write_ls_attr ext vs = Ok (length_octets ext (attr_octets vs) ++ b) /\ blen b = attr_octets vs /\ parses (parse_ls_attr ext) (length_octets ext (attr_octets vs) ++ b) vs.
Proof.
  intros (Hv & Hn & Hl) Hc. pose proof (fits_lt _ _ Hl) as Hlt.
  assert (Hall : Forall (codec write_ls_value ls_len parse_ls_value) vs).
  { rewrite Forall_forall in *. intros v Hin. apply ls_codec; auto.
    pose proof (total_in (fun v => 4 + value_octets v) vs v Hin). unfold attr_octets in Hlt. cbv beta in *. lia. }
  apply codec_each in Hall as (b & Hw & Hbl & Hp). rewrite Forall_forall in Hv.
  rewrite (sum_total _ (fun v => 4 + value_octets v)) in Hbl by (intros; apply ls_len_spec; auto).
  fold (attr_octets vs) in Hbl. exists b. repeat apply conj.
  - unfold write_ls_attr. rewrite Hw. cbn [rbind].
    rewrite (sum_total _ (fun v => 4 + value_octets v)) by (intros; apply ls_len_spec; auto).
    fold (attr_octets vs). now rewrite length_octets_enc by exact Hl.
  - exact Hbl.
  - rewrite <- Hbl. apply p_attr; [rewrite Hbl; exact Hl|exact Hp].
Qed.

(* ---------------- BGP-LS attribute: what is decoded ---------------- *)
Lemma tag_loop_never fuel w data r r' vs : rbuf data <> [] -> tag_loop fuel w data r = (r', Ok vs) -> False.
Proof.
  intros Hd. revert r r' vs. induction fuel as [|f IH]; intros r r' vs H; cbn [tag_loop] in H;
    unfold ris_empty in H; destruct (rbuf data); try congruence; try discriminate.
  apply bind_ok in H as [v [r1 [_ H]]]. apply bind_ok in H as [ws [r2 [H _]]]. eapply IH, H.
Qed.
Lemma parse_tags_ok w data r r' vs : parse_tags w data r = (r', Ok vs) -> rbuf data = [] /\ vs = [] /\ r' = r.
Proof.
  unfold parse_tags. intros H. destruct (rbuf data) eqn:E.
  - cbn [tag_loop] in H. unfold ris_empty in H. rewrite E in H. inversion H. auto.
  - exfalso. eapply tag_loop_never; [|exact H]. rewrite E. discriminate.
Qed.
Lemma read_be_fits n r r' v : bytes_ok (rbuf r) = true -> read_be n r = (r', Ok v) ->
  v < 256 ^ n /\ blen (rbuf r) = n + blen (rbuf r') /\ bytes_ok (rbuf r') = true.
Proof.
  intros Hok H. apply read_be_ok in H as (b & E & _ & L & ->). rewrite E, bytes_ok_app in Hok.
  apply andb_true_iff in Hok as [H1 H2]. pose proof (be_val_bound b H1). rewrite L in *.
  rewrite E, blen_app, L. auto.
Qed.
Lemma read_u8_fits r r' v : bytes_ok (rbuf r) = true -> read_u8 r = (r', Ok v) ->
  v < 256 /\ blen (rbuf r) = 1 + blen (rbuf r') /\ bytes_ok (rbuf r') = true.
Proof.
  intros Hok H. apply read_u8_ok in H as (E & _). rewrite E, bytes_ok_cons in Hok.
  apply andb_true_iff in Hok as [H1 H2]. rewrite E, blen_cons. repeat split; [lia|assumption].
Qed.
Lemma read_bytes_fits n r r' v : bytes_ok (rbuf r) = true -> read_bytes n r = (r', Ok v) ->
  octets n v /\ blen (rbuf r) = n + blen (rbuf r') /\ bytes_ok (rbuf r') = true.
Proof.
  intros Hok H. apply read_bytes_ok_inv in H as (E & _ & L). rewrite E, bytes_ok_app in Hok.
  apply andb_true_iff in Hok as [H1 H2]. unfold octets. rewrite E, blen_app, L. auto.
Qed.
(* one step of inversion of a read *)
Ltac rinv :=
  repeat match goal with
  | H : bind _ _ _ = (_, Ok _) |- _ => apply bind_ok in H as [? [? [? H]]]
  | H : lrd _ _ = (_, Ok _) |- _ => apply map_err_ok in H
  | H : lnl _ _ = (_, Ok _) |- _ => apply map_err_ok in H
  | H : pmap_err _ _ _ = (_, Ok _) |- _ => apply map_err_ok in H
  | H : ret _ _ = (_, Ok _) |- _ => apply ret_ok in H as [? ?]; subst
  | H : fail _ _ = (_, Ok _) |- _ => apply fail_ok in H; contradiction
  | Hk : bytes_ok (rbuf ?r) = true, H : read_u8 ?r = (_, Ok _) |- _ =>
      apply (read_u8_fits _ _ _ Hk) in H as (? & ? & ?)
  | Hk : bytes_ok (rbuf ?r) = true, H : read_u16 ?r = (_, Ok _) |- _ =>
      apply (read_be_fits _ _ _ _ Hk) in H as (? & ? & ?)
  | Hk : bytes_ok (rbuf ?r) = true, H : read_u32 ?r = (_, Ok _) |- _ =>
      apply (read_be_fits _ _ _ _ Hk) in H as (? & ? & ?)
  | Hk : bytes_ok (rbuf ?r) = true, H : read_u64 ?r = (_, Ok _) |- _ =>
      apply (read_be_fits _ _ _ _ Hk) in H as (? & ? & ?)
  | Hk : bytes_ok (rbuf ?r) = true, H : read_u128 ?r = (_, Ok _) |- _ =>
      apply (read_be_fits _ _ _ _ Hk) in H as (? & ? & ?)
  | Hk : bytes_ok (rbuf ?r) = true, H : read_be _ ?r = (_, Ok _) |- _ =>
      apply (read_be_fits _ _ _ _ Hk) in H as (? & ? & ?)
  | Hk : bytes_ok (rbuf ?r) = true, H : read_bytes _ ?r = (_, Ok _) |- _ =>
      apply (read_bytes_fits _ _ _ _ Hk) in H as (? & ? & ?)
  end.
Lemma mtids_ok r r' v : bytes_ok (rbuf r) = true -> parse_mtids r = (r', Ok v) ->
  Forall (fun i => i < 4096) v /\ 2 * blen v + blen (rbuf r') <= blen (rbuf r).
Proof.
  intros Hok H. unfold parse_mtids in H. apply (many_total _ (fun i => i < 4096) (fun _ => 2)) in H as (H1 & H2 & _).
  - split; [exact H1|]. enough (total (fun _ => 2) v = 2 * blen v) by lia. clear.
    unfold total. induction v as [|x v IH]; [reflexivity|]. cbn [map fold_right]. rewrite blen_cons, IH. lia.
  - clear. intros r r' x Hok H. rinv. repeat apply conj; [|lia|assumption].
    change mtid_mask with (2 ^ 12 - 1). rewrite land_mask. change (2 ^ 12) with 4096. apply N.mod_lt. discriminate.
  - exact Hok.
Qed.
Lemma times_fits n r r' vs : bytes_ok (rbuf r) = true -> times n (lrd read_u32) r = (r', Ok vs) ->
  Forall u32 vs /\ length vs = n /\ 4 * N.of_nat n + blen (rbuf r') = blen (rbuf r).
Proof.
  revert r r' vs. induction n as [|n IH]; intros r r' vs Hok H; cbn [times] in H.
  - rinv. split; [constructor|split; [reflexivity|lia]].
  - rinv. match goal with H : times n _ _ = _ |- _ => apply IH in H as (T1 & T2 & T3); [|assumption] end.
    split; [constructor; assumption|split; [cbn [length]; lia|lia]].
Qed.
Lemma total_const {A} c (v : list A) : total (fun _ => c) v = c * blen v.
Proof. unfold total. induction v as [|x v IH]; cbn [map fold_right]; [unfold blen; cbn [length]; lia|]. rewrite blen_cons, IH. lia. Qed.
Lemma peer_sid_fits len r r' s k : bytes_ok (rbuf r) = true -> parse_peer_sid len r = (r', Ok s) ->
  value_in_range (LsPeerSid k s) /\ value_octets (LsPeerSid k s) = len.
Proof.
  intros Hok H. unfold parse_peer_sid, v_flag in H. change 128 with (2 ^ 7) in H. rinv.
  match goal with H : context [flag_set (2 ^ 7) ?f] |- _ => rewrite flag_testbit in H; destruct (N.testbit f 7) eqn:Ef end;
    cbn [negb] in H; rewrite ?andb_true_r, ?andb_false_r in H.
  - destruct (len =? 7) eqn:El; rinv. cbn. unfold octet. repeat split; try assumption; try lia; apply H.
  - destruct (len =? 8) eqn:El; rinv. cbn. unfold octet, u32. repeat split; try assumption; try lia.
Qed.
Definition decoded_value (v : ls_value) : Prop := value_in_range v /\ ~ has_tags v.
Ltac fin := repeat apply conj; first [exact I|assumption|lia|tauto|congruence|solve [constructor]|change (blen (@nil N)) with 0; lia|apply Forall_nil|unfold blen in *; lia].
Lemma ls_value_decoded r r' v : bytes_ok (rbuf r) = true -> parse_ls_value r = (r', Ok v) ->
  decoded_value v /\ 4 + value_octets v + blen (rbuf r') <= blen (rbuf r) /\ bytes_ok (rbuf r') = true.
Proof.
  intros Hok H. unfold parse_ls_value in H. apply bind_ok in H as [[[c l] d] [r1 [H1 H]]].
  apply tlv16_ok in H1 as (Hb & Hl & Hc & _ & Hd & Hr1); [|exact Hok].
  assert (Hlen : blen (rbuf r) = 4 + blen (rbuf d) + blen (rbuf r1)).
  { rewrite Hb. unfold tlv_octets. rewrite !blen_app, !be_enc_blen. lia. }
  enough (Hgoal : decoded_value v /\ value_octets v <= blen (rbuf d) /\ r' = r1).
  { destruct Hgoal as (G1 & G2 & ->). split; [exact G1|split; [lia|exact Hr1]]. }
  unfold decoded_value.
  destruct (ls_type_of c) as [t|] eqn:Et.
  - destruct t as [k|k|k|k| | | | | | | | | |]; cbn [parse_ls_body] in H;
      try (apply on_sub_ok in H as [-> [s' H]]); rinv; cbn [has_tags].
    + destruct k; cbn in *; unfold u128, u32; fin.
    + match goal with H : lrest d = _ |- _ => apply lrest_ok in H; subst end. cbn. fin.
    + match goal with H : (if ?u then _ else _) _ = _ |- _ => destruct u eqn:Eu end; rinv.
      match goal with H : octets _ _ |- _ => destruct H as [Ho1 Ho2] end.
      cbn. fin.
    + match goal with H : parse_peer_sid _ _ = _ |- _ => apply (peer_sid_fits _ _ _ _ k) in H as [P1 P2]; [|exact Hd] end.
      fin.
    + match goal with H : times 8 _ _ = _ |- _ => apply times_fits in H as (T1 & T2 & T3); [|exact Hd] end.
      cbn. fin.
    + cbn. fin.
    + cbn. fin.
    + match goal with H : many_all _ _ = _ |- _ => apply (many_total _ u32 (fun _ => 4)) in H as (M1 & M2 & _) end.
      * rewrite total_const in M2. cbn. fin.
      * intros. rinv. repeat apply conj; [assumption|lia|assumption].
      * exact Hd.
    + cbn. fin.
    + match goal with H : parse_tags _ _ _ = _ |- _ => apply parse_tags_ok in H as (T1 & -> & ->) end.
      cbn. fin.
    + match goal with H : parse_tags _ _ _ = _ |- _ => apply parse_tags_ok in H as (T1 & -> & ->) end.
      cbn. fin.
    + destruct (l =? 4) eqn:E4; rinv.
      * cbn. unfold octets in *. fin.
      * destruct (l =? 16) eqn:E16; rinv. cbn. unfold octets in *. fin.
    + match goal with H : parse_mtids _ = _ |- _ => apply mtids_ok in H as [M1 M2]; [|exact Hd] end.
      cbn. fin.
    + cbn. fin.
  - destruct (c <=? 255) eqn:E; [apply fail_ok in H; contradiction|]. apply on_sub_ok in H as [-> [s' H]]. rinv.
    match goal with H : lrest d = _ |- _ => apply lrest_ok in H; subst end. cbn -[assigned_attribute_codes].
    pose proof (ls_type_of_none_inv c Et); fin.
Qed.
Lemma read_len_ok ext r r' n : bytes_ok (rbuf r) = true -> read_len ext r = (r', Ok n) ->
  rbuf r = length_octets ext n ++ rbuf r' /\ fits_length ext n /\ bytes_ok (rbuf r') = true.
Proof.
  intros Hok. unfold read_len, length_octets, fits_length. destruct ext; intros H.
  - pose proof H as H0. apply (read_be_fits 2) in H0 as (H1 & _ & H2); [|exact Hok].
    apply read_be_ok in H as (b & E & _ & L & ->). split; [|split; [exact H1|exact H2]]. rewrite E in Hok |- *. rewrite bytes_ok_app in Hok.
    apply andb_true_iff in Hok as [Hb _]. replace 2%nat with (length b) by (unfold blen in L; lia). now rewrite be_enc_val.
  - pose proof H as H0. apply read_u8_fits in H0 as (H1 & _ & H2); [|exact Hok].
    apply read_u8_ok in H as (E & _). rewrite be_enc_1 by exact H1. split; [exact E|]. split; [lia|exact H2].
Qed.
Lemma attr_decoded {A} ext (p : parser ls_err A) (P : A -> Prop) (f : A -> N) :
  (forall r r' x, bytes_ok (rbuf r) = true -> p r = (r', Ok x) ->
     P x /\ f x + blen (rbuf r') <= blen (rbuf r) /\ bytes_ok (rbuf r') = true) ->
  forall r r' xs, bytes_ok (rbuf r) = true ->
  (do n <- lrd (read_len ext);; do buf <- lrd (take_slice n);; on_sub buf (many_all p)) r = (r', Ok xs) ->
  Forall P xs /\ exists body, rbuf r = length_octets ext (blen body) ++ body ++ rbuf r' /\
    fits_length ext (blen body) /\ total f xs <= blen body.
Proof.
  intros Hp r r' xs Hok H. apply bind_ok in H as [n [r1 [H1 H]]]. apply bind_ok in H as [buf [r2 [H2 H]]].
  apply on_sub_ok in H as [-> [s' H]]. apply map_err_ok, read_len_ok in H1 as (E1 & F1 & Hok1); [|exact Hok].
  apply map_err_ok, take_slice_ok in H2 as (E2 & _ & L2 & _).
  assert (Hb : bytes_ok (rbuf buf) = true).
  { rewrite E2, bytes_ok_app in Hok1. now apply andb_true_iff in Hok1. }
  apply (many_total p P f Hp) in H as (M1 & M2 & _); [|exact Hb].
  split; [exact M1|]. exists (rbuf buf). rewrite L2, E1, E2. repeat split; [exact F1|lia].
Qed.
Lemma ls_attr_decoded ext r r' vs : bytes_ok (rbuf r) = true -> parse_ls_attr ext r = (r', Ok vs) ->
  Forall value_in_range vs /\ Forall (fun v => ~ has_tags v) vs /\ fits_length ext (attr_octets vs).
Proof.
  intros Hok H. apply (attr_decoded ext _ decoded_value (fun v => 4 + value_octets v)) in H as (H1 & body & _ & H2 & H3).
  - repeat apply conj.
    + eapply Forall_impl; [|exact H1]. intros v [Hv _]. exact Hv.
    + eapply Forall_impl; [|exact H1]. intros v [_ Hv]. exact Hv.
    + unfold attr_octets. destruct ext; cbn in *; lia.
  - intros. now apply ls_value_decoded.
  - exact Hok.
Qed.

(* ---------------- safety and confinement ---------------- *)
Lemma safe_lrest : safe lrest.
Proof. intros r. unfold lrest. apply (safe_map_err LE_Parse _ (safe_bytes (remaining r)) r). Qed.
Lemma safe_tlv16 : safe read_tlv16. Proof. unfold read_tlv16, lrd. psafe. Qed.
Lemma safe_tlv8 : safe read_tlv8. Proof. unfold read_tlv8, lrd. psafe. Qed.
Lemma strict_tlv16 : strict read_tlv16.
Proof. unfold read_tlv16, lrd. apply strict_bind_l; [apply strict_map_err, strict_be; lia|intros; psafe]. Qed.
Lemma strict_tlv8 : strict read_tlv8.
Proof. unfold read_tlv8, lrd. apply strict_bind_l; [apply strict_map_err, strict_u8|intros; psafe]. Qed.
Lemma safe_mtids : safe parse_mtids.
Proof.
  unfold parse_mtids. apply safe_many_all; unfold lrd; [psafe|].
  apply strict_bind_l; [apply strict_map_err, strict_be; lia|intros; psafe].
Qed.
Lemma tag_loop_safe w data : 0 < w -> forall fuel r, (length (rbuf r) < fuel)%nat ->
  adv r (fst (tag_loop fuel w data r)) /\ no_crash (snd (tag_loop fuel w data r)).
Proof.
  intros Hw. induction fuel as [|f IH]; intros r Hf; [lia|]. cbn [tag_loop].
  destruct (ris_empty data); [split; [apply adv_refl|exact I]|]. unfold bind, lrd.
  pose proof (safe_map_err LE_Parse _ (safe_be w) r) as [Ha Hn].
  pose proof (strict_map_err LE_Parse _ (strict_be w Hw) r) as Hs.
  destruct (pmap_err LE_Parse (read_be w) r) as [r1 [v|e| |]]; cbn [fst snd] in *; try (split; [exact Ha|exact Hn]).
  specialize (Hs v eq_refl). specialize (IH r1 ltac:(lia)).
  destruct (tag_loop f w data r1) as [r2 [vs|e| |]]; cbn [fst snd ret] in *; destruct IH as [I1 I2];
    (split; [eapply adv_trans; eassumption|exact I2]).
Qed.
Lemma safe_tags w data : 0 < w -> safe (parse_tags w data).
Proof. intros Hw r. unfold parse_tags. apply tag_loop_safe; [exact Hw|lia]. Qed.
Lemma safe_peer_sid len : safe (parse_peer_sid len).
Proof. unfold parse_peer_sid, lrd. psafe. Qed.
Lemma safe_ls_body t len data : safe (parse_ls_body t len data).
Proof.
  pose proof safe_lrest. pose proof safe_mtids. pose proof (safe_peer_sid len).
  destruct t; cbn [parse_ls_body]; unfold lrd; psafe.
  all: first [apply safe_times; psafe | apply strict_map_err, strict_be; lia | apply safe_tags; lia].
Qed.
Lemma safe_ls_value : safe parse_ls_value.
Proof.
  pose proof safe_tlv16. pose proof safe_lrest. unfold parse_ls_value. psafe. apply safe_ls_body.
Qed.
Lemma strict_ls_value : strict parse_ls_value.
Proof.
  pose proof safe_lrest. unfold parse_ls_value. apply strict_bind_l; [apply strict_tlv16|]. intros [[c l] d]. psafe. apply safe_ls_body.
Qed.
Lemma safe_attr {A} ext (p : parser ls_err A) : safe p ->
  safe (do n <- lrd (read_len ext);; do buf <- lrd (take_slice n);; on_sub buf p).
Proof.
  intros Hp. unfold lrd. apply safe_bind; [apply safe_map_err, safe_read_len|intros]. psafe.
Qed.
Lemma safe_ls_attr ext : safe (parse_ls_attr ext).
Proof. apply safe_attr, safe_many_all; [apply safe_ls_value|apply strict_ls_value]. Qed.
(* the result depends on the declared octets only *)
Lemma attr_confined {A} ext (p : parser ls_err A) body off : fits_length ext (blen body) ->
  exists x, forall rest,
    (do n <- lrd (read_len ext);; do buf <- lrd (take_slice n);; on_sub buf p)
      (mkR (length_octets ext (blen body) ++ body ++ rest) off)
    = (mkR rest (off + blen (length_octets ext (blen body)) + blen body), x).
Proof.
  intros Hf. exists (snd (p (mkR body (off + blen (length_octets ext (blen body)))))). intros rest.
  rewrite <- length_octets_enc by exact Hf. unfold bind, lrd.
  rewrite (parses_map_err LE_Parse _ _ _ (p_read_len ext (blen body) Hf)).
  unfold pmap_err, take_slice. rewrite (parses_bytes body (blen body) eq_refl). cbn [map_err roff].
  unfold on_sub. reflexivity.
Qed.
