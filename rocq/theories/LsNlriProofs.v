(* Proofs about the PREFIX_SID attribute and the BGP-LS NLRI. *)
From Verif Require Import Base BaseLemmas AfModel BgpNlriModel BgpNlriSpec BgpNlriProofs BgpAttrModel BgpAttrSpec
  BgpAttrProofs LsModel LsSpec LsProofs.
From Coq Require Import Lia ZifyBool ZifyN ZifyNat.

(* a sequence of reads over a concatenation, ending where the buffer does *)
Ltac p8 := eapply (parses_end_bind _ _ [_] _); [apply p_lrd, parses_u8|].
Ltac pe_last := apply parses_to_end; eapply parses_bind_ret; [|apply parses_ret].

(* ---------------- PREFIX_SID ---------------- *)
Lemma each_small {A} (w : A -> res lw_err (list N)) len p f xs (P : A -> Prop) :
  (forall x, P x -> len x = f x) ->
  (forall x, P x -> f x < 65536 -> codec w len p x) -> Forall P xs -> total f xs < 65536 ->
  exists b, write_each w xs = Ok b /\ blen b = total f xs /\ sum_len len xs = total f xs /\ parses_end (many_all p) b xs.
Proof.
  intros Hlen Hc HP Ht.
  assert (H : Forall (codec w len p) xs).
  { rewrite Forall_forall in *. intros x Hx. apply Hc; [auto|]. pose proof (total_in f xs x Hx). lia. }
  apply codec_each in H as (b & H1 & H2 & H3). exists b.
  assert (E : sum_len len xs = total f xs).
  { apply sum_total. rewrite Forall_forall in HP. auto. }
  rewrite <- E. auto.
Qed.
Lemma subsub_codec s : subsub_fits s -> subsub_octets s < 65536 -> codec write_subsub subsub_len parse_subsub s.
Proof.
  intros Hs Hl. unfold codec, write_subsub, parse_subsub. destruct s as [a b c d e f|code v].
  - apply codec8; [reflexivity|exact Hl|]. intros off. cbn [fst snd]. change (1 =? 1) with true. cbv beta iota.
    apply parses_on_sub. p8. p8. p8. p8. p8. pe_last. apply p_lrd, parses_u8.
  - cbn in Hs. apply codec8; [reflexivity|exact Hl|]. intros off. cbv beta iota.
    replace (code =? 1) with false by lia. replace (code =? 0) with false by lia. replace (code =? 255) with false by lia.
    cbn [orb]. apply parses_on_sub. eapply parses_end_bind'; [apply p_lrest|apply parses_ret].
Qed.
Lemma subtlv_len_spec s : subtlv_len s = subtlv_octets s.
Proof.
  destruct s as [? ? ? ? ? ss|]; [|reflexivity].
  assert (E : sum_len subsub_len ss = total subsub_octets ss) by (apply sum_total; reflexivity).
  unfold subtlv_len, subtlv_octets. rewrite E. lia.
Qed.
Lemma subtlv_codec s : subtlv_fits s -> subtlv_octets s < 65536 -> codec write_subtlv subtlv_len parse_subtlv s.
Proof.
  intros Hs Hl. unfold codec, write_subtlv, parse_subtlv. rewrite subtlv_len_spec. destruct s as [r1 sid f bh r2 ss|code v].
  - cbn in Hs. destruct Hs as (H1 & H2 & H3 & H4 & H5 & H6). unfold subtlv_octets in Hl |- *.
    destruct (each_small write_subsub subsub_len parse_subsub subsub_octets ss subsub_fits) as (b & W & L & _ & P); auto.
    { exact subsub_codec. }
    { lia. }
    rewrite W. cbn [rbind]. apply codec8; [|exact Hl|].
    + rewrite blen_cons, blen_app, be_enc_blen, blen_cons, blen_app, be_enc_blen, blen_cons, L. lia.
    + intros off. cbv beta iota. change (1 =? 1) with true. cbv beta iota. apply parses_on_sub.
      p8. eapply parses_end_bind; [apply p_lrd, parses_u128; exact H2|]. p8.
      eapply parses_end_bind; [apply p_lrd, parses_u16; exact H4|]. p8.
      eapply parses_end_bind'; [exact P|apply parses_ret].
  - cbn in Hs. apply codec8; [reflexivity|exact Hl|]. intros off. cbv beta iota.
    replace (code =? 1) with false by lia. replace (code =? 0) with false by lia. replace (code =? 255) with false by lia.
    cbn [orb]. apply parses_on_sub. eapply parses_end_bind'; [apply p_lrest|apply parses_ret].
Qed.
Lemma sid_tlv_len_spec s : sid_tlv_len s = sid_tlv_octets s.
Proof.
  assert (Hs : forall ss, sum_len subtlv_len ss = total subtlv_octets ss)
    by (intros; apply sum_total; intros; apply subtlv_len_spec).
  destruct s; unfold sid_tlv_len, sid_tlv_octets; rewrite ?Hs; reflexivity.
Qed.
Lemma srgbs_len bs : Forall (fun b : label * list N => octets 3 (fst b) /\ octets 3 (snd b)) bs ->
  blen (flat_map (fun b => fst b ++ snd b) bs) = 6 * blen bs.
Proof.
  induction 1 as [|[l s] bs [[H1 _] [H2 _]] _ IH]; [reflexivity|]. cbn [flat_map fst snd] in *.
  rewrite !blen_app, H1, H2, IH, blen_cons. lia.
Qed.
Lemma p_srgbs bs : Forall (fun b : label * list N => octets 3 (fst b) /\ octets 3 (snd b)) bs ->
  parses_end (many_all parse_srgb) (flat_map (fun b => fst b ++ snd b) bs) bs.
Proof.
  intros H. apply parses_many_all. intros [l s] Hin. rewrite Forall_forall in H. specialize (H _ Hin).
  cbn [fst snd] in *. destruct H as [[H1 _] [H2 _]]. split.
  - unfold parse_srgb. eapply parses_bind; [apply p_lrd, parses_bytes; auto|].
    eapply parses_bind_ret; [apply p_lrd, parses_bytes; auto|apply parses_ret].
  - destruct l; [cbn in H1; discriminate H1|discriminate].
Qed.
Lemma sid_tlv_codec s : sid_tlv_fits s -> sid_tlv_octets s < 65536 -> codec write_sid_tlv sid_tlv_len parse_sid_tlv s.
Proof.
  intros Hs Hl. unfold codec, write_sid_tlv, parse_sid_tlv. rewrite sid_tlv_len_spec.
  destruct s as [f i|f bs|r1 ss|r1 ss|code v]; unfold sid_tlv_octets in *; cbn [sid_tlv_fits] in *.
  - destruct Hs as [H1 H2]. apply codec8; [reflexivity|exact Hl|]. intros off. cbv beta iota. change (1 =? 1) with true.
    cbv beta iota. apply parses_on_sub. p8. eapply parses_end_bind; [apply p_lrd, parses_u16; exact H1|].
    pe_last. apply p_lrd, parses_u32; exact H2.
  - destruct Hs as [H1 H2]. apply codec8; [|exact Hl|].
    + rewrite blen_app, be_enc_blen, srgbs_len by exact H2. reflexivity.
    + intros off. cbv beta iota. change (3 =? 1) with false. change (3 =? 3) with true. cbv beta iota. apply parses_on_sub.
      eapply parses_end_bind; [apply p_lrd, parses_u16; exact H1|].
      eapply parses_end_bind'; [apply p_srgbs; exact H2|apply parses_ret].
  - destruct Hs as [H1 H2].
    destruct (each_small write_subtlv subtlv_len parse_subtlv subtlv_octets ss subtlv_fits) as (b & W & L & _ & P); auto.
    { intros; apply subtlv_len_spec. }
    { exact subtlv_codec. }
    { lia. }
    rewrite W. cbn [rbind]. apply codec8; [rewrite blen_cons, L; reflexivity|exact Hl|].
    intros off. cbv beta iota. change (5 =? 1) with false. change (5 =? 3) with false. change (5 =? 5) with true.
    cbv beta iota. apply parses_on_sub. p8. eapply parses_end_bind'; [exact P|apply parses_ret].
  - destruct Hs as [H1 H2].
    destruct (each_small write_subtlv subtlv_len parse_subtlv subtlv_octets ss subtlv_fits) as (b & W & L & _ & P); auto.
    { intros; apply subtlv_len_spec. }
    { exact subtlv_codec. }
    { lia. }
    rewrite W. cbn [rbind]. apply codec8; [rewrite blen_cons, L; reflexivity|exact Hl|].
    intros off. cbv beta iota. change (6 =? 1) with false. change (6 =? 3) with false. change (6 =? 5) with false.
    change (6 =? 6) with true.
    cbv beta iota. apply parses_on_sub. p8. eapply parses_end_bind'; [exact P|apply parses_ret].
  - apply codec8; [reflexivity|exact Hl|]. intros off. cbv beta iota.
    replace (code =? 1) with false by lia. replace (code =? 3) with false by lia. replace (code =? 5) with false by lia.
    replace (code =? 6) with false by lia. replace (code =? 0) with false by lia. replace (code =? 255) with false by lia.
    replace (code =? 2) with false by lia.
    cbn [orb]. apply parses_on_sub. eapply parses_end_bind'; [apply p_lrest|apply parses_ret].
Qed.
Lemma prefix_sid_round ext ts : prefix_sid_fits ext ts ->
  exists b, write_prefix_sid ext ts = Ok (length_octets ext (total sid_tlv_octets ts) ++ b) /\
    blen b = total sid_tlv_octets ts /\
    parses (parse_prefix_sid ext) (length_octets ext (total sid_tlv_octets ts) ++ b) ts.
Proof.
  intros [Hf Hl]. pose proof (fits_lt _ _ Hl).
  destruct (each_small write_sid_tlv sid_tlv_len parse_sid_tlv sid_tlv_octets ts sid_tlv_fits) as (b & W & L & S & P); auto.
  { intros; apply sid_tlv_len_spec. }
  { exact sid_tlv_codec. }
  exists b. repeat apply conj.
  - unfold write_prefix_sid. rewrite W, S. cbn [rbind]. now rewrite length_octets_enc by exact Hl.
  - exact L.
  - rewrite <- L. apply p_attr; [rewrite L; exact Hl|exact P].
Qed.
(* what a successful read of one element says *)
Definition decodes {A} (p : parser ls_err A) (P : A -> Prop) (f : A -> N) : Prop :=
  forall r r' x, bytes_ok (rbuf r) = true -> p r = (r', Ok x) ->
    P x /\ f x + blen (rbuf r') <= blen (rbuf r) /\ bytes_ok (rbuf r') = true.
Lemma decodes8 {A} (k : N * N * reader -> parser ls_err A) (P : A -> Prop) (f : A -> N) :
  (forall c d r r' x, c < 256 -> bytes_ok (rbuf d) = true -> k (c, blen (rbuf d), d) r = (r', Ok x) ->
     r' = r /\ P x /\ f x <= 3 + blen (rbuf d)) ->
  decodes (bind read_tlv8 k) P f.
Proof.
  intros Hk r r' x Hok H. apply bind_ok in H as [[[c l] d] [r1 [H1 H]]].
  apply tlv8_ok in H1 as (Hb & <- & Hc & _ & Hd & Hr1); [|exact Hok].
  apply Hk in H as (-> & HP & Hf); [|exact Hc|exact Hd]. repeat apply conj; [exact HP| |exact Hr1].
  rewrite Hb, blen_cons, !blen_app, be_enc_blen. lia.
Qed.
Lemma decodes16 {A} (k : N * N * reader -> parser ls_err A) (P : A -> Prop) (f : A -> N) :
  (forall c d r r' x, c < 65536 -> bytes_ok (rbuf d) = true -> k (c, blen (rbuf d), d) r = (r', Ok x) ->
     r' = r /\ P x /\ f x <= 4 + blen (rbuf d)) ->
  decodes (bind read_tlv16 k) P f.
Proof.
  intros Hk r r' x Hok H. apply bind_ok in H as [[[c l] d] [r1 [H1 H]]].
  apply tlv16_ok in H1 as (Hb & <- & Hc & _ & Hd & Hr1); [|exact Hok].
  apply Hk in H as (-> & HP & Hf); [|exact Hc|exact Hd]. repeat apply conj; [exact HP| |exact Hr1].
  rewrite Hb. unfold tlv_octets. rewrite !blen_app, !be_enc_blen. lia.
Qed.
(* the branches of a parser that picks by type code *)
Ltac branch H :=
  match type of H with
  | (if ?b then _ else _) _ = _ => let E := fresh "E" in destruct b eqn:E
  end.
Ltac fin2 := unfold octet, u16, u32, u128 in *; repeat apply conj; first [exact I|reflexivity|assumption|lia|tauto].
Lemma subsub_decodes : decodes parse_subsub subsub_fits subsub_octets.
Proof.
  apply decodes8. intros c d r r' x Hc Hd H. cbv beta iota in H. branch H; [|branch H].
  - apply on_sub_ok in H as [-> [s' H]]. rinv. unfold subsub_octets; cbn [subsub_fits]. fin2.
  - rinv.
  - apply on_sub_ok in H as [-> [s' H]]. rinv. match goal with H : lrest d = _ |- _ => apply lrest_ok in H; subst end.
    unfold subsub_octets; cbn [subsub_fits]. fin2.
Qed.
Lemma subtlv_decodes : decodes parse_subtlv subtlv_fits subtlv_octets.
Proof.
  apply decodes8. intros c d r r' x Hc Hd H. cbv beta iota in H. branch H; [|branch H].
  - apply on_sub_ok in H as [-> [s' H]]. rinv.
    match goal with H : many_all _ ?q = _, Hq : bytes_ok (rbuf ?q) = true |- _ =>
      apply (many_total _ _ _ subsub_decodes _ _ _ Hq) in H as (M1 & M2 & _) end.
    unfold subtlv_octets; cbn [subtlv_fits]. fin2.
  - rinv.
  - apply on_sub_ok in H as [-> [s' H]]. rinv. match goal with H : lrest d = _ |- _ => apply lrest_ok in H; subst end.
    unfold subtlv_octets; cbn [subtlv_fits]. fin2.
Qed.
Lemma srgb_decodes : decodes parse_srgb (fun b => octets 3 (fst b) /\ octets 3 (snd b)) (fun _ => 6).
Proof. intros r r' x Hok H. unfold parse_srgb in H. rinv. cbn [fst snd]. split; [split; assumption|split; [lia|assumption]]. Qed.
Lemma sid_tlv_decodes : decodes parse_sid_tlv sid_tlv_fits sid_tlv_octets.
Proof.
  apply decodes8. intros c d r r' x Hc Hd H. cbv beta iota in H. branch H; [|branch H; [|branch H; [|branch H; [|branch H]]]].
  - apply on_sub_ok in H as [-> [s' H]]. rinv. unfold sid_tlv_octets; cbn [sid_tlv_fits]. fin2.
  - apply on_sub_ok in H as [-> [s' H]]. rinv.
    match goal with H : many_all _ ?q = _, Hq : bytes_ok (rbuf ?q) = true |- _ =>
      apply (many_total _ _ _ srgb_decodes _ _ _ Hq) in H as (M1 & M2 & _) end. rewrite total_const in M2.
    unfold sid_tlv_octets; cbn [sid_tlv_fits]. fin2.
  - apply on_sub_ok in H as [-> [s' H]]. rinv.
    match goal with H : many_all _ ?q = _, Hq : bytes_ok (rbuf ?q) = true |- _ =>
      apply (many_total _ _ _ subtlv_decodes _ _ _ Hq) in H as (M1 & M2 & _) end.
    unfold sid_tlv_octets; cbn [sid_tlv_fits]. fin2.
  - apply on_sub_ok in H as [-> [s' H]]. rinv.
    match goal with H : many_all _ ?q = _, Hq : bytes_ok (rbuf ?q) = true |- _ =>
      apply (many_total _ _ _ subtlv_decodes _ _ _ Hq) in H as (M1 & M2 & _) end.
    unfold sid_tlv_octets; cbn [sid_tlv_fits]. fin2.
  - rinv.
  - apply on_sub_ok in H as [-> [s' H]]. rinv. match goal with H : lrest d = _ |- _ => apply lrest_ok in H; subst end.
    unfold sid_tlv_octets; cbn [sid_tlv_fits]. fin2.
Qed.
Lemma prefix_sid_decoded ext r r' ts : bytes_ok (rbuf r) = true -> parse_prefix_sid ext r = (r', Ok ts) ->
  prefix_sid_fits ext ts.
Proof.
  intros Hok H. apply (attr_decoded ext _ _ _ sid_tlv_decodes) in H as (H1 & body & _ & H2 & H3); [|exact Hok].
  split; [exact H1|]. destruct ext; cbn in *; lia.
Qed.
Ltac lsafe := pose proof safe_lrest; pose proof safe_mtids; unfold lrd; psafe.
Ltac strict8 := apply strict_bind_l; [apply strict_tlv8|intros [[? ?] ?]].
Ltac strict16 := apply strict_bind_l; [apply strict_tlv16|intros [[? ?] ?]].
Lemma safe_subsub : safe parse_subsub.
Proof. pose proof safe_tlv8. unfold parse_subsub. lsafe. Qed.
Lemma strict_subsub : strict parse_subsub. Proof. unfold parse_subsub. strict8. lsafe. Qed.
Lemma safe_subtlv : safe parse_subtlv.
Proof. pose proof safe_tlv8. pose proof safe_subsub. unfold parse_subtlv. lsafe. all: apply strict_subsub. Qed.
Lemma strict_subtlv : strict parse_subtlv.
Proof. unfold parse_subtlv. strict8. pose proof safe_subsub. lsafe. all: apply strict_subsub. Qed.
Lemma safe_srgb : safe parse_srgb. Proof. unfold parse_srgb. lsafe. Qed.
Lemma strict_srgb : strict parse_srgb.
Proof. unfold parse_srgb, lrd. apply strict_bind_l; [apply strict_map_err, strict_bytes; lia|intros; psafe]. Qed.
Lemma safe_sid_tlv : safe parse_sid_tlv.
Proof.
  pose proof safe_tlv8. pose proof safe_subtlv. pose proof safe_srgb. unfold parse_sid_tlv. lsafe.
  all: first [apply strict_srgb|apply strict_subtlv].
Qed.
Lemma strict_sid_tlv : strict parse_sid_tlv.
Proof.
  unfold parse_sid_tlv. strict8. pose proof safe_subtlv. pose proof safe_srgb. lsafe.
  all: first [apply strict_srgb|apply strict_subtlv].
Qed.
Lemma safe_prefix_sid ext : safe (parse_prefix_sid ext).
Proof. apply safe_attr, safe_many_all; [apply safe_sid_tlv|apply strict_sid_tlv]. Qed.

(* ---------------- BGP-LS NLRI: round trip ---------------- *)
Lemma node_num_of_code k : node_num_of (node_num_code k) = Some k.
Proof. destruct k; reflexivity. Qed.
Lemma node_num_of_inv c k : node_num_of c = Some k -> c = node_num_code k.
Proof. unfold node_num_of. intros H. apply find_some in H as [_ H]. lia. Qed.
Lemma node_num_code_range k : 512 <= node_num_code k <= 517.
Proof. destruct k; cbn; lia. Qed.
Lemma node_num_of_none c : ~ 512 <= c <= 517 -> node_num_of c = None.
Proof.
  intros H. destruct (node_num_of c) as [k|] eqn:E; [|reflexivity]. apply node_num_of_inv in E. subst.
  exfalso. apply H, node_num_code_range.
Qed.
Lemma node_num_of_none_inv c : node_num_of c = None -> c <> 515 -> ~ 512 <= c <= 517.
Proof.
  intros H Hn Hr. assert (c = 512 \/ c = 513 \/ c = 514 \/ c = 516 \/ c = 517) as E by lia.
  repeat (destruct E as [ -> |E]; [discriminate H|]). subst c. discriminate H.
Qed.
Lemma node_sub_codec s : node_sub_fits s -> node_sub_octets s < 65536 -> codec write_node_sub node_sub_len parse_node_sub s.
Proof.
  intros Hs Hl. unfold codec, write_node_sub, parse_node_sub. destruct s as [k v|v|c v]; cbn [node_sub_fits node_sub_code] in *.
  - pose proof (node_num_code_range k). apply codec16; [lia|unfold node_sub_len; now rewrite be_enc_blen|exact Hl|].
    intros off. cbv beta iota. rewrite node_num_of_code. apply parses_on_sub. pe_last. apply p_lrd, parses_u32, Hs.
  - apply codec16; [lia|reflexivity|exact Hl|]. intros off. cbv beta iota. change (node_num_of 515) with (@None node_num).
    change (515 =? 515) with true. cbv beta iota. apply parses_on_sub. eapply parses_end_bind'; [apply p_lrest|apply parses_ret].
  - apply codec16; [lia|reflexivity|exact Hl|]. intros off. cbv beta iota. rewrite node_num_of_none by tauto.
    replace (c =? 515) with false by lia. replace (c <=? 255) with false by lia.
    apply parses_on_sub. eapply parses_end_bind'; [apply p_lrest|apply parses_ret].
Qed.
Lemma bind_peek {A} n (k : N -> parser ls_err A) b v x : v < 256 ^ N.of_nat n ->
  parses (k v) (be_enc n v ++ b) x -> parses (bind (lrd (peek_be (N.of_nat n))) k) (be_enc n v ++ b) x.
Proof.
  intros Hv H rest off. unfold bind, lrd, pmap_err, peek_be. cbn [rbuf].
  rewrite !blen_app, be_enc_blen. replace (N.of_nat n + blen b + blen rest <? N.of_nat n) with false by lia.
  cbn [map_err]. rewrite <- app_assoc. rewrite take_app_exact by now rewrite be_enc_blen.
  rewrite be_val_enc by exact Hv. rewrite app_assoc. rewrite H. now rewrite blen_app, be_enc_blen.
Qed.
Lemma bind_peek8 {A} (k : N -> parser ls_err A) b v x : 
  parses_end (k v) (v :: b) x -> parses_end (bind (lrd peek_u8) k) (v :: b) x.
Proof. intros H off. unfold bind, lrd, pmap_err, peek_u8. cbn [rbuf map_err]. apply H. Qed.
Lemma descriptors_round want l : want = 256 \/ want = 257 -> Forall node_sub_fits l -> 4 + total node_sub_octets l < 65536 ->
  exists b, write_descriptors want l = Ok b /\ blen b = 4 + total node_sub_octets l /\
    descriptors_len l = 4 + total node_sub_octets l /\ parses (parse_descriptors want) b l.
Proof.
  intros Hw Hl Ht.
  destruct (each_small write_node_sub node_sub_len parse_node_sub node_sub_octets l node_sub_fits) as (b & W & L & S & P); auto.
  { exact node_sub_codec. }
  { lia. }
  exists (tlv_octets want b). unfold write_descriptors, descriptors_len. rewrite W, S. rewrite hdr16_ok by lia. cbn [tlv rbind].
  replace (4 + total node_sub_octets l - 4) with (blen b) by lia. unfold tlv_octets at 1 2. rewrite <- app_assoc. repeat apply conj.
  - reflexivity.
  - rewrite !blen_app, !be_enc_blen. lia.
  - reflexivity.
  - unfold parse_descriptors, tlv_octets. apply (bind_peek 2); [change (256 ^ N.of_nat 2) with 65536; lia|].
    replace ((want =? 256) || (want =? 257)) with true by lia. cbn [negb]. rewrite N.eqb_refl. cbn [negb].
    eapply parses_bind; [apply p_lrd, parses_u16; lia|]. eapply parses_bind; [apply p_lrd, parses_u16; lia|].
    rewrite <- (app_nil_r b) at 2. unfold lrd. apply parses_slice; [reflexivity|]. intros off. now apply parses_on_sub.
Qed.
Lemma link_desc_codec d : link_desc_fits d -> link_desc_octets d < 65536 -> codec write_link_desc link_desc_len parse_link_desc d.
Proof.
  intros Hd Hl. unfold codec, write_link_desc, parse_link_desc.
  destruct d as [a b|a|a|a|a|v|c v]; cbn [link_desc_fits link_desc_code] in *.
  - apply codec16; [lia|unfold link_desc_len; now rewrite blen_app, !be_enc_blen|exact Hl|]. intros off.
    apply parses_on_sub. destruct Hd as [H1 H2]. eapply parses_end_bind; [apply p_lrd, parses_u32, H1|]. pe_last. apply p_lrd, parses_u32, H2.
  - apply codec16; [lia|unfold link_desc_len; now rewrite be_enc_blen|exact Hl|]. intros off.
    apply parses_on_sub. pe_last. apply p_lrd, parses_u32, Hd.
  - apply codec16; [lia|unfold link_desc_len; now rewrite be_enc_blen|exact Hl|]. intros off.
    apply parses_on_sub. pe_last. apply p_lrd, parses_u32, Hd.
  - apply codec16; [lia|unfold link_desc_len; now rewrite be_enc_blen|exact Hl|]. intros off.
    apply parses_on_sub. pe_last. apply p_lrd, parses_u128, Hd.
  - apply codec16; [lia|unfold link_desc_len; now rewrite be_enc_blen|exact Hl|]. intros off.
    apply parses_on_sub. pe_last. apply p_lrd, parses_u128, Hd.
  - apply codec16; [lia|unfold link_desc_len; now rewrite flat_be_len|exact Hl|]. intros off.
    apply parses_on_sub. eapply parses_end_bind'; [apply p_mtids, Hd|apply parses_ret].
  - apply codec16; [lia|reflexivity|exact Hl|]. intros off. cbv beta iota.
    replace (c =? 258) with false by lia. replace (c =? 259) with false by lia. replace (c =? 260) with false by lia.
    replace (c =? 261) with false by lia. replace (c =? 262) with false by lia. replace (c =? 263) with false by lia.
    replace (c <=? 255) with false by lia.
    apply parses_on_sub. eapply parses_end_bind'; [apply p_lrest|apply parses_ret].
Qed.
Lemma msb_round p : most_significant_bytes p = round_len p.
Proof. unfold most_significant_bytes, round_len. destruct (p =? 0) eqn:E; [replace p with 0 by lia; reflexivity|lia]. Qed.
Lemma prefix_desc_len_spec d : prefix_desc_len d = prefix_desc_octets d.
Proof. destruct d; unfold prefix_desc_len, prefix_desc_octets; rewrite ?msb_round; reflexivity. Qed.
Definition prefix_desc_fits (v6 : bool) (d : prefix_desc) : Prop := prefix_desc_in_range v6 d /\ prefix_desc_clean d.
Lemma prefix_desc_codec v6 d : prefix_desc_fits v6 d -> prefix_desc_octets d < 65536 ->
  codec write_prefix_desc prefix_desc_len (parse_prefix_desc v6) d.
Proof.
  intros [Hd Hh] Hl. rewrite <- prefix_desc_len_spec in Hl. unfold codec, write_prefix_desc, parse_prefix_desc.
  destruct d as [v|t|f n|c v]; cbn [prefix_desc_in_range prefix_desc_clean prefix_desc_code] in *.
  - apply codec16; [lia|unfold prefix_desc_len; now rewrite flat_be_len|exact Hl|]. intros off.
    apply parses_on_sub. eapply parses_end_bind'; [apply p_mtids, Hd|apply parses_ret].
  - apply codec16; [lia|reflexivity|exact Hl|]. intros off. cbv beta iota. change (264 =? 263) with false.
    change (264 =? 264) with true. cbv beta iota. apply parses_on_sub. apply bind_peek8.
    replace ((1 <=? t) && (t <=? 6)) with true by lia. pe_last. apply p_lrd, parses_u8.
  - destruct Hd as (-> & Hw). pose proof (enc_net_octets_len _ _ Hw) as Hel. unfold enc_net_octets in Hel.
    unfold prefix_desc_len in *. rewrite msb_round in *.
    apply codec16; [lia|rewrite blen_cons, Hel; reflexivity|exact Hl|]. intros off. cbv beta iota.
    change (265 =? 263) with false. change (265 =? 264) with false. change (265 =? 265) with true. cbv beta iota.
    apply parses_on_sub. unfold parse_reach. pe_last. unfold lnl. apply parses_map_err.
    change (snd n :: take (round_len (snd n)) (network n)) with (enc_net n). apply p_net; [exact Hw|destruct v6; lia|exact Hh].
  - apply codec16; [lia|reflexivity|exact Hl|]. intros off. cbv beta iota.
    replace (c =? 263) with false by lia. replace (c =? 264) with false by lia. replace (c =? 265) with false by lia.
    replace (c <=? 255) with false by lia.
    apply parses_on_sub. eapply parses_end_bind'; [apply p_lrest|apply parses_ret].
Qed.
Lemma pe_protocol {A} p (k : N -> parser ls_err A) b x : 1 <= p <= 9 -> parses_end (k p) b x ->
  parses_end (bind parse_protocol k) (p :: b) x.
Proof.
  intros Hp H. apply (parses_end_bind _ _ [p] b p); [|exact H]. intros rest off.
  unfold parse_protocol, bind, lrd, pmap_err, peek_u8. cbn [rbuf app map_err].
  unfold known_protocol. replace ((1 <=? p) && (p <=? 9)) with true by lia. reflexivity.
Qed.
Lemma nlri_value_round x : ls_nlri_fits x -> nlri_octets x < 65536 ->
  exists b, write_ls_nlri_value x = Ok b /\ blen b = nlri_octets x /\ ls_nlri_len x = nlri_octets x /\
    parses_end (parse_ls_nlri_value (ls_nlri_code x)) b x.
Proof.
  intros [Hx Hcl] Hl. destruct x as [p i l|p i l m ds|v6 p i l ds|c v]; cbn [ls_nlri_in_range nlri_clean nlri_octets ls_nlri_len write_ls_nlri_value] in *.
  - destruct Hx as (Hp & Hi & Hll).
    destruct (descriptors_round 256 l) as (a & Wa & La & Sa & Pa); [auto|exact Hll|lia|].
    rewrite Wa, Sa. cbn [rbind]. eexists. split; [reflexivity|]. repeat apply conj.
    + rewrite blen_cons, blen_app, be_enc_blen, La. lia.
    + lia.
    + cbn [ls_nlri_code]. unfold parse_ls_nlri_value. change (1 =? 1) with true. cbv beta iota.
      apply pe_protocol; [exact Hp|]. eapply parses_end_bind; [apply p_lrd, parses_u64, Hi|]. pe_last. exact Pa.
  - destruct Hx as (Hp & Hi & Hll & Hm & Hds).
    destruct (descriptors_round 256 l) as (a & Wa & La & Sa & Pa); [auto|exact Hll|lia|].
    destruct (descriptors_round 257 m) as (b & Wb & Lb & Sb & Pb); [auto|exact Hm|lia|].
    destruct (each_small write_link_desc link_desc_len parse_link_desc link_desc_octets ds link_desc_fits) as (c & Wc & Lc & Sc & Pc); auto.
    { exact link_desc_codec. }
    { lia. }
    rewrite Wa, Wb, Wc, Sa, Sb, Sc. cbn [rbind]. eexists. split; [reflexivity|]. repeat apply conj.
    + rewrite blen_cons, !blen_app, be_enc_blen, La, Lb, Lc. lia.
    + lia.
    + cbn [ls_nlri_code]. unfold parse_ls_nlri_value. change (2 =? 1) with false. change (2 =? 2) with true. cbv beta iota.
      apply pe_protocol; [exact Hp|]. eapply parses_end_bind; [apply p_lrd, parses_u64, Hi|].
      eapply parses_end_bind; [exact Pa|]. eapply parses_end_bind; [exact Pb|].
      eapply parses_end_bind'; [exact Pc|apply parses_ret].
  - destruct Hx as (Hp & Hi & Hll & Hds0).
    assert (Hds : Forall (prefix_desc_fits v6) ds).
    { rewrite Forall_forall in *. intros d Hd. split; auto. }
    destruct (descriptors_round 256 l) as (a & Wa & La & Sa & Pa); [auto|exact Hll|lia|].
    destruct (each_small write_prefix_desc prefix_desc_len (parse_prefix_desc v6) prefix_desc_octets ds (prefix_desc_fits v6))
      as (c & Wc & Lc & Sc & Pc); auto.
    { intros; apply prefix_desc_len_spec. }
    { intros; now apply prefix_desc_codec. }
    { lia. }
    rewrite Wa, Wc, Sa, Sc. cbn [rbind]. eexists. split; [reflexivity|]. repeat apply conj.
    + rewrite blen_cons, !blen_app, be_enc_blen, La, Lc. lia.
    + lia.
    + assert (Hg : parses_end (do p <- lrd read_u8;;
           if known_protocol p then
             (do i <- lrd read_u64;; do l <- parse_descriptors 256;;
              do ds <- many_all (parse_prefix_desc v6);; ret (LnPrefix v6 p i l ds))
           else fail (LE_Protocol p)) (p :: be_enc 8 i ++ a ++ c) (LnPrefix v6 p i l ds)).
      { p8. unfold known_protocol. replace ((1 <=? p) && (p <=? 9)) with true by lia.
        eapply parses_end_bind; [apply p_lrd, parses_u64, Hi|].
        eapply parses_end_bind; [exact Pa|]. eapply parses_end_bind'; [exact Pc|apply parses_ret]. }
      destruct v6; exact Hg.
  - exists v. repeat apply conj; try reflexivity. cbn [ls_nlri_code]. unfold parse_ls_nlri_value.
    replace (c =? 1) with false by lia. replace (c =? 2) with false by lia.
    replace ((c =? 3) || (c =? 4)) with false by lia. eapply parses_end_bind'; [apply p_lrest|apply parses_ret].
Qed.
Lemma nlri_code_known x : ls_nlri_fits x -> known_nlri_type (ls_nlri_code x) = true /\ ls_nlri_code x < 65536.
Proof.
  intros [H _]; revert H. destruct x as [| |[]|c v]; cbn [ls_nlri_in_range ls_nlri_code]; intros H; try (split; [reflexivity|lia]).
  unfold known_nlri_type. lia.
Qed.
Lemma p_ls_path_id ap p : path_id_fits ap p -> parses (parse_ls_path_id ap) (enc_path_id p) p.
Proof.
  unfold path_id_fits, parse_ls_path_id. destruct p as [i|].
  - intros [-> Hi]. cbn [enc_path_id]. eapply parses_bind_ret; [apply p_lrd, parses_u32; exact Hi|apply parses_ret].
  - intros ->. apply parses_ret.
Qed.
Lemma nlri_hdr_ok pid code n : 4 + path_id_len pid + n < 65536 ->
  nlri_hdr pid code (4 + path_id_len pid + n) = Ok (be_enc 2 code ++ be_enc 2 n).
Proof.
  intros H. unfold nlri_hdr, as_u16. rewrite N.mod_small by exact H.
  replace (4 + path_id_len pid + n <? path_id_len pid) with false by lia.
  rewrite hdr16_ok by lia. do 3 f_equal. lia.
Qed.
Lemma ls_nlri_round ap pid x : path_id_fits ap pid -> ls_nlri_fits x -> nlri_size_fits 0 x ->
  exists b, write_ls_nlri (pid, x) = Ok b /\ blen b = path_id_len pid + 4 + nlri_octets x /\
    parses (parse_ls_nlri ap) b (pid, x) /\ b <> [].
Proof.
  intros Hp Hx Hs. unfold nlri_size_fits in Hs.
  destruct (nlri_value_round x Hx) as (b & W & L & S & P); [lia|].
  destruct (nlri_code_known x Hx) as [Hk Hc].
  assert (Hpl : path_id_len pid <= 4) by (destruct pid; cbn; lia).
  cbn [write_ls_nlri]. rewrite W, S. rewrite nlri_hdr_ok by lia. cbn [tlv rbind].
  eexists. split; [reflexivity|]. repeat apply conj.
  - rewrite !blen_app, !be_enc_blen, path_id_blen, L. lia.
  - unfold parse_ls_nlri. eapply parses_bind; [apply p_ls_path_id, Hp|]. rewrite <- app_assoc.
    eapply parses_bind; [apply p_lrd, parses_u16; exact Hc|]. rewrite Hk.
    eapply parses_bind; [apply p_lrd, parses_u16; lia|]. rewrite <- (app_nil_r b). unfold lrd.
    apply parses_slice; [symmetry; exact L|]. intros off. apply parses_on_sub.
    eapply parses_end_bind'; [exact P|apply parses_ret].
  - intros E. apply (f_equal blen) in E. rewrite !blen_app, !be_enc_blen, blen_nil in E. lia.
Qed.
Lemma ls_vpn_nlri_round ap pid d x : path_id_fits ap pid -> rd_fits d -> ls_nlri_fits x -> nlri_size_fits 8 x ->
  exists b, write_ls_vpn_nlri (pid, d, x) = Ok b /\ blen b = path_id_len pid + 12 + nlri_octets x /\
    parses (parse_ls_vpn_nlri ap) b (pid, d, x) /\ b <> [].
Proof.
  intros Hp Hd Hx Hs. unfold nlri_size_fits in Hs.
  destruct (nlri_value_round x Hx) as (b & W & L & S & P); [lia|].
  destruct (nlri_code_known x Hx) as [Hk Hc].
  assert (Hpl : path_id_len pid <= 4) by (destruct pid; cbn; lia).
  cbn [write_ls_vpn_nlri]. rewrite W, S.
  replace (12 + path_id_len pid + nlri_octets x) with (4 + path_id_len pid + (8 + nlri_octets x)) by lia.
  rewrite nlri_hdr_ok by lia. cbn [tlv rbind].
  eexists. split; [reflexivity|]. repeat apply conj.
  - rewrite !blen_app, !be_enc_blen, path_id_blen, enc_rd_len, L. lia.
  - unfold parse_ls_vpn_nlri. eapply parses_bind; [apply p_ls_path_id, Hp|]. rewrite <- app_assoc.
    eapply parses_bind; [apply p_lrd, parses_u16; exact Hc|]. rewrite Hk.
    eapply parses_bind; [apply p_lrd, parses_u16; lia|]. rewrite <- (app_nil_r (enc_rd d ++ b)). unfold lrd.
    apply parses_slice; [rewrite blen_app, enc_rd_len; lia|]. intros off. apply parses_on_sub.
    eapply parses_end_bind; [unfold lnl; apply parses_map_err, p_rd, Hd|].
    eapply parses_end_bind'; [exact P|apply parses_ret].
  - intros E. apply (f_equal blen) in E. rewrite !blen_app, !be_enc_blen, blen_nil in E. lia.
Qed.

(* ---------------- BGP-LS NLRI: what is decoded ---------------- *)
Lemma node_sub_decodes : decodes parse_node_sub node_sub_fits node_sub_octets.
Proof.
  apply decodes16. intros c d r r' x Hc Hd H. cbv beta iota in H. destruct (node_num_of c) as [k|] eqn:Ek.
  - apply on_sub_ok in H as [-> [s' H]]. rinv. unfold node_sub_octets; cbn [node_sub_fits]. fin2.
  - branch H; [|branch H].
    + apply on_sub_ok in H as [-> [s' H]]. rinv. match goal with H : lrest d = _ |- _ => apply lrest_ok in H; subst end.
      unfold node_sub_octets; cbn [node_sub_fits]. fin2.
    + rinv.
    + apply on_sub_ok in H as [-> [s' H]]. rinv. match goal with H : lrest d = _ |- _ => apply lrest_ok in H; subst end.
      pose proof (node_num_of_none_inv c Ek ltac:(lia)). unfold node_sub_octets; cbn [node_sub_fits]. fin2.
Qed.
Lemma descriptors_decodes want : decodes (parse_descriptors want) (Forall node_sub_fits) (fun l => 4 + total node_sub_octets l).
Proof.
  intros r r' x Hok H. unfold parse_descriptors in H. apply bind_ok in H as [c [r1 [H1 H]]].
  apply map_err_ok, peek_be_ok in H1 as (-> & _ & _).
  branch H; [rinv|]. branch H; [rinv|]. rinv.
  match goal with H : take_slice _ _ = _ |- _ => apply take_slice_ok in H as (E3 & _ & L3 & _) end.
  apply on_sub_ok in H as [-> [s' H]].
  match goal with E : rbuf ?a = rbuf ?b ++ _, Ha : bytes_ok (rbuf ?a) = true |- _ =>
    rewrite E, bytes_ok_app in Ha; apply andb_true_iff in Ha as [Hb Hr] end.
  apply (many_total _ _ _ node_sub_decodes _ _ _ Hb) in H as (M1 & M2 & _).
  rewrite E3, blen_app in *. repeat apply conj; [exact M1|lia|exact Hr].
Qed.
Lemma link_desc_decodes : decodes parse_link_desc link_desc_fits link_desc_octets.
Proof.
  apply decodes16. intros c d r r' x Hc Hd H. cbv beta iota in H.
  branch H; [|branch H; [|branch H; [|branch H; [|branch H; [|branch H; [|branch H]]]]]];
    try (apply on_sub_ok in H as [-> [s' H]]); rinv; unfold link_desc_octets; cbn [link_desc_fits]; try solve [fin2].
  - match goal with H : parse_mtids _ = _ |- _ => apply mtids_ok in H as [M1 M2]; [|exact Hd] end. fin2.
  - match goal with H : lrest d = _ |- _ => apply lrest_ok in H; subst end. fin2.
Qed.
Lemma prefix_desc_decodes v6 : decodes (parse_prefix_desc v6) (prefix_desc_in_range v6) prefix_desc_octets.
Proof.
  apply decodes16. intros c d r r' x Hc Hd H. cbv beta iota in H.
  branch H; [|branch H; [|branch H; [|branch H]]].
  - apply on_sub_ok in H as [-> [s' H]]. rinv. unfold prefix_desc_octets; cbn [prefix_desc_in_range].
    match goal with H : parse_mtids _ = _ |- _ => apply mtids_ok in H as [M1 M2]; [|exact Hd] end. fin2.
  - apply on_sub_ok in H as [-> [s' H]]. apply bind_ok in H as [t [r1 [H1 H]]]. apply map_err_ok in H1.
    unfold peek_u8 in H1. destruct (rbuf d) as [|o od] eqn:Ed; [discriminate|]. inversion H1; subst o r1.
    rewrite <- Ed in Hd. branch H; [|rinv]. rinv. unfold prefix_desc_octets; cbn [prefix_desc_in_range]. rewrite blen_cons. fin2.
  - apply on_sub_ok in H as [-> [s' H]]. unfold parse_reach in H. rinv.
    match goal with H : parse_net _ _ = _ |- _ => apply net_parsed in H as (o & Eo & Lo & Ho & Ef & Lf & _) end.
    2:{ destruct v6; lia. }
    unfold prefix_desc_octets; cbn [prefix_desc_in_range].
    assert (Hok : bytes_ok o = true).
    { rewrite Eo, bytes_ok_app, bytes_ok_cons in Hd. apply andb_true_iff in Hd as [Hd _]. now apply andb_true_iff in Hd. }
    assert (Hle : blen (rbuf d) >= 1 + round_len (snd x0)).
    { rewrite Eo, blen_app, blen_cons, Lo. lia. }
    unfold net_wf, round_len in *. repeat apply conj; try reflexivity; try assumption; try lia.
    rewrite Ef, bytes_ok_app, Hok, bytes_ok_repeat0. reflexivity.
  - rinv.
  - apply on_sub_ok in H as [-> [s' H]]. rinv. match goal with H : lrest d = _ |- _ => apply lrest_ok in H; subst end.
    unfold prefix_desc_octets; cbn [prefix_desc_in_range]. fin2.
Qed.
Lemma protocol_ok r r' p : parse_protocol r = (r', Ok p) -> rbuf r = p :: rbuf r' /\ 1 <= p <= 9.
Proof.
  unfold parse_protocol. intros H. apply bind_ok in H as [c [r1 [H1 H]]]. apply map_err_ok in H1.
  unfold peek_u8 in H1. destruct (rbuf r) as [|o od] eqn:Ed; [discriminate|]. inversion H1; subst o r1.
  unfold known_protocol in H. branch H; [|rinv]. apply bind_ok in H as [v [r2 [H2 H]]]. apply ret_ok in H as [-> ->].
  apply map_err_ok, read_u8_ok in H2 as [H2 _]. rewrite Ed in H2. inversion H2. split; [reflexivity|lia].
Qed.
(* the fields and sizes of a decoded element *)
Lemma nlri_value_decodes code : known_nlri_type code = true ->
  forall r r' x, bytes_ok (rbuf r) = true -> parse_ls_nlri_value code r = (r', Ok x) ->
    ls_nlri_in_range x /\ nlri_octets x <= blen (rbuf r) /\ ls_nlri_code x = code.
Proof.
  intros Hc r r' x Hok H. unfold parse_ls_nlri_value in H. unfold known_nlri_type in Hc.
  branch H; [|branch H; [|branch H]].
  - apply bind_ok in H as [p [r1 [H1 H]]]. apply protocol_ok in H1 as [Epr Rpr].
    assert (Hok1 : bytes_ok (rbuf r1) = true) by (rewrite Epr, bytes_ok_cons in Hok; now apply andb_true_iff in Hok).
    rinv.
    match goal with H : parse_descriptors _ _ = _ |- _ => apply descriptors_decodes in H as (D1 & D2 & D3); [|assumption] end.
    cbn [ls_nlri_in_range nlri_octets ls_nlri_code]. rewrite Epr, blen_cons. unfold u64. repeat apply conj; try assumption; lia.
  - apply bind_ok in H as [p [r1 [H1 H]]]. apply protocol_ok in H1 as [Epr Rpr].
    assert (Hok1 : bytes_ok (rbuf r1) = true) by (rewrite Epr, bytes_ok_cons in Hok; now apply andb_true_iff in Hok).
    rinv.
    match goal with H : parse_descriptors 256 _ = _ |- _ => apply descriptors_decodes in H as (D1 & D2 & D3); [|assumption] end.
    match goal with H : parse_descriptors 257 _ = _ |- _ => apply descriptors_decodes in H as (G1 & G2 & G3); [|assumption] end.
    match goal with H : many_all _ _ = _ |- _ => apply (many_total _ _ _ link_desc_decodes) in H as (M1 & M2 & _); [|assumption] end.
    cbn [ls_nlri_in_range nlri_octets ls_nlri_code]. rewrite Epr, blen_cons. unfold u64. repeat apply conj; try assumption; lia.
  - apply bind_ok in H as [p [r1 [H1 H]]]. apply map_err_ok, read_u8_ok in H1 as [Epr _].
    assert (Hok1 : bytes_ok (rbuf r1) = true) by (rewrite Epr, bytes_ok_cons in Hok; now apply andb_true_iff in Hok).
    unfold known_protocol in H. branch H; [|rinv]. rinv.
    match goal with H : parse_descriptors 256 _ = _ |- _ => apply descriptors_decodes in H as (D1 & D2 & D3); [|assumption] end.
    match goal with H : many_all _ _ = _ |- _ => apply (many_total _ _ _ (prefix_desc_decodes _)) in H as (M1 & M2 & _); [|assumption] end.
    cbn [ls_nlri_in_range nlri_octets ls_nlri_code]. rewrite Epr, blen_cons. unfold u64. repeat apply conj; try assumption; try lia.
    destruct (code =? 4) eqn:E4; lia.
  - rinv. match goal with H : lrest r = _ |- _ => apply lrest_ok in H; subst end.
    cbn [ls_nlri_in_range nlri_octets ls_nlri_code]. repeat apply conj; try assumption; lia.
Qed.
Lemma path_id_decodes ap r r' p : bytes_ok (rbuf r) = true -> parse_ls_path_id ap r = (r', Ok p) ->
  path_id_fits ap p /\ blen (rbuf r) = path_id_len p + blen (rbuf r') /\ bytes_ok (rbuf r') = true.
Proof.
  intros Hok. unfold parse_ls_path_id. destruct ap; intros H; rinv; cbn; unfold u32; auto.
Qed.
Lemma ls_nlri_decoded ap r r' pid x : bytes_ok (rbuf r) = true -> parse_ls_nlri ap r = (r', Ok (pid, x)) ->
  path_id_fits ap pid /\ ls_nlri_in_range x /\ path_id_len pid + 4 + nlri_octets x + blen (rbuf r') <= blen (rbuf r).
Proof.
  intros Hok H. unfold parse_ls_nlri in H. apply bind_ok in H as [q [r1 [H1 H]]].
  apply path_id_decodes in H1 as (P1 & P2 & P3); [|exact Hok]. apply bind_ok in H as [code [r2 [H2 H]]].
  destruct (known_nlri_type code) eqn:Ek; [|rinv]. rinv.
  match goal with H : take_slice _ _ = _ |- _ => apply take_slice_ok in H as (E3 & _ & L3 & _) end.
  apply on_sub_ok in H as [-> [s' H]]. rinv.
  match goal with E : rbuf ?a = rbuf ?b ++ _, Ha : bytes_ok (rbuf ?a) = true |- _ =>
    rewrite E, bytes_ok_app in Ha; apply andb_true_iff in Ha as [Hb _] end.
  match goal with H : parse_ls_nlri_value _ _ = _ |- _ => apply (nlri_value_decodes _ Ek _ _ _ Hb) in H as (V1 & V2 & _) end.
  match goal with H : (_, _) = (_, _) |- _ => inversion H; subst end.
  rewrite E3, blen_app in *. repeat apply conj; [exact P1|exact V1|lia].
Qed.

(* ---------------- BGP-LS NLRI: safety ---------------- *)
Lemma safe_node_sub : safe parse_node_sub.
Proof. pose proof safe_tlv16. unfold parse_node_sub. lsafe. Qed.
Lemma strict_node_sub : strict parse_node_sub. Proof. unfold parse_node_sub. strict16. lsafe. Qed.
Lemma safe_descriptors want : safe (parse_descriptors want).
Proof. pose proof safe_node_sub. unfold parse_descriptors. lsafe. all: apply strict_node_sub. Qed.
Lemma safe_link_desc : safe parse_link_desc.
Proof. pose proof safe_tlv16. unfold parse_link_desc. lsafe. Qed.
Lemma strict_link_desc : strict parse_link_desc. Proof. unfold parse_link_desc. strict16. lsafe. Qed.
Lemma safe_prefix_desc v6 : safe (parse_prefix_desc v6).
Proof. pose proof safe_tlv16. unfold parse_prefix_desc, parse_reach, lnl. lsafe. all: apply safe_net. Qed.
Lemma strict_prefix_desc v6 : strict (parse_prefix_desc v6).
Proof. unfold parse_prefix_desc, parse_reach, lnl. strict16. lsafe. all: apply safe_net. Qed.
Lemma safe_nlri_value code : safe (parse_ls_nlri_value code).
Proof.
  pose proof (safe_descriptors 256). pose proof (safe_descriptors 257). pose proof safe_link_desc.
  unfold parse_ls_nlri_value, parse_protocol. lsafe.
  all: first [apply strict_link_desc|apply strict_prefix_desc|apply safe_prefix_desc].
Qed.
Lemma safe_ls_path_id ap : safe (parse_ls_path_id ap). Proof. unfold parse_ls_path_id. lsafe. Qed.
Lemma safe_ls_nlri ap : safe (parse_ls_nlri ap).
Proof. pose proof (safe_ls_path_id ap). unfold parse_ls_nlri. lsafe. apply safe_nlri_value. Qed.
Lemma safe_ls_vpn_nlri ap : safe (parse_ls_vpn_nlri ap).
Proof.
  pose proof (safe_ls_path_id ap). unfold parse_ls_vpn_nlri, lnl. lsafe; first [apply safe_rd|apply safe_nlri_value].
Qed.
Lemma rd_decodes r r' d : bytes_ok (rbuf r) = true -> parse_rd r = (r', Ok d) ->
  rd_fits d /\ blen (rbuf r) = 8 + blen (rbuf r') /\ bytes_ok (rbuf r') = true.
Proof.
  intros Hok H. unfold parse_rd, nrd in H. rinv.
  branch H; [|branch H; [|branch H; [|branch H]]]; rinv; unfold rd_fits, BgpNlriSpec.u16, BgpNlriSpec.u32.
  1-3: repeat apply conj; try assumption; lia.
  match goal with H : (if ?b then _ else _) _ = _ |- _ => destruct b end; rinv.
  repeat apply conj; try assumption; try exact I; lia.
Qed.
Lemma ls_vpn_nlri_decoded ap r r' pid d x : bytes_ok (rbuf r) = true -> parse_ls_vpn_nlri ap r = (r', Ok (pid, d, x)) ->
  path_id_fits ap pid /\ rd_fits d /\ ls_nlri_in_range x /\
  path_id_len pid + 12 + nlri_octets x + blen (rbuf r') <= blen (rbuf r).
Proof.
  intros Hok H. unfold parse_ls_vpn_nlri in H. apply bind_ok in H as [q [r1 [H1 H]]].
  apply path_id_decodes in H1 as (P1 & P2 & P3); [|exact Hok]. apply bind_ok in H as [code [r2 [H2 H]]].
  destruct (known_nlri_type code) eqn:Ek; [|rinv]. rinv.
  match goal with H : take_slice _ _ = _ |- _ => apply take_slice_ok in H as (E3 & _ & L3 & _) end.
  apply on_sub_ok in H as [-> [s' H]]. rinv.
  match goal with E : rbuf ?a = rbuf ?b ++ _, Ha : bytes_ok (rbuf ?a) = true |- _ =>
    rewrite E, bytes_ok_app in Ha; apply andb_true_iff in Ha as [Hb _] end.
  match goal with H : parse_rd _ = _ |- _ => apply (rd_decodes _ _ _ Hb) in H as (D1 & D2 & D3) end.
  match goal with H : parse_ls_nlri_value _ _ = _ |- _ => apply (nlri_value_decodes _ Ek _ _ _ D3) in H as (V1 & V2 & _) end.
  match goal with H : (_, _, _) = (_, _, _) |- _ => inversion H; subst end.
  rewrite E3, blen_app in *. split; [exact P1|split; [exact D1|split; [exact V1|lia]]].
Qed.
(* an element ends where its length says, and nothing after it matters *)
Lemma nlri_confined_gen {A} ap pid code body (q : option N -> N -> parser ls_err A) off :
  path_id_fits ap pid -> known_nlri_type code = true -> blen body < 65536 ->
  exists x, forall rest,
    (do pid <- parse_ls_path_id ap;; do code <- lrd read_u16;;
     if known_nlri_type code then
       (do n <- lrd read_u16;; do data <- lrd (take_slice n);; on_sub data (q pid code))
     else fail (LE_Type code)) (mkR (enc_path_id pid ++ tlv_octets code body ++ rest) off)
    = (mkR rest (off + path_id_len pid + 4 + blen body), x).
Proof.
  intros Hp Hk Hb. exists (snd (q pid code (mkR body (off + path_id_len pid + 4)))). intros rest.
  assert (Hc : code < 65536) by (unfold known_nlri_type in Hk; lia).
  unfold bind at 1. rewrite (p_ls_path_id ap pid Hp). unfold tlv_octets. rewrite <- !app_assoc.
  unfold bind, lrd. rewrite (parses_map_err LE_Parse _ _ _ (parses_u16 code Hc)). rewrite Hk.
  rewrite (parses_map_err LE_Parse _ _ _ (parses_u16 (blen body) Hb)).
  unfold pmap_err, take_slice. rewrite (parses_bytes body (blen body) eq_refl). cbn [map_err roff].
  unfold on_sub. rewrite !be_enc_blen, path_id_blen.
  replace (off + path_id_len pid + N.of_nat 2 + N.of_nat 2) with (off + path_id_len pid + 4) by lia. reflexivity.
Qed.
