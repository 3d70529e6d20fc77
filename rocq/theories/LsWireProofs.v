(* The writers produce the layouts of the RFCs. *)
From Verif Require Import Base BaseLemmas AfModel BgpNlriModel BgpNlriSpec BgpNlriProofs BgpAttrModel BgpAttrSpec
  BgpAttrProofs LsModel LsSpec LsProofs LsNlriProofs.
From Coq Require Import Lia ZifyBool ZifyN ZifyNat.

Lemma each_wire {A} (w : A -> res lw_err (list N)) enc xs : (forall x, In x xs -> w x = Ok (enc x)) ->
  write_each w xs = Ok (flat_map enc xs).
Proof.
  induction xs as [|x xs IH]; intros H; [reflexivity|]. cbn [write_each flat_map]. rewrite H by now left.
  rewrite IH by (intros; apply H; now right). reflexivity.
Qed.
Lemma tlv16_wire code len b : len = 4 + blen b -> len < 65536 -> tlv (hdr16 code len) (Ok b) = Ok (tlv_octets code b).
Proof.
  intros Hl H. rewrite hdr16_ok by lia. cbn [tlv rbind]. replace (len - 4) with (blen b) by lia.
  unfold tlv_octets. now rewrite <- app_assoc.
Qed.
Lemma tlv8_wire code len b : len = 3 + blen b -> len < 65536 -> tlv (hdr8 code len) (Ok b) = Ok (tlv8_octets code b).
Proof.
  intros Hl H. rewrite hdr8_ok by lia. cbn [tlv rbind]. replace (len - 3) with (blen b) by lia. reflexivity.
Qed.
Lemma value_wire_len v : value_in_range v -> blen (value_wire v) = value_octets v.
Proof.
  destruct v as [k n|k b|k b|k s|vs|e u s c p h|l r|vs|a b c d|vs|vs|a|vs|a b c d e f|c b]; cbn [value_in_range]; intros Hv;
    try reflexivity; cbn [value_wire value_octets]; try (rewrite flat_be_len; lia).
  - destruct k; rewrite be_enc_blen; reflexivity.
  - destruct s as [f w l|f w i]; rewrite !blen_cons; [|rewrite be_enc_blen; reflexivity].
    destruct Hv as (_ & _ & [-> _] & _). reflexivity.
  - destruct a as [o|o]; destruct Hv as [Hv _]; exact Hv.
Qed.
Lemma ls_value_wire v : value_in_range v -> name_fits v -> carried v -> 4 + value_octets v < 65536 ->
  write_ls_value v = Ok (tlv_octets (attribute_code v) (value_wire v)).
Proof.
  intros Hv Hn (Hp & Hf & Ht) Hl. pose proof (ls_len_spec v Hv) as HL. pose proof (value_wire_len v Hv) as HW.
  unfold write_ls_value.
  assert (E : ls_body v = Ok (value_wire v)).
  { destruct v as [k n|k b|k b|k s|vs|e u s c p h|l r|vs|a b c d|vs|vs|a|vs|a b c d e f|c b];
      cbn [value_in_range name_fits is_protection is_forwarding has_tags] in *; try tauto; try reflexivity.
    all: match goal with
         | n : num_kind |- _ => destruct n; reflexivity
         | n : text_kind |- _ =>
             cbn [ls_body]; destruct n; [|reflexivity];
             match goal with |- context [255 <? ?x] => replace (255 <? x) with false by lia end; reflexivity
         | s : peer_sid |- _ => destruct s; reflexivity
         | _ => repeat match goal with b : bool |- _ => destruct b end; reflexivity
         end. }
  rewrite E. replace (ls_raw_code v) with (attribute_code v).
  - apply tlv16_wire; lia.
  - destruct v as [[]|[]|[]|[] ?| | | | | | | | | | |]; reflexivity.
Qed.
Lemma ls_attr_wire ext vs : ls_attr_fits ext vs -> Forall carried vs -> write_ls_attr ext vs = Ok (attr_wire ext vs).
Proof.
  intros (Hv & Hn & Hl) Hc. pose proof (fits_lt _ _ Hl) as Hlt. rewrite Forall_forall in *. unfold write_ls_attr.
  rewrite (each_wire _ (fun v => tlv_octets (attribute_code v) (value_wire v))).
  2:{ intros v Hin. apply ls_value_wire; auto.
      pose proof (total_in (fun v => 4 + value_octets v) vs v Hin). unfold attr_octets in Hlt. cbv beta in *. lia. }
  cbn [rbind]. rewrite (sum_total _ (fun v => 4 + value_octets v)) by (intros; apply ls_len_spec; auto).
  fold (attr_octets vs). rewrite length_octets_enc by exact Hl. reflexivity.
Qed.

(* ---------------- PREFIX_SID ---------------- *)
Lemma blen_tlv8 c b : blen (tlv8_octets c b) = 3 + blen b.
Proof. unfold tlv8_octets. rewrite blen_cons, blen_app, be_enc_blen. lia. Qed.
Lemma blen_tlv16 c b : blen (tlv_octets c b) = 4 + blen b.
Proof. unfold tlv_octets. rewrite !blen_app, !be_enc_blen. lia. Qed.
Lemma total_wire {A} (enc : A -> list N) f xs : (forall x, In x xs -> blen (enc x) = f x) -> blen (flat_map enc xs) = total f xs.
Proof.
  unfold total. induction xs as [|x xs IH]; intros H; [reflexivity|]. cbn [flat_map map fold_right].
  rewrite blen_app, H by now left. rewrite IH by (intros; apply H; now right). reflexivity.
Qed.
Lemma subsub_wire_len s : blen (subsub_wire s) = subsub_octets s.
Proof. destruct s; unfold subsub_wire, subsub_octets; rewrite blen_tlv8; reflexivity. Qed.
Lemma subtlv_wire_len s : blen (subtlv_wire s) = subtlv_octets s.
Proof.
  destruct s as [r1 sid f bh r2 ss|c v]; unfold subtlv_wire, subtlv_octets; rewrite blen_tlv8; [|reflexivity].
  rewrite !blen_app, !be_enc_blen, (total_wire subsub_wire subsub_octets) by (intros; apply subsub_wire_len).
  change (blen [r1]) with 1. change (blen [f]) with 1. change (blen [r2]) with 1. lia.
Qed.
Lemma sid_tlv_wire_len s : sid_tlv_fits s -> blen (sid_tlv_wire s) = sid_tlv_octets s.
Proof.
  destruct s as [f i|f bs|r1 ss|r1 ss|c v]; cbn [sid_tlv_fits]; intros H; unfold sid_tlv_wire, sid_tlv_octets; rewrite blen_tlv8.
  - rewrite !blen_app, !be_enc_blen. reflexivity.
  - rewrite blen_app, be_enc_blen, srgbs_len by apply H. lia.
  - rewrite blen_app, (total_wire subtlv_wire subtlv_octets) by (intros; apply subtlv_wire_len). reflexivity.
  - rewrite blen_app, (total_wire subtlv_wire subtlv_octets) by (intros; apply subtlv_wire_len). reflexivity.
  - reflexivity.
Qed.
Lemma write_subsub_wire s : subsub_octets s < 65536 -> write_subsub s = Ok (subsub_wire s).
Proof. intros H. destruct s; (apply tlv8_wire; [reflexivity|exact H]). Qed.
Lemma in_small {A} f (xs : list A) x n : In x xs -> total f xs < n -> f x < n.
Proof. intros H Ht. pose proof (total_in f xs x H). lia. Qed.
Lemma write_subtlv_wire s : subtlv_octets s < 65536 -> write_subtlv s = Ok (subtlv_wire s).
Proof.
  intros H. destruct s as [r1 sid f bh r2 ss|c v]; [|apply tlv8_wire; [reflexivity|exact H]].
  unfold write_subtlv. rewrite (each_wire _ subsub_wire).
  - cbn [rbind]. rewrite subtlv_len_spec. unfold subtlv_wire. cbn [app]. apply tlv8_wire; [|exact H].
    pose proof (subtlv_wire_len (SubInfo r1 sid f bh r2 ss)) as E. unfold subtlv_wire in E. rewrite blen_tlv8 in E. cbn [app] in E. lia.
  - intros x Hx. apply write_subsub_wire. unfold subtlv_octets in H. apply (in_small _ ss _ _ Hx). lia.
Qed.
Lemma write_sid_tlv_wire s : sid_tlv_fits s -> sid_tlv_octets s < 65536 -> write_sid_tlv s = Ok (sid_tlv_wire s).
Proof.
  intros Hf H. pose proof (sid_tlv_wire_len s Hf) as E. pose proof (sid_tlv_len_spec s) as S.
  destruct s as [f i|f bs|r1 ss|r1 ss|c v]; unfold write_sid_tlv, sid_tlv_wire in *; rewrite blen_tlv8 in E; rewrite S.
  - cbn [app]. apply tlv8_wire; [reflexivity|exact H].
  - apply tlv8_wire; [lia|exact H].
  - rewrite (each_wire _ subtlv_wire).
    + cbn [rbind app] in *. apply tlv8_wire; [lia|exact H].
    + intros x Hx. apply write_subtlv_wire. unfold sid_tlv_octets in H. apply (in_small _ ss _ _ Hx). lia.
  - rewrite (each_wire _ subtlv_wire).
    + cbn [rbind app] in *. apply tlv8_wire; [lia|exact H].
    + intros x Hx. apply write_subtlv_wire. unfold sid_tlv_octets in H. apply (in_small _ ss _ _ Hx). lia.
  - apply tlv8_wire; [lia|exact H].
Qed.
Lemma write_prefix_sid_wire ext ts : prefix_sid_fits ext ts -> write_prefix_sid ext ts = Ok (prefix_sid_wire ext ts).
Proof.
  intros [Hf Hl]. pose proof (fits_lt _ _ Hl). rewrite Forall_forall in Hf. unfold write_prefix_sid.
  rewrite (each_wire _ sid_tlv_wire).
  - cbn [rbind]. rewrite (sum_total _ sid_tlv_octets) by (intros; apply sid_tlv_len_spec).
    now rewrite length_octets_enc by exact Hl.
  - intros x Hx. apply write_sid_tlv_wire; [auto|]. now apply (in_small _ ts).
Qed.

(* ---------------- NLRI ---------------- *)
Lemma node_sub_wire_len s : blen (node_sub_wire s) = node_sub_octets s.
Proof. destruct s as [[] v|v|c v]; unfold node_sub_wire, node_sub_octets; rewrite blen_tlv16, ?be_enc_blen; reflexivity. Qed.
Lemma write_node_sub_wire s : node_sub_octets s < 65536 -> write_node_sub s = Ok (node_sub_wire s).
Proof.
  intros H. destruct s as [[] v|v|c v]; (apply tlv16_wire; [unfold node_sub_len; rewrite ?be_enc_blen; reflexivity|exact H]).
Qed.
Lemma write_descriptors_wire want l : 4 + total node_sub_octets l < 65536 ->
  write_descriptors want l = Ok (tlv_octets want (flat_map node_sub_wire l)).
Proof.
  intros H. unfold write_descriptors. rewrite (each_wire _ node_sub_wire).
  - pose proof (total_wire node_sub_wire node_sub_octets l ltac:(intros; apply node_sub_wire_len)) as E.
    assert (S : descriptors_len l = 4 + total node_sub_octets l) by (unfold descriptors_len; f_equal; now apply sum_total).
    apply tlv16_wire; lia.
  - intros x Hx. apply write_node_sub_wire. apply (in_small _ l _ _ Hx). lia.
Qed.
Lemma link_desc_wire_len d : blen (link_desc_wire d) = link_desc_octets d.
Proof.
  destruct d; unfold link_desc_wire, link_desc_octets; rewrite blen_tlv16, ?blen_app, ?be_enc_blen, ?flat_be_len; reflexivity.
Qed.
Lemma write_link_desc_wire d : link_desc_octets d < 65536 -> write_link_desc d = Ok (link_desc_wire d).
Proof.
  intros H. destruct d; (apply tlv16_wire; [unfold link_desc_len; rewrite ?blen_app, ?be_enc_blen, ?flat_be_len; reflexivity|exact H]).
Qed.
Lemma prefix_desc_wire_len v6 d : prefix_desc_in_range v6 d -> blen (prefix_desc_wire d) = prefix_desc_octets d.
Proof.
  destruct d as [v|t|f n|c v]; cbn [prefix_desc_in_range]; intros H; unfold prefix_desc_wire, prefix_desc_octets;
    rewrite blen_tlv16, ?flat_be_len; try reflexivity.
  destruct H as (-> & Hl & _ & Hp). rewrite blen_cons. rewrite blen_take; [reflexivity|]. rewrite Hl. destruct v6; lia.
Qed.
Lemma write_prefix_desc_wire v6 d : prefix_desc_fits v6 d -> prefix_desc_octets d < 65536 ->
  write_prefix_desc d = Ok (prefix_desc_wire d).
Proof.
  intros [Hr Hc] H. pose proof (prefix_desc_wire_len v6 d Hr) as E. pose proof (prefix_desc_len_spec d) as S.
  unfold write_prefix_desc. rewrite S.
  destruct d as [v|t|f n|c v]; cbn [prefix_desc_in_range prefix_desc_clean prefix_desc_code] in *; unfold prefix_desc_wire in *;
    rewrite blen_tlv16 in E; try (apply tlv16_wire; [lia|exact H]).
  destruct Hr as (-> & Hl & Hok & Hp). rewrite msb_round, network_canon by assumption. apply tlv16_wire; [unfold round_len in *; lia|exact H].
Qed.
Lemma nlri_value_wire_ok x : ls_nlri_fits x -> nlri_octets x < 65536 ->
  write_ls_nlri_value x = Ok (nlri_value_wire x) /\ blen (nlri_value_wire x) = nlri_octets x.
Proof.
  intros [Hx Hcl] Hl.
  assert (L : forall l, blen (flat_map node_sub_wire l) = total node_sub_octets l)
    by (intros; apply total_wire; intros; apply node_sub_wire_len).
  destruct x as [p i l|p i l m ds|v6 p i l ds|c v]; cbn [ls_nlri_in_range nlri_clean nlri_octets write_ls_nlri_value nlri_value_wire] in *.
  - rewrite write_descriptors_wire by lia. split; [reflexivity|].
    rewrite !blen_app, be_enc_blen, blen_tlv16, L. change (blen [p]) with 1. lia.
  - rewrite !write_descriptors_wire by lia. rewrite (each_wire _ link_desc_wire).
    + split; [reflexivity|]. rewrite !blen_app, be_enc_blen, !blen_tlv16, !L.
      rewrite (total_wire link_desc_wire link_desc_octets) by (intros; apply link_desc_wire_len). change (blen [p]) with 1. lia.
    + intros x Hin. apply write_link_desc_wire. apply (in_small _ ds _ _ Hin). lia.
  - destruct Hx as (_ & _ & _ & Hds). rewrite Forall_forall in *.
    rewrite !write_descriptors_wire by lia. rewrite (each_wire _ prefix_desc_wire).
    + split; [reflexivity|]. rewrite !blen_app, be_enc_blen, !blen_tlv16, !L.
      rewrite (total_wire prefix_desc_wire prefix_desc_octets) by (intros; apply (prefix_desc_wire_len v6); auto).
      change (blen [p]) with 1. lia.
    + intros x Hin. apply (write_prefix_desc_wire v6); [split; auto|]. apply (in_small _ ds _ _ Hin). lia.
  - split; reflexivity.
Qed.
Lemma nlri_type_code x : ls_nlri_code x = nlri_type x. Proof. destruct x as [| |[]|]; reflexivity. Qed.
Lemma ls_nlri_wire_ok pid x : ls_nlri_fits x -> nlri_size_fits 0 x -> write_ls_nlri (pid, x) = Ok (ls_nlri_wire (pid, x)).
Proof.
  intros Hx Hs. unfold nlri_size_fits in Hs. destruct (nlri_value_wire_ok x Hx) as [W L]; [lia|].
  destruct (nlri_value_round x Hx) as (b & _ & _ & S & _); [lia|].
  assert (Hpl : path_id_len pid <= 4) by (destruct pid; cbn; lia).
  cbn [write_ls_nlri]. rewrite W, S, nlri_hdr_ok by lia. cbn [tlv rbind]. unfold ls_nlri_wire, tlv_octets. cbn [fst snd].
  rewrite L, nlri_type_code, <- app_assoc. destruct pid; reflexivity.
Qed.
Lemma rd_wire_ok d : rd_fits d -> enc_rd d = rd_wire d.
Proof.
  destruct d as [a n|i n|a n|]; cbn [rd_fits]; intros H.
  - destruct H. now apply enc_rd_as2.
  - destruct H. unfold enc_rd, rd_value. apply enc_rd_ip; [reflexivity| |]; assumption.
  - destruct H. unfold enc_rd, rd_value. apply enc_rd_ip; [reflexivity| |]; assumption.
  - reflexivity.
Qed.
Lemma ls_vpn_nlri_wire_ok pid d x : rd_fits d -> ls_nlri_fits x -> nlri_size_fits 8 x ->
  write_ls_vpn_nlri (pid, d, x) = Ok (ls_vpn_nlri_wire (pid, d, x)).
Proof.
  intros Hd Hx Hs. unfold nlri_size_fits in Hs. destruct (nlri_value_wire_ok x Hx) as [W L]; [lia|].
  destruct (nlri_value_round x Hx) as (b & _ & _ & S & _); [lia|].
  assert (Hpl : path_id_len pid <= 4) by (destruct pid; cbn; lia).
  cbn [write_ls_vpn_nlri]. rewrite W, S.
  replace (12 + path_id_len pid + nlri_octets x) with (4 + path_id_len pid + (8 + nlri_octets x)) by lia.
  rewrite nlri_hdr_ok by lia. cbn [tlv rbind]. unfold ls_vpn_nlri_wire, tlv_octets. cbn [fst snd].
  rewrite <- rd_wire_ok by exact Hd. rewrite blen_app, enc_rd_len, L, nlri_type_code, <- app_assoc. destruct pid; reflexivity.
Qed.
