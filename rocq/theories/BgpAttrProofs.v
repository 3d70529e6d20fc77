From Verif Require Import Base BaseLemmas MapLib AfModel BgpCapModel BgpCapProofs BgpNlriModel BgpNlriSpec BgpNlriProofs BgpAttrModel BgpAttrSpec.
From Coq Require Import Lia ZifyBool ZifyN ZifyNat.

Lemma p_read_len ext n : (if ext : bool then n < 65536 else n < 256) -> parses (read_len ext) (enc_length ext n) n.
Proof.
  intros H. unfold read_len, enc_length. destruct ext; cbn [orb].
  - replace (n + 1 - 1) with n by lia. now apply parses_u16.
  - replace (n + 0) with n by lia. replace (255 <? n) with false by lia.
    unfold as_u8. rewrite N.mod_small by assumption. apply parses_u8.
Qed.
Lemma enc_length_blen ext n : (if ext : bool then n < 65536 else n < 256) ->
  blen (enc_length ext n) = 1 + (if ext then 1 else 0).
Proof.
  intros H. unfold enc_length. destruct ext; cbn [orb]; [now rewrite be_enc_blen|].
  replace (n + 0) with n by lia. replace (255 <? n) with false by lia. reflexivity.
Qed.
Definition len_ok (ext : bool) (n : N) : Prop := if ext then n < 65536 else n < 256.
Lemma p_ard {A} k (p : parser perr A) b x : parses p b x -> parses (ard k p) b x.
Proof. apply parses_map_err. Qed.
Lemma p_aother {E A} k (p : parser E A) b x : parses p b x -> parses (aother k p) b x.
Proof. apply parses_map_err. Qed.
Lemma p_in_slice {A} k ext (p : parser attr_err A) b n x :
  len_ok ext n -> n = blen b -> parses_end p b x -> parses (in_slice k ext p) (enc_length ext n ++ b) x.
Proof.
  intros Hn Hb Hp. unfold in_slice. eapply parses_bind; [apply p_ard, p_read_len, Hn|].
  rewrite <- (app_nil_r b). apply parses_slice; [exact Hb|]. intros off. now apply parses_on_sub.
Qed.
Lemma p_fixed {A} k ext (p : parser attr_err A) b n x :
  len_ok ext n -> parses p b x -> parses (fixed_len k ext n p) (enc_length ext n ++ b) x.
Proof.
  intros Hn Hp. unfold fixed_len. eapply parses_bind; [apply p_ard, p_read_len, Hn|].
  rewrite N.eqb_refl. exact Hp.
Qed.
Lemma p_times {E A} (p : parser E A) enc xs : (forall x, In x xs -> parses p (enc x) x) ->
  parses (times (length xs) p) (flat_map enc xs) xs.
Proof.
  induction xs as [|x xs IH]; intros H; cbn [times length flat_map]; [apply parses_ret|].
  eapply parses_bind; [apply H; now left|]. eapply parses_bind_ret; [|apply parses_ret].
  apply IH. intros y Hy. apply H. now right.
Qed.
Lemma flat_be_len k xs : blen (flat_map (be_enc k) xs) = N.of_nat k * blen xs.
Proof.
  induction xs as [|x xs IH]; cbn [flat_map]; [rewrite !blen_nil; lia|].
  rewrite blen_app, IH, be_enc_blen, blen_cons. lia.
Qed.
Lemma be_enc_ne k v : be_enc (S k) v <> [].
Proof. intros H. assert (H' := be_enc_blen (S k) v). rewrite H, blen_nil in H'. lia. Qed.
Lemma p_u32s k xs : Forall u32 xs ->
  parses_end (many_all (ard k read_u32)) (flat_map (be_enc 4) xs) xs.
Proof.
  intros H. apply parses_many_all. intros x Hx. split.
  - apply p_ard, parses_u32. rewrite Forall_forall in H. now apply H.
  - apply be_enc_ne.
Qed.
Definition wid (four : bool) : nat := if four then 4 else 2.
Lemma wid_N four : N.of_nat (wid four) = asn_width four. Proof. now destruct four. Qed.
Lemma p_asn k four a : asn_fits four a -> parses (ard k (read_be (asn_width four))) (be_enc (wid four) a) a.
Proof.
  intros H. apply p_ard. rewrite <- wid_N. apply parses_be. destruct four; exact H.
Qed.
Lemma segment_blen four s : blen (enc_segment (wid four) s) = segment_len (asn_width four) s.
Proof. unfold enc_segment, segment_len. rewrite !blen_cons, flat_be_len, wid_N. lia. Qed.
Lemma p_segment four s : segment_fits four s -> parses (parse_segment (asn_width four)) (enc_segment (wid four) s) s.
Proof.
  intros (Ht & Hn & Ha). destruct s as [ty asns]. cbn [fst snd] in *. unfold parse_segment, enc_segment. cbn [fst snd].
  unfold as_u8. rewrite N.mod_small by lia.
  change (ty :: blen asns :: flat_map (be_enc (wid four)) asns)
    with ([ty] ++ [blen asns] ++ flat_map (be_enc (wid four)) asns).
  eapply parses_bind; [apply p_ard, parses_u8|].
  replace ((1 <=? ty) && (ty <=? 2)) with true by lia.
  eapply parses_bind; [apply p_ard, parses_u8|].
  replace (blen asns =? 0) with false by lia.
  intros rest off. unfold bind at 1, get_reader at 1. unfold remaining. cbn [rbuf].
  rewrite blen_app, flat_be_len, wid_N.
  replace (asn_width four * blen asns + blen rest <? blen asns * asn_width four) with false by lia.
  replace (N.to_nat (blen asns)) with (length asns) by (unfold blen; lia).
  assert (Hp : parses (do asns0 <- times (length asns) (ard KAsPath (read_be (asn_width four)));; ret (ty, asns0))
                 (flat_map (be_enc (wid four)) asns) (ty, asns)).
  { eapply parses_bind_ret; [|apply parses_ret].
    apply p_times. intros a Hin. apply p_asn. rewrite Forall_forall in Ha. now apply Ha. }
  rewrite (Hp rest off), flat_be_len, wid_N. reflexivity.
Qed.
Lemma p_segments four ss : Forall (segment_fits four) ss ->
  parses_end (many_all (parse_segment (asn_width four))) (flat_map (enc_segment (wid four)) ss) ss.
Proof.
  intros H. apply parses_many_all. intros s Hs. rewrite Forall_forall in H. split.
  - apply p_segment. now apply H.
  - discriminate.
Qed.
Lemma segments_blen four ss : blen (flat_map (enc_segment (wid four)) ss) = sum_len (segment_len (asn_width four)) ss.
Proof.
  induction ss as [|s ss IH]; cbn [flat_map sum_len fold_right]; [reflexivity|].
  rewrite blen_app, segment_blen, IH. reflexivity.
Qed.
Lemma flat_map_id {A} (l : list (list A)) : flat_map (fun x => x) l = concat l.
Proof. induction l; cbn; congruence. Qed.
Lemma p_ext_comms k n cs : 1 < n -> Forall (octets n) cs ->
  parses_end (many_all (parse_ext_comm k n)) (concat cs) cs.
Proof.
  intros Hn H. rewrite <- flat_map_id. apply parses_many_all. intros c Hc.
  rewrite Forall_forall in H. destruct (H c Hc) as [Hl _]. destruct c as [|t v].
  { rewrite blen_nil in Hl. lia. }
  rewrite blen_cons in Hl. split; [|discriminate].
  unfold parse_ext_comm. change (t :: v) with ([t] ++ v) at 1.
  eapply parses_bind; [apply p_ard, parses_u8|].
  eapply parses_bind_ret; [|apply parses_ret]. apply p_aother, parses_bytes. lia.
Qed.
Lemma concat_octets_len n cs : Forall (octets n) cs -> blen (concat cs) = n * blen cs.
Proof.
  induction 1 as [|c cs [Hc _] _ IH]; cbn [concat]; [change (0 = n * 0); lia|].
  rewrite blen_app, IH, blen_cons. lia.
Qed.
Definition enc_large (c : N * N * N) : list N :=
  be_enc 4 (fst (fst c)) ++ be_enc 4 (snd (fst c)) ++ be_enc 4 (snd c).
Lemma enc_large_len cs : blen (flat_map enc_large cs) = 12 * blen cs.
Proof.
  induction cs as [|c cs IH]; cbn [flat_map]; [reflexivity|].
  rewrite blen_app, IH, blen_cons. unfold enc_large. rewrite !blen_app, !be_enc_blen. lia.
Qed.

(* ---- next hops and families ---- *)
Lemma enc_nexthop_len t k nh : nexthop_fits k nh -> blen (enc_nexthop_of t nh) = nexthop_len nh.
Proof.
  intros H. assert (Hg : blen (enc_nexthop nh) = nexthop_len nh /\
     forall r a, nh = NhLabeled r a -> blen (ip_octets a) = ip_len a).
  { destruct k, nh as [[o|o] [l|]|r [o|o]]; cbn in H; try contradiction;
      repeat match goal with H : _ /\ _ |- _ => destruct H end; unfold octets in *;
      cbn [enc_nexthop nexthop_len ip_len ip_octets]; rewrite ?blen_cons, ?blen_app, ?enc_rd_len;
      (split; [lia|intros ? ? Hq; try discriminate Hq; injection Hq as <- <-; cbn [ip_len ip_octets]; lia]). }
  destruct Hg as [Hg Hg2]. destruct nh as [a l|r a]; destruct t; try exact Hg.
Qed.
Lemma p_octets {E} (g : perr -> E) k l : octets k l -> parses (pmap_err g (read_bytes k)) l l.
Proof. intros [H _]. apply parses_map_err, parses_bytes. now symmetry. Qed.
Lemma p_nexthop k nh : nexthop_fits k nh -> parses (parse_nexthop k) (enc_nexthop nh) nh.
Proof.
  intros H. destruct k, nh as [[o|o] [l|]|r [o|o]]; cbn in H; try contradiction;
    repeat match goal with H : _ /\ _ |- _ => destruct H end;
    cbn [enc_nexthop ip_len ip_octets parse_nexthop];
    match goal with |- parses _ (?h :: ?t) _ => change (h :: t) with ([h] ++ t) end.
  - eapply parses_bind; [apply p_ard, parses_u8|]. cbn [N.eqb Pos.eqb].
    eapply parses_bind_ret; [apply p_octets; eassumption|apply parses_ret].
  - eapply parses_bind; [apply p_ard, parses_u8|]. change (16 + 16) with 32. cbn [N.eqb Pos.eqb].
    eapply parses_bind; [apply p_octets; eassumption|].
    eapply parses_bind_ret; [apply p_octets; eassumption|apply parses_ret].
  - eapply parses_bind; [apply p_ard, parses_u8|]. cbn [N.eqb Pos.eqb].
    eapply parses_bind_ret; [apply p_octets; eassumption|apply parses_ret].
  - eapply parses_bind; [apply p_ard, parses_u8|]. change (16 + 16) with 32. cbn [N.eqb Pos.eqb].
    eapply parses_bind; [apply p_octets; eassumption|].
    eapply parses_bind_ret; [apply p_octets; eassumption|apply parses_ret].
  - eapply parses_bind; [apply p_ard, parses_u8|]. cbn [N.eqb Pos.eqb].
    eapply parses_bind_ret; [apply p_octets; eassumption|apply parses_ret].
  - eapply parses_bind; [apply p_aother, parses_u8|]. rewrite <- (app_nil_r (enc_rd r ++ o)).
    apply parses_slice; [rewrite blen_app, enc_rd_len; unfold ip_fits, octets in *; lia|].
    intros off. apply parses_on_sub, parses_to_end. change (8 + 4) with 12. cbn [N.eqb Pos.eqb].
    eapply parses_bind; [apply p_aother, p_rd; assumption|].
    eapply parses_bind_ret; [apply p_octets; eassumption|apply parses_ret].
  - eapply parses_bind; [apply p_aother, parses_u8|]. rewrite <- (app_nil_r (enc_rd r ++ o)).
    apply parses_slice; [rewrite blen_app, enc_rd_len; unfold ip_fits, octets in *; lia|].
    intros off. apply parses_on_sub, parses_to_end. change (8 + 16) with 24. cbn [N.eqb Pos.eqb].
    eapply parses_bind; [apply p_aother, p_rd; assumption|].
    eapply parses_bind_ret; [apply p_octets; eassumption|apply parses_ret].
  - eapply parses_bind; [apply p_aother, parses_u8|]. cbn [N.eqb Pos.eqb].
    eapply parses_bind_ret; [apply p_octets; eassumption|apply parses_ret].
  - eapply parses_bind; [apply p_aother, parses_u8|]. cbn [N.eqb Pos.eqb].
    eapply parses_bind_ret; [apply p_octets; eassumption|apply parses_ret].
Qed.
Lemma p_af k afi safi : afi_ok afi = true -> safi_ok safi = true -> afi < 65536 ->
  parses (parse_af k) (be_enc 2 afi ++ [safi]) (afi, safi).
Proof.
  intros Ha Hs Hl. unfold parse_af. eapply parses_bind; [apply p_ard, parses_u16, Hl|].
  rewrite Ha. eapply parses_bind_ret; [apply p_ard, parses_u8|]. rewrite Hs. apply parses_ret.
Qed.
Lemma p_rest k v : parses_end (rest_octets k) v v.
Proof.
  unfold rest_octets. apply pe_get_reader. intros off. unfold remaining. cbn [rbuf].
  apply parses_to_end, p_ard, parses_bytes. reflexivity.
Qed.
Definition nlri_octets (x : nlri) : list N := match write_nlri x with Ok b => b | _ => [] end.
Lemma write_nlris_ok labels ap t xs : nlris_fit labels ap t xs ->
  write_nlris xs = Ok (flat_map nlri_octets xs) /\ blen (flat_map nlri_octets xs) = sum_len nlri_len xs.
Proof.
  intros [H _]. induction H as [|x xs Hx _ IH]; cbn [write_nlris flat_map sum_len fold_right]; [split; reflexivity|].
  destruct (nlri_written _ _ _ _ Hx) as (b & Hb & Hl). destruct IH as [IH1 IH2].
  rewrite Hb. cbn [rbind]. rewrite IH1. cbn [rbind]. replace (nlri_octets x) with b by (unfold nlri_octets; now rewrite Hb). split; [reflexivity|].
  rewrite blen_app, Hl, IH2. reflexivity.
Qed.
Lemma p_nlris k labels ap t xs : nlris_fit labels ap t xs ->
  parses_end (many_all (aother k (parse_nlri_of t (add_path_of ap t) (limit_of labels t)))) (flat_map nlri_octets xs) xs.
Proof.
  intros [H Hk]. apply parses_many_all. intros x Hx. rewrite Forall_forall in H. specialize (H x Hx).
  destruct (nlri_written _ _ _ _ H) as (b & Hb & Hl). unfold nlri_octets. rewrite Hb.
  pose proof (nlri_roundtrip _ _ _ _ _ H Hk Hb) as Hp. split; [apply p_aother, Hp|].
  intros ->. specialize (Hp [] 0). pose proof (strict_nlri t (add_path_of ap t) (limit_of labels t) (mkR [] 0) x) as Hs.
  cbn [app] in Hp. rewrite Hp in Hs. cbn in Hs. specialize (Hs eq_refl). lia.
Qed.

Lemma parse_value_unknown asn4 labels ap c ext : ~ In c typed_codes ->
  parse_value asn4 labels ap c ext = parse_unknown c ext.
Proof.
  intros H. destruct c as [|p]; [reflexivity|].
  repeat (destruct p as [p|p|]; try reflexivity; try (exfalso; apply H; cbn; tauto)).
Qed.

Lemma value_written asn4 labels ap v : value_fits asn4 labels ap v ->
  exists b, enc_value v = Ok b /\ (not_unread_reach v -> blen b = value_len v).
Proof.
  intros H. destruct v as [ | ? ? | | | | | | | | | | | | | [ | | ] | [ | | ] | | | | | ]; cbn in H;
    try (eexists; split; [reflexivity|]; intros _; cbn [value_len];
         rewrite ?blen_cons, ?blen_app, ?be_enc_blen, ?blen_nil, ?flat_be_len; cbn; lia).
  - eexists; split; [reflexivity|]. intros _. destruct H as [-> H]. cbn [value_len]. apply segments_blen.
  - eexists; split; [reflexivity|]. intros _. cbn [value_len]. apply (segments_blen true).
  - eexists; split; [reflexivity|]. intros _. destruct H as (-> & _ & _). destruct asn4; rewrite blen_app, !be_enc_blen; reflexivity.
  - eexists; split; [reflexivity|]. intros _. now apply concat_octets_len.
  - eexists; split; [reflexivity|]. intros _. now apply concat_octets_len.
  - eexists; split; [reflexivity|]. intros _. apply enc_large_len.
  - destruct H as (Hm & (k & Hk & Hn) & Hx). destruct (write_nlris_ok _ _ _ _ Hx) as [Hw Hl].
    cbn [enc_value]. rewrite Hw. eexists; split; [reflexivity|]. intros _.
    rewrite blen_app, be_enc_blen, blen_cons, blen_app, blen_cons, Hl, (enc_nexthop_len _ _ _ Hn). cbn [value_len]. lia.
  - destruct H as (Hm & (k & Hk & Hn) & Hx).
    cbn [enc_value]. eexists; split; [reflexivity|]. intros _.
    rewrite blen_app, be_enc_blen, blen_cons, blen_app, blen_cons, (enc_nexthop_len _ _ _ Hn). cbn [value_len]. lia.
  - eexists; split; [reflexivity|]. intros [].
  - destruct H as (Hm & Hk & Hx). destruct (write_nlris_ok _ _ _ _ Hx) as [Hw Hl].
    cbn [enc_value]. rewrite Hw. eexists; split; [reflexivity|]. intros _.
    rewrite blen_app, be_enc_blen, blen_cons, Hl. cbn [value_len]. lia.
  - eexists; split; [reflexivity|]. intros _. rewrite blen_app, be_enc_blen, blen_cons. cbn [value_len]. lia.
  - eexists; split; [reflexivity|]. intros _. rewrite blen_app, be_enc_blen, blen_cons. cbn [value_len]. lia.
Qed.

Lemma p_nexthop_of t k nh : nh_kind_of t = Some k -> nexthop_fits k nh ->
  (t = BgpLsVpn -> exists a, nh = NhLabeled (RdAs2 0 0) a) ->
  parses (parse_nexthop k) (enc_nexthop_of t nh) nh.
Proof.
  intros Hk Hn Hv. assert (Hd : t = BgpLsVpn \/ t <> BgpLsVpn) by (destruct (addr_type_eq_dec t BgpLsVpn); auto).
  destruct Hd as [->|Hd].
  - destruct (Hv eq_refl) as [a ->]. apply p_nexthop in Hn. exact Hn.
  - replace (enc_nexthop_of t nh) with (enc_nexthop nh); [now apply p_nexthop|].
    destruct t; try reflexivity. contradiction.
Qed.
Lemma p_value asn4 labels ap v b ext : value_fits asn4 labels ap v -> not_unread_reach v ->
  len_ok ext (value_len v) -> enc_value v = Ok b ->
  parses (parse_value asn4 labels ap (attr_code v) ext) (enc_length ext (value_len v) ++ b) v.
Proof.
  intros H Hu Hl Hw. destruct (value_written _ _ _ _ H) as (b' & Hb' & Hbl). specialize (Hbl Hu).
  assert (b' = b) by congruence. subst b'. clear Hb'. symmetry in Hbl.
  destruct v as [ | ? ? | | | | | | | | | | | | | [t nh xs|t nh o| ] | [t xs|t o|afi safi o] | | | | | ];
    cbn [attr_code enc_value] in *; cbn [value_fits] in H; try (apply Ok_inj in Hw; subst b).
  - apply p_fixed; [exact Hl|]. eapply parses_bind_ret; [apply p_ard, parses_u8|].
    replace (v <=? 2) with true by lia. apply parses_ret.
  - destruct H as [-> H]. apply p_in_slice; [exact Hl|exact Hbl|]. eapply parses_end_bind'; [|apply parses_ret].
    apply p_segments. exact H.
  - apply p_in_slice; [exact Hl|exact Hbl|]. eapply parses_end_bind'; [|apply parses_ret].
    apply (p_segments true). exact H.
  - apply p_fixed; [exact Hl|]. eapply parses_bind_ret; [apply p_ard, parses_u32, H|apply parses_ret].
  - apply p_fixed; [exact Hl|]. eapply parses_bind_ret; [apply p_ard, parses_u32, H|apply parses_ret].
  - apply p_fixed; [exact Hl|]. eapply parses_bind_ret; [apply p_ard, parses_u32, H|apply parses_ret].
  - apply p_fixed; [exact Hl|]. apply parses_ret.
  - destruct H as (-> & Ha & Ho). apply p_fixed; [exact Hl|].
    eapply parses_bind; [apply (p_asn _ asn4), Ha|].
    eapply parses_bind_ret; [apply p_ard, parses_u32, Ho|apply parses_ret].
  - apply p_in_slice; [exact Hl|exact Hbl|]. eapply parses_end_bind'; [|apply parses_ret]. apply p_u32s, H.
  - apply p_in_slice; [exact Hl|exact Hbl|]. eapply parses_end_bind'; [|apply parses_ret].
    apply p_ext_comms; [lia|exact H].
  - apply p_in_slice; [exact Hl|exact Hbl|]. eapply parses_end_bind'; [|apply parses_ret].
    apply p_ext_comms; [lia|exact H].
  - apply p_in_slice; [exact Hl|exact Hbl|]. eapply parses_end_bind'; [|apply parses_ret].
    apply parses_many_all. intros c Hc. rewrite Forall_forall in H. destruct (H c Hc) as (H1 & H2 & H3). split.
    + destruct c as [[x y] z]. cbn [fst snd] in *. eapply parses_bind; [apply p_ard, parses_u32, H1|].
      eapply parses_bind; [apply p_ard, parses_u32, H2|].
      eapply parses_bind_ret; [apply p_ard, parses_u32, H3|apply parses_ret].
    + intros Hq. apply app_eq_nil in Hq. destruct Hq as [Hq _]. exact (be_enc_ne _ _ Hq).
  - apply p_in_slice; [exact Hl|exact Hbl|]. apply parses_to_end.
    eapply parses_bind_ret; [apply p_ard, parses_u32, H|apply parses_ret].
  - apply p_in_slice; [exact Hl|exact Hbl|]. eapply parses_end_bind'; [|apply parses_ret]. apply p_u32s, H.
  - destruct H as (Hm & (k & Hk & Hn) & Hx). destruct (write_nlris_ok _ _ _ _ Hx) as [Hwx _].
    rewrite Hwx in Hw. cbn [rbind] in Hw. apply Ok_inj in Hw. subst b.
    apply p_in_slice; [exact Hl|exact Hbl|].
    change (be_enc 2 (at_afi t) ++ at_safi t :: enc_nexthop_of t nh ++ 0 :: flat_map nlri_octets xs)
      with (be_enc 2 (at_afi t) ++ [at_safi t] ++ enc_nexthop_of t nh ++ 0 :: flat_map nlri_octets xs).
    rewrite app_assoc.
    eapply parses_end_bind; [apply p_af; [apply at_afi_ok|apply at_safi_ok|apply at_afi_small]|].
    cbn [fst snd]. rewrite from_at. rewrite Hk.
    eapply parses_end_bind; [apply p_nexthop_of; try eassumption|].
    { intros ->. discriminate Hm. }
    change (0 :: flat_map nlri_octets xs) with ([0] ++ flat_map nlri_octets xs).
    eapply parses_end_bind; [apply p_ard, parses_u8|]. rewrite Hm.
    eapply parses_end_bind'; [|apply parses_ret]. now apply p_nlris.
  - destruct H as (Hm & (k & Hk & Hn) & Hv).
    apply p_in_slice; [exact Hl|exact Hbl|].
    change (be_enc 2 (at_afi t) ++ at_safi t :: enc_nexthop_of t nh ++ 0 :: o)
      with (be_enc 2 (at_afi t) ++ [at_safi t] ++ enc_nexthop_of t nh ++ [0] ++ o).
    rewrite app_assoc.
    eapply parses_end_bind; [apply p_af; [apply at_afi_ok|apply at_safi_ok|apply at_afi_small]|].
    cbn [fst snd]. rewrite from_at. rewrite Hk.
    eapply parses_end_bind; [apply p_nexthop_of; try eassumption|].
    eapply parses_end_bind; [apply p_ard, parses_u8|]. rewrite Hm.
    eapply parses_end_bind'; [|apply parses_ret]. apply p_rest.
  - destruct Hu.
  - destruct H as (Hm & (k & Hk) & Hx). destruct (write_nlris_ok _ _ _ _ Hx) as [Hwx _].
    rewrite Hwx in Hw. cbn [rbind] in Hw. apply Ok_inj in Hw. subst b.
    apply p_in_slice; [exact Hl|exact Hbl|].
    change (be_enc 2 (at_afi t) ++ at_safi t :: flat_map nlri_octets xs)
      with (be_enc 2 (at_afi t) ++ [at_safi t] ++ flat_map nlri_octets xs).
    rewrite app_assoc.
    eapply parses_end_bind; [apply p_af; [apply at_afi_ok|apply at_safi_ok|apply at_afi_small]|].
    cbn [fst snd]. rewrite from_at, Hk, Hm.
    eapply parses_end_bind'; [|apply parses_ret]. now apply p_nlris.
  - destruct H as (Hm & (k & Hk)).
    apply p_in_slice; [exact Hl|exact Hbl|].
    change (be_enc 2 (at_afi t) ++ at_safi t :: o) with (be_enc 2 (at_afi t) ++ [at_safi t] ++ o).
    rewrite app_assoc.
    eapply parses_end_bind; [apply p_af; [apply at_afi_ok|apply at_safi_ok|apply at_afi_small]|].
    cbn [fst snd]. rewrite from_at, Hk, Hm.
    eapply parses_end_bind'; [|apply parses_ret]. apply p_rest.
  - destruct H as (Ha & Hs & Hs2 & Ha2 & Hf).
    apply p_in_slice; [exact Hl|exact Hbl|].
    change (be_enc 2 afi ++ safi :: o) with (be_enc 2 afi ++ [safi] ++ o). rewrite app_assoc.
    eapply parses_end_bind; [apply p_af; assumption|]. cbn [fst snd].
    destruct (from_afi_safi afi safi) as [t|]; [rewrite Hf|];
      (eapply parses_end_bind'; [apply p_rest|apply parses_ret]).
  - apply p_in_slice; [exact Hl|exact Hbl|]. apply parses_to_end.
    eapply parses_bind_ret; [apply p_ard, parses_u32, H|apply parses_ret].
  - apply p_in_slice; [exact Hl|exact Hbl|]. apply parses_to_end.
    change (1 :: be_enc 2 11 ++ be_enc 8 metric) with ([1] ++ be_enc 2 11 ++ be_enc 8 metric).
    eapply parses_bind; [apply p_ard, parses_u8|]. change (1 =? 1) with true. cbv iota.
    eapply parses_bind; [apply p_ard, parses_u16; lia|]. change (11 =? 11) with true. cbv iota.
    eapply parses_bind_ret; [apply p_ard, parses_u64, H|apply parses_ret].
  - apply p_in_slice; [exact Hl|exact Hbl|]. apply pe_get_reader. intros off.
    unfold remaining; cbn [rbuf]. apply parses_to_end.
    eapply parses_bind_ret; [apply p_ard, parses_bytes; reflexivity|apply parses_ret].
  - apply p_in_slice; [exact Hl|exact Hbl|]. apply pe_get_reader. intros off.
    unfold remaining; cbn [rbuf]. apply parses_to_end.
    eapply parses_bind_ret; [apply p_ard, parses_bytes; reflexivity|apply parses_ret].
  - destruct H as [Hc Hin]. rewrite parse_value_unknown by assumption. unfold parse_unknown.
    eapply parses_bind; [apply p_ard, p_read_len, Hl|]. cbn [value_len].
    intros rest off. unfold bind at 1, get_reader at 1. unfold remaining. cbn [rbuf].
    rewrite blen_app. replace (blen v + blen rest <? blen v) with false by lia.
    revert rest off. eapply parses_bind_ret; [apply p_ard, parses_bytes; reflexivity|apply parses_ret].
Qed.

Lemma flags_conform_ok o t p v : flags_conform (category_of v) o t p <-> flags_ok o t p v = true.
Proof. destruct v; cbn; destruct o, t, p; cbn; intuition congruence. Qed.
Lemma flags_decode a :
  flag_set 128 (flags_octet a) = pa_opt a /\ flag_set 64 (flags_octet a) = pa_trans a /\
  flag_set 32 (flags_octet a) = pa_partial a /\ flag_set 16 (flags_octet a) = pa_ext a.
Proof. destruct a as [[] [] [] [] v]; repeat split; reflexivity. Qed.

Lemma attr_roundtrip asn4 labels ap a b : attr_fits asn4 labels ap a -> not_unread_reach (pa_val a) ->
  write_attr a = Ok b -> parses (parse_attr asn4 labels ap) b a.
Proof.
  intros (Hf & Hv & Hl) Hu Hw. destruct (value_written _ _ _ _ Hv) as (vb & Hvb & _).
  unfold write_attr in Hw. rewrite Hvb in Hw. cbn [rbind] in Hw. apply Ok_inj in Hw. subst b.
  unfold parse_attr. destruct (flags_decode a) as (F1 & F2 & F3 & F4).
  match goal with |- parses _ (?f :: ?c :: ?t) _ => change (f :: c :: t) with ([f] ++ [c] ++ t) end.
  eapply parses_bind; [apply parses_map_err, parses_u8|].
  eapply parses_bind; [apply parses_map_err, parses_u8|].
  rewrite F1, F2, F3, F4. cbv zeta.
  eapply parses_bind_ret; [apply p_value; try eassumption|].
  apply flags_conform_ok in Hf. rewrite Hf. destruct a. apply parses_ret.
Qed.
Lemma attr_written asn4 labels ap a : attr_fits asn4 labels ap a -> not_unread_reach (pa_val a) ->
  exists b, write_attr a = Ok b /\ blen b = attr_len a.
Proof.
  intros (Hf & Hv & Hl) Hu. destruct (value_written _ _ _ _ Hv) as (vb & Hvb & Hvl). specialize (Hvl Hu).
  unfold write_attr. rewrite Hvb. eexists; split; [reflexivity|].
  rewrite !blen_cons, blen_app, enc_length_blen, Hvl by exact Hl. unfold attr_len. lia.
Qed.

(* ---- no crash on any bytes ---- *)
Lemma safe_times {E A} n (p : parser E A) : safe p -> safe (times n p).
Proof. intros Hp. induction n; cbn [times]; psafe. Qed.
Lemma safe_read_len ext : safe (read_len ext). Proof. destruct ext; unfold read_len; psafe. Qed.
Lemma safe_segment w : safe (parse_segment w).
Proof.
  unfold parse_segment, ard, afail. psafe. apply safe_times. psafe.
Qed.
Lemma strict_segment w : strict (parse_segment w).
Proof.
  unfold parse_segment. apply strict_bind_l; [apply strict_map_err, strict_u8|].
  intros. unfold afail, ard. psafe. apply safe_times. psafe.
Qed.
Lemma safe_nexthop k : safe (parse_nexthop k).
Proof. destruct k; unfold parse_nexthop, ard, aother, afail; psafe; apply safe_rd. Qed.
Definition limits_safe (labels : label_limits) : Prop := forall t, limit_of labels t <= 7.
Lemma safe_ext_comm k n : safe (parse_ext_comm k n).
Proof. unfold parse_ext_comm, ard, aother. psafe. Qed.
Lemma strict_ext_comm k n : strict (parse_ext_comm k n).
Proof. unfold parse_ext_comm. apply strict_bind_l; [apply strict_map_err, strict_u8|]. intros. unfold aother. psafe. Qed.
Lemma safe_mp labels ap ext : limits_safe labels ->
  safe (parse_mp_reach labels ap ext) /\ safe (parse_mp_unreach labels ap ext).
Proof.
  intros H. assert (Hn : forall k t, safe (many_all (aother k (parse_nlri_of t (add_path_of ap t) (limit_of labels t))))).
  { intros. apply safe_many_all; unfold aother; [apply safe_map_err, safe_nlri, H|apply strict_map_err, strict_nlri]. }
  assert (Hq : forall k (f : list N -> attr_value), safe (do v <- rest_octets k;; ret (f v))).
  { intros. apply safe_bind; [|intros; apply safe_ret]. unfold rest_octets, ard.
    apply safe_bind; [apply safe_get_reader|intros; apply safe_map_err, safe_bytes]. }
  split; unfold parse_mp_reach, parse_mp_unreach, in_slice, parse_af.
  all: apply safe_bind; [unfold ard; apply safe_map_err, safe_read_len|intros].
  all: apply safe_bind; [unfold ard; psafe|intros].
  all: apply safe_on_sub, safe_bind; [unfold ard, afail; psafe|intros [afi safi]; cbn [fst snd]].
  all: destruct (from_afi_safi afi safi) as [t|]; [|apply Hq].
  all: destruct (nh_kind_of t) as [k|]; [|apply Hq].
  - apply safe_bind; [apply safe_nexthop|intros]. apply safe_bind; [unfold ard; psafe|intros].
    destruct (modelled_family t); [|apply Hq].
    apply safe_bind; [apply Hn|intros; apply safe_ret].
  - destruct (modelled_family t); [|apply Hq].
    apply safe_bind; [apply Hn|intros; apply safe_ret].
Qed.
Lemma safe_value asn4 labels ap c ext : limits_safe labels -> safe (parse_value asn4 labels ap c ext).
Proof.
  intros H. destruct (safe_mp labels ap ext H) as [Hr Hu].
  assert (Hs : forall k (p : parser attr_err attr_value), safe p -> safe (in_slice k ext p)).
  { intros k p Hp. unfold in_slice. apply safe_bind; [unfold ard; apply safe_map_err, safe_read_len|intros].
    unfold ard. psafe. }
  assert (Hf : forall k n (p : parser attr_err attr_value), safe p -> safe (fixed_len k ext n p)).
  { intros k n p Hp. unfold fixed_len. apply safe_bind; [unfold ard; apply safe_map_err, safe_read_len|intros].
    unfold afail. psafe. }
  assert (Hm : forall k w (mk : list segment -> attr_value),
    safe (in_slice k ext (do ss <- many_all (parse_segment w);; ret (mk ss)))).
  { intros. apply Hs. apply safe_bind; [apply safe_many_all; [apply safe_segment|apply strict_segment]|intros; apply safe_ret]. }
  assert (H4 : forall k, safe (many_all (ard k read_u32))).
  { intros. apply safe_many_all; unfold ard; [psafe|apply strict_map_err, strict_be; lia]. }
  assert (Hk : forall k, safe (parse_unknown k ext)).
  { intros. unfold parse_unknown. apply safe_bind; [unfold ard; apply safe_map_err, safe_read_len|intros].
    unfold ard, afail. psafe. }
  assert (He : forall k n, safe (many_all (parse_ext_comm k n))).
  { intros. apply safe_many_all; [apply safe_ext_comm|apply strict_ext_comm]. }
  assert (Ho : parse_value asn4 labels ap c ext = parse_unknown c ext \/ In c typed_codes).
  { destruct (in_dec N.eq_dec c typed_codes) as [Hi|Hi]; [now right|left; now apply parse_value_unknown]. }
  destruct Ho as [->|Hi]; [apply Hk|].
  cbn [In typed_codes] in Hi.
  repeat (destruct Hi as [<-|Hi]; [cbn [parse_value]|]); try destruct Hi.
  - apply Hf. unfold ard, afail. psafe.
  - apply Hm.
  - apply Hf. unfold ard. psafe.
  - apply Hf. unfold ard. psafe.
  - apply Hf. unfold ard. psafe.
  - apply Hf. psafe.
  - apply Hf. unfold ard. psafe.
  - apply Hs. apply safe_bind; [apply H4|intros; apply safe_ret].
  - apply Hs. unfold ard. psafe.
  - apply Hs. apply safe_bind; [apply H4|intros; apply safe_ret].
  - exact Hr.
  - exact Hu.
  - apply Hs. apply safe_bind; [apply He|intros; apply safe_ret].
  - apply Hm.
  - apply Hs. apply safe_bind; [apply He|intros; apply safe_ret].
  - apply Hs. unfold ard, afail. psafe.
  - apply Hs. unfold ard. psafe.
  - apply Hs. apply safe_bind; [|intros; apply safe_ret]. apply safe_many_all; unfold ard; [psafe|].
    apply strict_bind_l; [apply strict_map_err, strict_be; lia|intros; psafe].
  - apply Hs. unfold ard. psafe.
  - apply Hs. unfold ard. psafe.
Qed.
Lemma safe_attr asn4 labels ap : limits_safe labels -> safe (parse_attr asn4 labels ap).
Proof.
  intros H. unfold parse_attr. apply safe_bind; [psafe|intros]. apply safe_bind; [psafe|intros]. cbv zeta.
  apply safe_bind; [now apply safe_value|intros]. unfold afail. psafe.
Qed.
