From Verif Require Import Base BaseLemmas AfModel BgpCapModel BgpCapSpec.

Lemma at_afi_ok t : afi_ok (at_afi t) = true.
Proof. destruct t; reflexivity. Qed.
Lemma at_safi_ok t : safi_ok (at_safi t) = true.
Proof. destruct t; reflexivity. Qed.
Lemma from_at t : from_afi_safi (at_afi t) (at_safi t) = Some t.
Proof. destruct t; vm_compute; reflexivity. Qed.
Lemma from_at_inv afi safi t : from_afi_safi afi safi = Some t -> at_afi t = afi /\ at_safi t = safi.
Proof.
  unfold from_afi_safi. destruct (find _ _) as [row|] eqn:E; [|discriminate].
  intros H; inversion H; subst. apply find_some in E as [Hin Hq].
  apply andb_true_iff in Hq as [H1 H2]. apply N.eqb_eq in H1, H2. subst.
  unfold afi_safi_table in Hin. cbn [In] in Hin.
  repeat (destruct Hin as [<-|Hin]; [split; reflexivity|]). contradiction.
Qed.
Lemma at_afi_small t : at_afi t < 65536. Proof. destruct t; reflexivity. Qed.
Lemma at_safi_small t : at_safi t < 256. Proof. destruct t; reflexivity. Qed.

Lemma p_chk_afi v : afi_ok v = true -> parses (chk_afi v) [] v.
Proof. intros H. unfold chk_afi. rewrite H. apply parses_ret. Qed.
Lemma p_chk_safi v : safi_ok v = true -> parses (chk_safi v) [] v.
Proof. intros H. unfold chk_safi. rewrite H. apply parses_ret. Qed.
Lemma p_chk_at t : parses (chk_at (at_afi t) (at_safi t)) [] t.
Proof. unfold chk_at. rewrite from_at. apply parses_ret. Qed.
Lemma p_check_len code l : parses (check_cap_len code l) [l] l.
Proof.
  intros rest off. unfold check_cap_len, bind, pmap_err, peek_u8. cbn [app rbuf map_err].
  rewrite N.eqb_refl. reflexivity.
Qed.

(* afi, safi, address type, continued by k *)
Lemma p_family {B} t (k : addr_type -> parser cap_err B) b y :
  parses (k t) b y ->
  parses (do a <- crd read_u16;; do afi <- chk_afi a;;
          do s <- crd read_u8;; do safi <- chk_safi s;;
          do t <- chk_at afi safi;; k t) (enc_afi_safi t ++ b) y.
Proof.
  intros H. unfold enc_afi_safi. rewrite <- app_assoc.
  eapply parses_bind; [apply parses_map_err, parses_u16, at_afi_small|].
  eapply parses_bind0; [apply p_chk_afi, at_afi_ok|].
  eapply (parses_bind _ _ [at_safi t]); [apply parses_map_err, parses_u8|].
  eapply parses_bind0; [apply p_chk_safi, at_safi_ok|].
  eapply parses_bind0; [apply p_chk_at|]. exact H.
Qed.

Lemma bit7 (b : bool) : (N.land (if b then 128 else 0) 128 =? 128) = b.
Proof. destruct b; reflexivity. Qed.

(* a sub-slice parsed by a body that consumes it entirely *)
Lemma p_slice_body {A} n (p : parser cap_err A) b x :
  n = blen b -> parses_end p b x ->
  parses (do sub <- crd (take_slice n);; on_sub sub p) b x.
Proof.
  intros Hn Hp. rewrite <- (app_nil_r b). unfold crd.
  apply parses_slice; [exact Hn|]. intros off. now apply parses_on_sub.
Qed.

Lemma p_gr_family f : parses parse_gr_family (enc_gr_family f) f.
Proof.
  unfold parse_gr_family. apply p_slice_body.
  - unfold enc_gr_family, enc_afi_safi. rewrite !blen_app, be_enc_blen. reflexivity.
  - apply parses_to_end. unfold gr_family_body, enc_gr_family. apply p_family.
    eapply parses_bind_ret; [apply parses_map_err, parses_u8|].
    rewrite bit7. destruct f; cbn [fst snd]. apply parses_ret.
Qed.
Lemma gr_family_ne f : enc_gr_family f <> [].
Proof. unfold enc_gr_family, enc_afi_safi. rewrite be_enc_2. discriminate. Qed.

Lemma gr_header (rs nt : bool) (tm : N) : tm < 4096 ->
  let h := N.lor (N.lor (if rs then 32768 else 0) (if nt then 16384 else 0)) tm in
  h < 65536 /\ (N.land h 32768 =? 32768) = rs /\ (N.land h 16384 =? 16384) = nt /\ N.land h 4095 = tm.
Proof.
  intros Ht. cbv zeta.
  assert (E : N.lor (N.lor (if rs then 32768 else 0) (if nt then 16384 else 0)) tm
              = ((if rs then 8 else 0) + (if nt then 4 else 0)) * 2 ^ 12 + tm).
  { rewrite <- (lor_disjoint _ tm 12) by exact Ht. f_equal. destruct rs, nt; reflexivity. }
  rewrite E. set (q := (if rs then 8 else 0) + (if nt then 4 else 0)).
  assert (Hq : q < 16) by (subst q; destruct rs, nt; lia).
  change (2 ^ 12) with 4096.
  split; [lia|].
  assert (Hbit : forall k, 12 <= k -> N.testbit (q * 4096 + tm) k = N.testbit q (k - 12)).
  { intros k Hk. replace (N.testbit q (k - 12)) with (N.testbit ((q * 4096 + tm) / 2 ^ 12) (k - 12)).
    - rewrite N.div_pow2_bits. f_equal. lia.
    - f_equal. change (2 ^ 12) with 4096. rewrite N.div_add_l by lia. rewrite N.div_small by lia. lia. }
  split; [|split].
  - change 32768 with (2 ^ 15). rewrite land_pow2, Hbit by lia. subst q. destruct rs, nt; reflexivity.
  - change 16384 with (2 ^ 14). rewrite land_pow2, Hbit by lia. subst q. destruct rs, nt; reflexivity.
  - change 4095 with (2 ^ 12 - 1). rewrite land_mask. change (2 ^ 12) with 4096.
    rewrite N.add_comm, N.mod_add by lia. apply N.mod_small. exact Ht.
Qed.

Lemma p_ll_family f : snd f < 16777216 -> parses parse_ll_family (enc_ll_family f) f.
Proof.
  intros Hf. unfold parse_ll_family. apply p_slice_body.
  - unfold enc_ll_family, enc_afi_safi. rewrite !blen_app, !be_enc_blen. reflexivity.
  - apply parses_to_end. unfold ll_family_body, enc_ll_family. apply p_family.
    eapply (parses_bind _ _ [_]); [apply parses_map_err, parses_u8|].
    eapply parses_bind_ret; [apply parses_map_err, (parses_be 3); exact Hf|].
    rewrite bit7. destruct f as [[a b] c]; cbn [fst snd]. apply parses_ret.
Qed.
Lemma ll_family_ne f : enc_ll_family f <> [].
Proof. unfold enc_ll_family, enc_afi_safi. rewrite be_enc_2. discriminate. Qed.

Lemma p_ap_family f : parses parse_ap_family (enc_ap_family f) f.
Proof.
  unfold parse_ap_family, enc_ap_family. apply p_family.
  eapply (parses_bind _ _ [_] []); [apply parses_map_err, parses_u8|].
  destruct f as [[t s] r]; cbn [fst snd]. destruct s, r; apply parses_ret.
Qed.
Lemma ap_family_ne f : enc_ap_family f <> [].
Proof. unfold enc_ap_family, enc_afi_safi. rewrite be_enc_2. discriminate. Qed.

Lemma p_enh e : afi_ok (snd e) = true -> parses parse_enh (enc_enh e) e.
Proof.
  intros He. unfold parse_enh. apply p_slice_body.
  - unfold enc_enh. rewrite !blen_app, !be_enc_blen. reflexivity.
  - apply parses_to_end. unfold enh_body, enc_enh.
    eapply parses_bind; [apply parses_map_err, parses_u16, at_afi_small|].
    eapply parses_bind0; [apply p_chk_afi, at_afi_ok|].
    assert (Hs := at_safi_small (fst e)).
    eapply parses_bind; [apply parses_map_err, parses_u16; lia|].
    unfold as_u8. rewrite N.mod_small by exact Hs.
    eapply parses_bind0; [apply p_chk_safi, at_safi_ok|].
    eapply parses_bind0; [apply p_chk_at|].
    assert (Hn : snd e < 65536) by (unfold afi_ok in He; lia).
    eapply parses_bind_ret; [apply parses_map_err, parses_u16; exact Hn|].
    eapply parses_bind0; [apply p_chk_afi, He|]. destruct e; apply parses_ret.
Qed.
Lemma enh_ne e : enc_enh e <> [].
Proof. unfold enc_enh. rewrite be_enc_2. discriminate. Qed.

Lemma p_multiple_label l : parses parse_multiple_label (enc_multiple_label l) l.
Proof.
  unfold parse_multiple_label, enc_multiple_label. apply p_family.
  eapply parses_bind_ret; [apply parses_map_err, parses_u8|]. destruct l; apply parses_ret.
Qed.

Lemma flat_len {A} (enc : A -> list N) k l : (forall x, blen (enc x) = k) ->
  blen (flat_map enc l) = k * blen l.
Proof.
  intros H. induction l as [|x l IH]; cbn [flat_map]; [change (0 = k * 0); lia|].
  rewrite blen_app, H, IH, blen_cons. lia.
Qed.
Lemma len_gr_family f : blen (enc_gr_family f) = 4.
Proof. unfold enc_gr_family, enc_afi_safi. rewrite !blen_app, be_enc_blen. reflexivity. Qed.
Lemma len_ll_family f : blen (enc_ll_family f) = 7.
Proof. unfold enc_ll_family, enc_afi_safi. rewrite !blen_app, !be_enc_blen. reflexivity. Qed.
Lemma len_ap_family f : blen (enc_ap_family f) = 4.
Proof. unfold enc_ap_family, enc_afi_safi. rewrite !blen_app, be_enc_blen. reflexivity. Qed.
Lemma len_enh f : blen (enc_enh f) = 6.
Proof. unfold enc_enh. rewrite !blen_app, !be_enc_blen. reflexivity. Qed.
Lemma len_multiple_label f : blen (enc_multiple_label f) = 4.
Proof. unfold enc_multiple_label, enc_afi_safi. rewrite !blen_app, be_enc_blen. reflexivity. Qed.

Lemma p_raw v : blen v <= 255 -> parses parse_raw_cap ([as_u8 (blen v)] ++ v) v.
Proof.
  intros H. unfold parse_raw_cap, as_u8. rewrite N.mod_small by lia.
  eapply parses_bind; [apply parses_map_err, parses_u8|].
  apply parses_map_err, parses_bytes. reflexivity.
Qed.

Lemma p_lenslice {A} (p : parser cap_err A) b x :
  blen b <= 255 -> parses_end p b x ->
  parses (do len <- crd read_u8;; do sub <- crd (take_slice len);; on_sub sub p)
         ([as_u8 (blen b)] ++ b) x.
Proof.
  intros Hl Hp. unfold as_u8. rewrite N.mod_small by lia.
  eapply (parses_bind _ _ [blen b]); [apply parses_map_err, parses_u8|].
  apply p_slice_body; auto.
Qed.

Lemma p_name n : utf8_ok n = true -> blen n <= 255 -> parses read_name (as_u8 (blen n) :: n) n.
Proof.
  intros Hu Hl. unfold read_name, as_u8. rewrite N.mod_small by lia.
  eapply (parses_bind _ _ [blen n]); [apply parses_map_err, parses_u8|].
  eapply parses_bind_ret; [apply parses_map_err, parses_bytes; reflexivity|].
  rewrite Hu. apply parses_ret.
Qed.

Lemma unrec_value code : code < 256 -> ~ dedicated_code code ->
  parse_cap_value code = (do v <- parse_raw_cap;; ret (CUnrecognized code v)).
Proof.
  intros Hc Hd. unfold parse_cap_value.
  assert (Hn : forall k, In k [1; 2; 5; 6; 8; 9; 64; 65; 69; 70; 71; 73; 128] -> (code =? k) = false).
  { intros k Hk. apply N.eqb_neq. intros ->. apply Hd. now left. }
  rewrite !Hn by (cbn; tauto).
  replace ((239 <=? code) && (code <=? 254)) with false; [reflexivity|].
  symmetry. apply not_true_iff_false. intros H. apply Hd. right. apply andb_true_iff in H as [H1 H2]. lia.
Qed.
Lemma exp_value code : 239 <= code <= 254 ->
  parse_cap_value code = (do v <- parse_raw_cap;; ret (CExperimental code v)).
Proof.
  intros Hc. unfold parse_cap_value.
  repeat match goal with |- context[code =? ?k] => replace (code =? k) with false by lia end.
  replace (239 <=? code) with true by lia. replace (code <=? 254) with true by lia. reflexivity.
Qed.

Lemma Ok_inj {E A} (x y : A) : @Ok E A x = Ok y -> x = y.
Proof. intros H. now inversion H. Qed.

Lemma cap_roundtrip c b : cap_fits c -> not_multiple_labels c -> write_cap c = Ok b ->
  parses parse_cap b c /\ blen b = cap_len c.
Proof.
  intros Hf Hm Hw.
  assert (Hsplit : exists v, b = [cap_code c] ++ v /\ blen v = 1 + cap_value_len c /\
                             parses (parse_cap_value (cap_code c)) v c).
  2:{ destruct Hsplit as [v [-> [Hl Hp]]]. split.
      - unfold parse_cap. eapply parses_bind; [apply parses_map_err, parses_u8|exact Hp].
      - rewrite blen_app, Hl. unfold cap_len. rewrite blen_cons, blen_nil. lia. }
  destruct c as [t| | | |rs nt tm fams|fams|h d|fams| |ls|r|a|es|code v|code v];
    cbn [not_multiple_labels cap_fits] in *; try contradiction; unfold write_cap in Hw;
    cbn [cap_code cap_value_len] in *.
  - (* mp *) apply Ok_inj in Hw; subst b. exists ([4] ++ be_enc 2 (at_afi t) ++ [0; at_safi t]). split; [reflexivity|]. split.
    { rewrite !blen_app, be_enc_blen. reflexivity. }
    change (parse_cap_value 1) with parse_multiprotocol. unfold parse_multiprotocol.
    eapply (parses_bind _ _ [4]); [apply p_check_len|].
    eapply parses_bind; [apply parses_map_err, parses_u16, at_afi_small|].
    eapply parses_bind0; [apply p_chk_afi, at_afi_ok|].
    eapply (parses_bind _ _ [0] [_]); [apply parses_map_err, parses_u8|].
    eapply parses_bind_ret; [apply parses_map_err, parses_u8|].
    eapply parses_bind0; [apply p_chk_safi, at_safi_ok|].
    eapply parses_bind0; [apply p_chk_at|]. apply parses_ret.
  - apply Ok_inj in Hw; subst b. eexists. split; [reflexivity|]. split; [reflexivity|].
    change (parse_cap_value 2) with (parse_flag 2 CRouteRefresh). unfold parse_flag.
    eapply parses_bind_ret; [apply p_check_len|apply parses_ret].
  - apply Ok_inj in Hw; subst b. eexists. split; [reflexivity|]. split; [reflexivity|].
    change (parse_cap_value 70) with (parse_flag 70 CEnhancedRouteRefresh). unfold parse_flag.
    eapply parses_bind_ret; [apply p_check_len|apply parses_ret].
  - apply Ok_inj in Hw; subst b. eexists. split; [reflexivity|]. split; [reflexivity|].
    change (parse_cap_value 128) with (parse_flag 128 CCiscoRouteRefresh). unfold parse_flag.
    eapply parses_bind_ret; [apply p_check_len|apply parses_ret].
  - (* graceful restart *)
    apply Ok_inj in Hw; subst b. destruct Hf as [Ht Hl].
    pose proof (gr_header rs nt tm Ht) as (Hh & Hrs & Hnt & Htm). revert Hh Hrs Hnt Htm.
    set (h := N.lor _ tm). intros Hh Hrs Hnt Htm.
    assert (Hfl := flat_len enc_gr_family 4 fams len_gr_family).
    assert (Hbl : blen (be_enc 2 h ++ flat_map enc_gr_family fams) = 2 + 4 * blen fams)
      by (rewrite blen_app, be_enc_blen, Hfl; lia).
    exists ([as_u8 (4 + 4 * blen fams - 2)] ++ (be_enc 2 h ++ flat_map enc_gr_family fams)). split; [reflexivity|]. split.
    { rewrite blen_app, Hbl. rewrite blen_cons, blen_nil. lia. }
    change (parse_cap_value 64) with parse_graceful_restart. unfold parse_graceful_restart.
    replace (4 + 4 * blen fams - 2) with (blen (be_enc 2 h ++ flat_map enc_gr_family fams)) by lia.
    apply p_lenslice; [lia|]. unfold gr_body.
    eapply parses_end_bind; [apply parses_map_err, parses_u16; exact Hh|].
    eapply parses_end_bind'.
    + apply parses_many_all. intros x _. split; [apply p_gr_family|apply gr_family_ne].
    + rewrite Hrs, Hnt, Htm. apply parses_ret.
  - (* long lived *)
    apply Ok_inj in Hw; subst b. destruct Hf as [Hst Hl].
    assert (Hfl := flat_len enc_ll_family 7 fams len_ll_family).
    exists ([as_u8 (7 * blen fams)] ++ flat_map enc_ll_family fams). split; [reflexivity|]. split.
    { rewrite blen_app, Hfl. rewrite blen_cons, blen_nil. lia. }
    change (parse_cap_value 71) with parse_long_lived. unfold parse_long_lived.
    rewrite <- Hfl. unfold as_u8. rewrite N.mod_small by lia.
    eapply (parses_bind _ _ [_]); [apply parses_map_err, parses_u8|].
    replace (blen (flat_map enc_ll_family fams) mod 7 =? 0) with true by lia.
    cbn [negb]. apply p_slice_body; [reflexivity|].
    eapply parses_end_bind'.
    + apply parses_many_all. intros x Hx. split; [|apply ll_family_ne].
      apply p_ll_family. rewrite Forall_forall in Hst. now apply Hst.
    + apply parses_ret.
  - (* fqdn *)
    destruct Hf as [Hu1 [Hu2 Hl]]. unfold enc_name in Hw.
    replace (255 <? blen h) with false in Hw by lia.
    replace (255 <? blen d) with false in Hw by lia. cbn [rbind] in Hw.
    apply Ok_inj in Hw; subst b.
    assert (Hbl : blen ((as_u8 (blen h) :: h) ++ (as_u8 (blen d) :: d)) = 2 + blen h + blen d)
      by (rewrite blen_app, !blen_cons; lia).
    exists ([as_u8 (2 + blen h + blen d)] ++ ((as_u8 (blen h) :: h) ++ (as_u8 (blen d) :: d))).
    split; [reflexivity|]. split.
    { rewrite blen_app, Hbl. rewrite blen_cons, blen_nil. lia. }
    change (parse_cap_value 73) with parse_fqdn. unfold parse_fqdn.
    rewrite <- Hbl. apply p_lenslice; [lia|].
    eapply parses_end_bind; [apply p_name; [assumption|lia]|].
    eapply parses_end_bind'; [apply parses_to_end, p_name; [assumption|lia]|apply parses_ret].
  - (* add path *)
    apply Ok_inj in Hw; subst b.
    assert (Hfl := flat_len enc_ap_family 4 fams len_ap_family).
    exists ([as_u8 (4 * blen fams)] ++ flat_map enc_ap_family fams). split; [reflexivity|]. split.
    { rewrite blen_app, Hfl. rewrite blen_cons, blen_nil. lia. }
    change (parse_cap_value 69) with parse_add_path. unfold parse_add_path.
    rewrite <- Hfl. apply p_lenslice; [lia|].
    eapply parses_end_bind'; [|apply parses_ret].
    apply parses_many_all. intros x _. split; [apply p_ap_family|apply ap_family_ne].
  - apply Ok_inj in Hw; subst b. eexists. split; [reflexivity|]. split; [reflexivity|].
    change (parse_cap_value 6) with (parse_flag 6 CExtendedMessage). unfold parse_flag.
    eapply parses_bind_ret; [apply p_check_len|apply parses_ret].
  - (* role *)
    apply Ok_inj in Hw; subst b. eexists. split; [reflexivity|]. split; [reflexivity|].
    change (parse_cap_value 9) with parse_role. unfold parse_role.
    eapply (parses_bind _ _ [1] [r]); [apply p_check_len|].
    intros rest off. unfold bind, crd, pmap_err, peek_u8. cbn [app rbuf map_err].
    replace (4 <? r) with false by lia. reflexivity.
  - (* four octet as *)
    apply Ok_inj in Hw; subst b. exists ([4] ++ be_enc 4 a). split; [reflexivity|]. split.
    { rewrite blen_app, be_enc_blen. reflexivity. }
    change (parse_cap_value 65) with parse_four_octet_as. unfold parse_four_octet_as.
    eapply (parses_bind _ _ [4]); [apply p_check_len|].
    eapply parses_bind_ret; [apply parses_map_err, parses_u32; exact Hf|apply parses_ret].
  - (* extended next hop *)
    destruct Hf as [Ha Hl].
    assert (Hm1 : as_u8 (1 + 6 * blen es) = 1 + 6 * blen es).
    { unfold as_u8. apply N.mod_small. lia. }
    rewrite Hm1 in Hw. replace (1 + 6 * blen es =? 0) with false in Hw by lia.
    apply Ok_inj in Hw; subst b.
    assert (Hfl := flat_len enc_enh 6 es len_enh).
    exists ([1 + 6 * blen es - 1] ++ flat_map enc_enh es). split; [reflexivity|]. split.
    { rewrite blen_app, Hfl. rewrite blen_cons, blen_nil. lia. }
    change (parse_cap_value 5) with parse_ext_next_hop. unfold parse_ext_next_hop.
    replace (1 + 6 * blen es - 1) with (as_u8 (blen (flat_map enc_enh es)))
      by (unfold as_u8; rewrite N.mod_small; lia).
    apply p_lenslice; [lia|].
    eapply parses_end_bind'; [|apply parses_ret].
    apply parses_many_all. intros x Hx. split; [|apply enh_ne].
    apply p_enh. rewrite Forall_forall in Ha. now apply Ha.
  - (* experimental *)
    destruct Hf as [Hc Hl]. apply Ok_inj in Hw; subst b.
    exists ([as_u8 (blen v)] ++ v). split; [reflexivity|]. split.
    { rewrite blen_app. rewrite blen_cons, blen_nil. lia. }
    rewrite exp_value by assumption.
    eapply parses_bind_ret; [apply (p_raw v); assumption|apply parses_ret].
  - (* unrecognized *)
    destruct Hf as [Hc [Hd Hl]]. apply Ok_inj in Hw; subst b.
    exists ([as_u8 (blen v)] ++ v). split; [reflexivity|]. split.
    { rewrite blen_app. rewrite blen_cons, blen_nil. lia. }
    rewrite unrec_value by assumption.
    eapply parses_bind_ret; [apply (p_raw v); assumption|apply parses_ret].
Qed.

Lemma write_cap_total c : cap_fits c -> exists b, write_cap c = Ok b.
Proof.
  destruct c; cbn [cap_fits]; intros Hf; unfold write_cap; try (eexists; reflexivity).
  - destruct Hf as [_ [_ Hl]]. unfold enc_name.
    replace (255 <? blen host) with false by lia. replace (255 <? blen domain) with false by lia.
    eexists; reflexivity.
  - destruct Hf as [_ Hl]. unfold as_u8. rewrite N.mod_small by lia.
    replace (1 + 6 * blen es =? 0) with false by lia. eexists; reflexivity.
Qed.

(* capability parsing is total *)
Lemma safe_cap_value code : safe (parse_cap_value code).
Proof.
  unfold parse_cap_value, crd.
  assert (Hc : forall c l, safe (check_cap_len c l)) by (intros; unfold check_cap_len; psafe).
  assert (Ha : forall v, safe (chk_afi v)) by (intros; unfold chk_afi; psafe).
  assert (Hs : forall v, safe (chk_safi v)) by (intros; unfold chk_safi; psafe).
  assert (Ht : forall v w, safe (chk_at v w))
    by (intros v w; unfold chk_at; destruct (from_afi_safi v w); psafe).
  assert (Hr : safe parse_raw_cap) by (unfold parse_raw_cap, crd; psafe).
  assert (Hf : forall c x, safe (parse_flag c x)) by (intros; unfold parse_flag; psafe; auto).
  assert (Hn : safe read_name) by (unfold read_name, crd; psafe).
  repeat apply safe_if; auto.
  - unfold parse_multiprotocol, crd, read_u16. psafe; auto.
  - unfold parse_ext_next_hop, crd. psafe; auto. unfold parse_enh, enh_body, crd, read_u16.
    apply strict_bind_l; [apply strict_map_err, strict_take_slice; lia|intros; psafe; auto].
  - psafe; auto. unfold parse_multiple_label, crd, read_u16.
    apply strict_bind_l; [apply strict_map_err, strict_be; lia|intros; psafe; auto].
  - unfold parse_role, crd; psafe; auto.
  - unfold parse_graceful_restart, gr_body, crd, read_u16. psafe; auto.
    unfold parse_gr_family, gr_family_body, crd, read_u16.
    apply strict_bind_l; [apply strict_map_err, strict_take_slice; lia|intros; psafe; auto].
  - unfold parse_four_octet_as, crd, read_u32; psafe; auto.
  - unfold parse_add_path, crd. psafe; auto. unfold parse_ap_family, crd, read_u16.
    apply strict_bind_l; [apply strict_map_err, strict_be; lia|intros; psafe; auto].
  - unfold parse_long_lived, crd. psafe; auto.
    unfold parse_ll_family, ll_family_body, crd, read_u16.
    apply strict_bind_l; [apply strict_map_err, strict_take_slice; lia|intros; psafe; auto].
  - unfold parse_fqdn, crd. psafe; auto.
  - psafe; auto.
  - psafe; auto.
Qed.
Lemma safe_cap : safe parse_cap.
Proof. unfold parse_cap, crd. apply safe_bind; [psafe|]. apply safe_cap_value. Qed.
(* even a failing capability parse consumes the code octet *)
Lemma cap_consumes r : rbuf r <> [] -> (length (rbuf (fst (parse_cap r))) < length (rbuf r))%nat.
Proof.
  intros Hr. destruct r as [b o]. destruct b as [|x b]; [cbn in Hr; congruence|].
  unfold parse_cap, bind, crd, pmap_err, read_u8. cbn [rbuf roff map_err].
  destruct (safe_cap_value x (mkR b (o + 1))) as [Hv _].
  apply adv_len in Hv. cbn [rbuf length] in *. lia.
Qed.
