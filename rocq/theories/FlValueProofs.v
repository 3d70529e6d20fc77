From Verif Require Import Base BaseLemmas AfModel ReaderSpec ReaderProofs FlModel FlSpec FlSafeProofs.
From Coq Require Import Znumtheory.
Open Scope N_scope.
Open Scope parse_scope.

(* ---- numbers ---- *)
Lemma to_of_signed w z : w = 8 \/ w = 16 \/ w = 32 \/ w = 64 -> signed_in (Z.of_N w) z -> to_signed w (of_signed w z) = z.
Proof.
  unfold to_signed, of_signed, signed_in. intros [-> | [-> | [-> | -> ] ] ] H.
  - change (2 ^ (8 - 1)) with 128. change (2 ^ (Z.of_N 8 - 1))%Z with 128%Z in H. change (2 ^ Z.of_N 8)%Z with 256%Z.
    destruct (_ <? _) eqn:E; lia.
  - change (2 ^ (16 - 1)) with 32768. change (2 ^ (Z.of_N 16 - 1))%Z with 32768%Z in H. change (2 ^ Z.of_N 16)%Z with 65536%Z.
    destruct (_ <? _) eqn:E; lia.
  - change (2 ^ (32 - 1)) with 2147483648. change (2 ^ (Z.of_N 32 - 1))%Z with 2147483648%Z in H. change (2 ^ Z.of_N 32)%Z with 4294967296%Z.
    destruct (_ <? _) eqn:E; lia.
  - change (2 ^ (64 - 1)) with 9223372036854775808. change (2 ^ (Z.of_N 64 - 1))%Z with 9223372036854775808%Z in H.
    change (2 ^ Z.of_N 64)%Z with 18446744073709551616%Z. destruct (_ <? _) eqn:E; lia.
Qed.
Lemma of_signed_bound w z : w = 8 \/ w = 16 \/ w = 32 \/ w = 64 -> of_signed w z < 256 ^ (w / 8).
Proof.
  unfold of_signed. intros [-> | [-> | [-> | -> ] ] ].
  - change (2 ^ Z.of_N 8)%Z with 256%Z. change (256 ^ (8 / 8)) with 256. lia.
  - change (2 ^ Z.of_N 16)%Z with 65536%Z. change (256 ^ (16 / 8)) with 65536. lia.
  - change (2 ^ Z.of_N 32)%Z with 4294967296%Z. change (256 ^ (32 / 8)) with 4294967296. lia.
  - change (2 ^ Z.of_N 64)%Z with 18446744073709551616%Z. change (256 ^ (64 / 8)) with 18446744073709551616. lia.
Qed.
Lemma twos_enc k w z : (1 <= k)%nat -> 8 * N.of_nat k <= w -> signed_in (8 * Z.of_nat k) z ->
  twos_complement (be_enc k (of_signed w z)) = z.
Proof.
  intros Hk Hw Hz. rewrite twos_complement_alt; [|apply be_enc_ok|].
  2: { intros E. apply (f_equal (@length N)) in E. rewrite be_enc_length in E. cbn in E. lia. }
  rewrite positional_be_val, be_enc_blen, be_val_enc_mod. unfold of_signed, signed_in in *.
  set (K := (256 ^ Z.of_nat k)%Z).
  assert (HK : K = (2 ^ (8 * Z.of_nat k))%Z) by (subst K; rewrite Z.pow_mul_r by lia; reflexivity).
  assert (HKN : Z.of_N (256 ^ N.of_nat k) = K) by (subst K; rewrite N2Z.inj_pow, nat_N_Z; reflexivity).
  assert (Hhalf : (K = 2 * 2 ^ (8 * Z.of_nat k - 1))%Z).
  { rewrite HK. rewrite <- Z.pow_succ_r by lia. f_equal. lia. }
  assert (Hhalf2 : Z.of_N (128 * 256 ^ (N.of_nat k - 1)) = (2 ^ (8 * Z.of_nat k - 1))%Z).
  { rewrite N2Z.inj_mul, N2Z.inj_pow. replace (Z.of_N (N.of_nat k - 1)) with (Z.of_nat k - 1)%Z by lia.
    change (Z.of_N 128) with (2 ^ 7)%Z. change (Z.of_N 256) with (2 ^ 8)%Z. rewrite <- Z.pow_mul_r by lia.
    rewrite <- Z.pow_add_r by lia. f_equal. lia. }
  assert (HKpos : (0 < K)%Z) by (rewrite HK; apply Z.pow_pos_nonneg; lia).
  assert (Hu : Z.of_N (Z.to_N (z mod 2 ^ Z.of_N w) mod 256 ^ N.of_nat k) = (z mod K)%Z).
  { rewrite N2Z.inj_mod, HKN. rewrite Z2N.id by (apply Z.mod_pos_bound, Z.pow_pos_nonneg; lia).
    symmetry. apply Zmod_div_mod; [assumption|apply Z.pow_pos_nonneg; lia|].
    rewrite HK. exists (2 ^ (Z.of_N w - 8 * Z.of_nat k))%Z. rewrite <- Z.pow_add_r by lia. f_equal. lia. }
  replace (256 ^ Z.of_N (N.of_nat k))%Z with K by (rewrite nat_N_Z; reflexivity).
  set (H := (2 ^ (8 * Z.of_nat k - 1))%Z) in *.
  destruct (Z.to_N (z mod 2 ^ Z.of_N w) mod 256 ^ N.of_nat k <? 128 * 256 ^ (N.of_nat k - 1)) eqn:E.
  - rewrite Hu. apply N.ltb_lt in E. rewrite N2Z.inj_lt, Hu, Hhalf2 in E.
    destruct (Z.ltb_spec z 0).
    + exfalso. replace z with (z + K + (-1) * K)%Z in E by lia. rewrite Z.mod_add, Z.mod_small in E by lia. lia.
    + apply Z.mod_small. lia.
  - rewrite Hu. apply N.ltb_ge in E. rewrite N2Z.inj_le, Hu, Hhalf2 in E.
    destruct (Z.ltb_spec z 0).
    + replace z with (z + K + (-1) * K)%Z at 1 by lia. rewrite Z.mod_add, Z.mod_small by lia. lia.
    + exfalso. rewrite Z.mod_small in E by lia. lia.
Qed.

Lemma parses_unsigned32 k v : (k <= 4)%nat -> v < 256 ^ N.of_nat k -> parses (read_unsigned32_be (N.of_nat k)) (be_enc k v) v.
Proof.
  intros Hk Hv rest off. pose proof (unsigned32_spec (be_enc k v) rest off) as H.
  rewrite be_enc_blen in H. rewrite H by lia. now rewrite be_enc_blen, positional_be_val, be_val_enc.
Qed.
Lemma parses_unsigned64 k v : (k <= 8)%nat -> v < 256 ^ N.of_nat k -> parses (read_unsigned64_be (N.of_nat k)) (be_enc k v) v.
Proof.
  intros Hk Hv rest off. pose proof (unsigned64_spec (be_enc k v) rest off) as H.
  rewrite be_enc_blen in H. rewrite H by lia. now rewrite be_enc_blen, positional_be_val, be_val_enc.
Qed.
Lemma parses_signed32 k w z : (1 <= k <= 4)%nat -> 8 * N.of_nat k <= w -> signed_in (8 * Z.of_nat k) z ->
  parses (read_signed32_be (N.of_nat k)) (be_enc k (of_signed w z)) z.
Proof.
  intros Hk Hw Hz rest off. pose proof (signed32_spec (be_enc k (of_signed w z)) rest off (be_enc_ok _ _)) as H.
  rewrite be_enc_blen in H. rewrite H by lia. rewrite be_enc_blen, twos_enc by (assumption || lia). reflexivity.
Qed.
Lemma parses_signed64 k w z : (1 <= k <= 8)%nat -> 8 * N.of_nat k <= w -> signed_in (8 * Z.of_nat k) z ->
  parses (read_signed64_be (N.of_nat k)) (be_enc k (of_signed w z)) z.
Proof.
  intros Hk Hw Hz rest off. pose proof (signed64_spec (be_enc k (of_signed w z)) rest off (be_enc_ok _ _)) as H.
  rewrite be_enc_blen in H. rewrite H by lia. rewrite be_enc_blen, twos_enc by (assumption || lia). reflexivity.
Qed.

(* ---- variable length, filled ---- *)
Lemma parses_varlen n : n < 256 ^ 3 -> parses read_varlen (if n <? 255 then [n] else 255 :: be_enc 3 (as_u32 n)) n.
Proof.
  intros Hn. unfold read_varlen. change (256 ^ 3) with 16777216 in Hn.
  destruct (n <? 255) eqn:E.
  - eapply parses_bind_ret; [apply parses_map_err, parses_u8|]. replace (n =? 255) with false by lia. apply parses_ret.
  - change (255 :: be_enc 3 (as_u32 n)) with ([255] ++ be_enc 3 (as_u32 n)).
    eapply parses_bind; [apply parses_map_err, parses_u8|]. change (255 =? 255) with true. cbn iota.
    unfold as_u32. rewrite N.mod_small by lia. apply parses_map_err. apply (parses_unsigned32 3); [lia|exact Hn].
Qed.
Lemma parses_varbytes b : blen b < 256 ^ 3 ->
  parses (do n <- read_varlen;; lift (read_bytes n)) (w_varlen b) b.
Proof.
  intros Hb. unfold w_varlen. eapply parses_bind; [now apply parses_varlen|].
  now apply parses_map_err, parses_bytes.
Qed.
Lemma blen_varlen b : blen (w_varlen b) = varlen_len b.
Proof.
  unfold w_varlen, varlen_len. rewrite blen_app. destruct (blen b <? 255); rewrite blen_cons, ?be_enc_blen, ?blen_nil; lia.
Qed.
Lemma blen_filled len b : blen b <= len -> blen (w_filled len b) = len.
Proof. intros H. unfold w_filled. rewrite blen_app, blen_repeat. lia. Qed.
Lemma filled_exact len b : blen b = len -> w_filled len b = b.
Proof. intros <-. unfold w_filled. rewrite N.sub_diag. apply app_nil_r. Qed.
Lemma until_nul_app b n : no_nul b -> until_nul (b ++ repeat 0 n) = b.
Proof.
  unfold no_nul. induction b as [|x b IH]; cbn [app until_nul In]; intros H.
  - destruct n; reflexivity.
  - destruct (N.eqb_spec x 0); [subst; exfalso; auto|]. f_equal. auto.
Qed.

Ltac nlen len k Hk := (* len as the image of a nat *)
  let E := fresh in assert (E : exists k, len = N.of_nat k) by (exists (N.to_nat len); lia); destruct E as (k & Hk); subst len.

(* ---- values ---- *)
Section Values.
Context (millis_ok : Z -> bool).
Lemma value_round t len v : value_fits millis_ok t len v ->
  exists b, w_value t v (Some len) = Ok b /\ parses (p_value millis_ok t len) b v /\
            blen b = value_len t v (Some len) /\ (len <> 65535 -> blen b = len).
Proof.
  intros H. destruct t, v; cbn [value_fits] in H; try contradiction; cbn [w_value p_value value_len].
  - (* octets *)
    destruct H as [[-> Hb]|[Hl Hb]]; unfold w_bytes, bytes_len, read_len.
    + change (65535 =? 65535) with true. cbn iota. eexists; split; [reflexivity|]. split.
      * change (do n <- read_varlen;; do b0 <- lift (read_bytes n);; ret (VBytes b0)) with
          (bind read_varlen (fun n => do b0 <- lift (read_bytes n);; ret (VBytes b0))).
        unfold w_varlen. eapply parses_bind; [now apply parses_varlen|].
        eapply parses_bind_ret; [apply parses_map_err, parses_bytes; reflexivity|apply parses_ret].
      * rewrite blen_varlen. split; [reflexivity|congruence].
    + replace (len =? 65535) with false by lia. eexists; split; [reflexivity|]. rewrite filled_exact by assumption.
      split; [|auto]. eapply parses_bind0; [apply parses_ret|].
      eapply parses_bind_ret; [apply parses_map_err, parses_bytes; now symmetry|apply parses_ret].
  - (* mpls *) destruct H as [-> Hb]. unfold w_bytes, bytes_len. change (3 =? 65535) with false. cbn iota.
    eexists; split; [reflexivity|]. rewrite filled_exact by assumption. split; [|auto].
    change (3 =? 3) with true. cbn [negb]. eapply parses_bind_ret; [apply parses_map_err, parses_bytes; now symmetry|apply parses_ret].
  - (* u8 *) destruct H as [-> Hn]. eexists; split; [reflexivity|]. split; [|split; reflexivity].
    change (1 =? 1) with true. cbn [negb]. rewrite be_enc_1 by assumption.
    eapply parses_bind_ret; [apply parses_map_err, parses_u8|apply parses_ret].
  - (* u16 *) destruct H as [Hl Hn]. unfold w_reduced, opt_len. change (N.of_nat 2) with 2.
    replace (2 <? len) with false by lia. eexists; split; [reflexivity|].
    assert (Hc : len = 1 \/ len = 2) by lia. destruct Hc as [-> | ->]; (split; [|split; [reflexivity|intros; reflexivity]]).
    + change (1 =? 1) with true. cbn iota. change (N.to_nat 1) with 1%nat. rewrite be_enc_1 by exact Hn.
      eapply parses_bind_ret; [apply parses_map_err, parses_u8|apply parses_ret].
    + change (2 =? 1) with false. change (2 =? 2) with true. cbn iota. change (N.to_nat 2) with 2%nat.
      eapply parses_bind_ret; [apply parses_map_err, parses_u16; exact Hn|apply parses_ret].
  - (* tcp *) destruct H as [Hl Hn]. unfold w_reduced, opt_len. change (N.of_nat 2) with 2.
    replace (2 <? len) with false by lia. eexists; split; [reflexivity|].
    assert (Ht : tcp_flags n = n) by (apply N.mod_small; assumption).
    assert (Hc : len = 1 \/ len = 2) by lia. destruct Hc as [-> | ->]; (split; [|split; [reflexivity|intros; reflexivity]]).
    + change (1 =? 1) with true. cbn iota. change (N.to_nat 1) with 1%nat. rewrite be_enc_1 by exact Hn.
      eapply parses_bind_ret; [apply parses_map_err, parses_u8|rewrite Ht; apply parses_ret].
    + change (2 =? 1) with false. change (2 =? 2) with true. cbn iota. change (N.to_nat 2) with 2%nat.
      eapply parses_bind_ret; [apply parses_map_err, parses_u16; lia|rewrite Ht; apply parses_ret].
  - (* u32 *) destruct H as [Hl Hn]. unfold w_reduced, opt_len. change (N.of_nat 4) with 4.
    replace (4 <? len) with false by lia. eexists; split; [reflexivity|].
    rewrite be_enc_blen, N2Nat.id. split; [|auto].
    eapply parses_bind_ret; [apply parses_map_err|apply parses_ret].
    rewrite <- (N2Nat.id len) at 1. apply parses_unsigned32; [lia|now rewrite N2Nat.id].
  - (* u64 *) destruct H as [Hl Hn]. unfold w_reduced, opt_len. change (N.of_nat 8) with 8.
    replace (8 <? len) with false by lia. eexists; split; [reflexivity|].
    rewrite be_enc_blen, N2Nat.id. split; [|auto].
    eapply parses_bind_ret; [apply parses_map_err|apply parses_ret].
    rewrite <- (N2Nat.id len) at 1. apply parses_unsigned64; [lia|now rewrite N2Nat.id].
  - (* i8 *) destruct H as [-> Hz]. eexists; split; [reflexivity|]. split; [|split; reflexivity].
    change (1 =? 1) with true. cbn [negb]. rewrite be_enc_1 by (apply (of_signed_bound 8); auto).
    eapply parses_bind_ret; [apply parses_map_err, parses_u8|]. rewrite to_of_signed by auto. apply parses_ret.
  - (* i16 *) destruct H as [-> Hz]. unfold w_reduced. change (N.of_nat 2 <? 2) with false. cbn iota.
    eexists; split; [reflexivity|]. split; [|split; [reflexivity|intros; reflexivity]].
    change (2 =? 1) with false. change (2 =? 2) with true. cbn iota. change (N.to_nat 2) with 2%nat.
    eapply parses_bind_ret; [apply parses_map_err, parses_u16|].
    + apply (of_signed_bound 16); auto.
    + rewrite to_of_signed by auto. apply parses_ret.
  - (* i32 *) destruct H as [Hl Hz]. unfold w_reduced, opt_len. change (N.of_nat 4) with 4.
    replace (4 <? len) with false by lia. replace (8 <? len) with false by lia. eexists; split; [reflexivity|].
    rewrite be_enc_blen, N2Nat.id. split; [|auto].
    eapply parses_bind_ret; [apply parses_map_err|apply parses_ret].
    rewrite <- (N2Nat.id len) at 1. apply parses_signed32; [lia|lia|]. now rewrite N_nat_Z.
  - (* i64 *) destruct H as [Hl Hz]. unfold w_reduced, opt_len. change (N.of_nat 8) with 8.
    replace (8 <? len) with false by lia. eexists; split; [reflexivity|].
    rewrite be_enc_blen, N2Nat.id. split; [|auto].
    eapply parses_bind_ret; [apply parses_map_err|apply parses_ret].
    rewrite <- (N2Nat.id len) at 1. apply parses_signed64; [lia|lia|]. now rewrite N_nat_Z.
  - (* f32 *) destruct H as [-> Hn]. unfold w_reduced. change (N.of_nat 4 <? 4) with false. cbn iota.
    eexists; split; [reflexivity|]. split; [|split; [reflexivity|intros; reflexivity]].
    change (4 =? 4) with true. cbn [negb]. change (N.to_nat 4) with 4%nat.
    eapply parses_bind_ret; [apply parses_map_err, parses_u32; exact Hn|apply parses_ret].
  - (* f64 *) destruct H as [-> Hn]. unfold w_reduced. change (N.of_nat 8 <? 8) with false. cbn iota.
    eexists; split; [reflexivity|]. split; [|split; [reflexivity|intros; reflexivity]].
    change (8 =? 8) with true. cbn [negb]. change (N.to_nat 8) with 8%nat.
    eapply parses_bind_ret; [apply parses_map_err, parses_u64; exact Hn|apply parses_ret].
  - (* bool *) subst len. eexists; split; [reflexivity|]. split; [|split; reflexivity].
    change (1 =? 1) with true. cbn [negb]. eapply parses_bind_ret; [apply parses_map_err, parses_u8|].
    destruct b; apply parses_ret.
  - (* mac *) destruct H as [-> Hb]. eexists; split; [reflexivity|]. split; [|auto].
    change (6 =? 6) with true. cbn [negb]. eapply parses_bind_ret; [apply parses_map_err, parses_bytes; now symmetry|apply parses_ret].
  - (* string *) destruct H as [Hu [[-> Hb]|(Hl & Hb & Hz)]]; unfold w_text.
    + change (65535 =? 65535) with true. cbn iota. eexists; split; [reflexivity|].
      rewrite blen_varlen. split; [|split; [reflexivity|congruence]].
      eapply parses_bind_ret; [now apply parses_varbytes|]. rewrite Hu. apply parses_ret.
    + replace (len =? 65535) with false by lia. eexists; split; [reflexivity|].
      rewrite blen_filled by assumption. split; [|auto].
      eapply parses_bind_ret; [eapply parses_bind_ret; [apply parses_map_err, parses_bytes; now rewrite blen_filled|apply parses_ret]|].
      unfold w_filled. rewrite until_nul_app by assumption. rewrite Hu. apply parses_ret.
  - (* seconds *) destruct H as (-> & Hs & ->). eexists; split; [reflexivity|]. split; [|split; reflexivity].
    change (4 =? 4) with true. cbn [negb]. unfold of_signed. change (2 ^ Z.of_N 32)%Z with (2 ^ 32)%Z.
    rewrite Z.mod_small by assumption. change (2 ^ 32)%Z with 4294967296%Z in Hs.
    eapply parses_bind_ret; [apply parses_map_err, parses_u32; lia|]. rewrite Z2N.id by lia. apply parses_ret.
  - (* millis *) destruct H as (-> & Hn & Hm & m & Em & Hs & Hok). eexists; split; [reflexivity|]. split; [|split; reflexivity].
    change (8 =? 8) with true. cbn [negb]. rewrite <- Em.
    eapply parses_bind_ret; [apply parses_map_err, parses_u64; apply (of_signed_bound 64); auto 6|].
    cbv zeta. rewrite to_of_signed by (auto 6). rewrite Hok.
    replace (m / 1000)%Z with secs by lia. replace (Z.to_N (m mod 1000) * 1000000) with nanos by lia. apply parses_ret.
  - (* micros *) destruct H as (-> & Hs & ->). eexists; split; [reflexivity|]. split; [|split; reflexivity].
    change (8 =? 8) with true. cbn [negb]. unfold of_signed. change (2 ^ Z.of_N 32)%Z with (2 ^ 32)%Z.
    rewrite Z.mod_small by assumption. change (2 ^ 32)%Z with 4294967296%Z in Hs.
    eapply parses_bind; [apply parses_map_err, parses_u32; lia|].
    eapply parses_bind_ret; [apply parses_map_err, parses_u32; vm_compute; reflexivity|].
    replace (nanos_of_fraction (fraction_of_nanos 0)) with 0 by (vm_compute; reflexivity).
    cbn [chrono_ok]. unfold chrono_ok. change (0 <? 1000000000) with true. cbn [orb]. rewrite Z2N.id by lia. apply parses_ret.
  - (* nanos *) destruct H as (-> & Hs & ->). eexists; split; [reflexivity|]. split; [|split; reflexivity].
    change (8 =? 8) with true. cbn [negb]. unfold of_signed. change (2 ^ Z.of_N 32)%Z with (2 ^ 32)%Z.
    rewrite Z.mod_small by assumption. change (2 ^ 32)%Z with 4294967296%Z in Hs.
    eapply parses_bind; [apply parses_map_err, parses_u32; lia|].
    eapply parses_bind_ret; [apply parses_map_err, parses_u32; vm_compute; reflexivity|].
    replace (nanos_of_fraction (fraction_of_nanos 0)) with 0 by (vm_compute; reflexivity).
    unfold chrono_ok. change (0 <? 1000000000) with true. cbn [orb]. rewrite Z2N.id by lia. apply parses_ret.
  - (* v4 *) destruct H as [-> Hn]. eexists; split; [reflexivity|]. split; [|split; reflexivity].
    change (4 =? 4) with true. cbn [negb].
    eapply parses_bind_ret; [apply parses_map_err, parses_u32; exact Hn|apply parses_ret].
  - (* v6 *) destruct H as [-> Hn]. eexists; split; [reflexivity|]. split; [|split; reflexivity].
    change (16 =? 16) with true. cbn [negb].
    eapply parses_bind_ret; [apply parses_map_err, parses_u128; exact Hn|apply parses_ret].
  - (* list *) destruct H as [Hl Hb]. eexists; split; [reflexivity|]. split; [|auto].
    unfold read_len. replace (len =? 65535) with false by lia. eapply parses_bind0; [apply parses_ret|].
    eapply parses_bind_ret; [apply parses_map_err, parses_bytes; now symmetry|apply parses_ret].
  - (* u256 *) destruct H as [Hl (b' & -> & Hb)]. rewrite blen_app, blen_repeat, N2Nat.id, Hb.
    replace (len + (32 - len) <? len) with false by lia. eexists; split; [reflexivity|].
    rewrite take_app_exact by (now symmetry). unfold opt_len. split; [|auto].
    replace (32 <? len) with false by lia. unfold read_padded. replace (32 <? len) with false by lia.
    eapply parses_bind_ret; [apply parses_map_err|apply parses_ret].
    eapply parses_bind_ret; [apply parses_bytes; now symmetry|apply parses_ret].
Qed.
End Values.

Section Fields.
Context (iana : N -> option dtype) (vendor : N -> option (N -> option dtype)) (millis_ok : Z -> bool).
Lemma field_round s f : fits iana vendor millis_ok s f ->
  exists b, w_field iana vendor f (Some (fs_len s)) = Ok b /\
            parses (p_fspec_field iana vendor millis_ok s) b f /\
            blen b = field_len iana vendor f (Some (fs_len s)) /\ (fs_len s <> 65535 -> blen b = fs_len s).
Proof.
  intros [Hie H]. unfold p_fspec_field, p_field, ie_of_spec in *. destruct f as [pen id v|pen id b]; cbn [ie_of_field] in Hie.
  - inversion Hie; subst pen id. cbn [w_field field_len]. destruct (classify iana vendor (fs_pen s) (fs_id s)) as [[t| |]|].
    + apply value_round in H as (b & Hw & Hp & Hl). exists b. split; [exact Hw|]. split; [|exact Hl].
      eapply parses_bind_ret; [exact Hp|apply parses_ret].
    + destruct v; try contradiction. unfold w_text, bytes_len, read_len. destruct H as [[Hl Hb]|[Hl Hb]].
      * rewrite Hl. change (65535 =? 65535) with true. cbn iota. eexists; split; [reflexivity|].
        rewrite blen_varlen. split; [|split; [reflexivity|congruence]].
        unfold w_varlen. eapply parses_bind; [now apply parses_varlen|].
        eapply parses_bind_ret; [apply parses_map_err, parses_bytes; reflexivity|apply parses_ret].
      * replace (fs_len s =? 65535) with false by lia. eexists; split; [reflexivity|]. rewrite filled_exact by assumption.
        split; [|auto]. eapply parses_bind0; [apply parses_ret|].
        eapply parses_bind_ret; [apply parses_map_err, parses_bytes; now symmetry|apply parses_ret].
    + contradiction.
    + contradiction.
  - inversion Hie; subst pen id. cbn [w_field field_len]. destruct (classify iana vendor (fs_pen s) (fs_id s)) as [[t| |]|]; try contradiction.
    destruct H as [Hl Hb]. unfold w_text, bytes_len. replace (fs_len s =? 65535) with false by lia.
    eexists; split; [reflexivity|]. rewrite filled_exact by assumption. split; [|auto].
    eapply parses_bind_ret; [apply parses_map_err, parses_bytes; now symmetry|apply parses_ret].
Qed.
End Fields.
