From Verif Require Import Base BaseLemmas AfModel MapLib ReaderSpec ReaderProofs FlModel FlSpec FlSafeProofs FlDecodeProofs FlTemplateProofs FlValueProofs FlRoundProofs FlMoreProofs FlLegalProofs.

Lemma enc_val_len (data : list N) len : bytes_ok data = true -> blen data = len -> be_enc (N.to_nat len) (be_val data) = data.
Proof. intros Hb <-. unfold blen. rewrite Nat2N.id. now apply be_enc_val. Qed.
Lemma read_be_data n data post off : blen data = n -> read_be n (mkR (data ++ post) off) = (mkR post (off + n), Ok (be_val data)).
Proof. intros H. subst n. exact (parses_be_raw data (blen data) eq_refl post off). Qed.
Lemma read_bytes_data n data post off : blen data = n -> read_bytes n (mkR (data ++ post) off) = (mkR post (off + n), Ok data).
Proof. intros H. subst n. exact (parses_bytes data (blen data) eq_refl post off). Qed.
Lemma u8_data data post off : blen data = 1 -> read_u8 (mkR (data ++ post) off) = (mkR post (off + 1), Ok (be_val data)).
Proof.
  intros H. destruct data as [|a [|b data]]; [discriminate H|reflexivity|].
  rewrite !blen_cons in H. lia.
Qed.
Lemma twos_back data bits len : bytes_ok data = true -> blen data = len -> 1 <= len -> 8 * len <= bits ->
  be_enc (N.to_nat len) (of_signed bits (twos_complement data)) = data.
Proof.
  intros Hb Hl H1 Hbits. apply be_val_inj; [apply be_enc_ok|assumption|rewrite be_enc_length; unfold blen in Hl; lia|].
  apply N2Z.inj. rewrite twos_val by assumption.
  rewrite twos_complement_alt; [|assumption|intros ->; rewrite blen_nil in Hl; lia].
  pose proof (be_val_bound data Hb) as Hv. rewrite positional_be_val, Hl.
  assert (E : (2 ^ (8 * Z.of_N len) = 256 ^ Z.of_N len)%Z) by (rewrite Z.pow_mul_r by lia; reflexivity).
  rewrite E. rewrite Hl in Hv. assert (Hz : (Z.of_N (be_val data) < 256 ^ Z.of_N len)%Z).
  { change 256%Z with (Z.of_N 256). rewrite <- N2Z.inj_pow. lia. }
  assert (Hpos : (0 < 256 ^ Z.of_N len)%Z) by (apply Z.pow_pos_nonneg; lia).
  destruct (_ <? _).
  - apply Z.mod_small. lia.
  - rewrite <- (Z.mod_add _ 1) by lia. rewrite Z.mod_small; lia.
Qed.
Lemma to_signed_back w v : v < 2 ^ w -> of_signed w (to_signed w v) = v.
Proof.
  intros Hv. unfold of_signed, to_signed.
  assert (Hz : (Z.of_N v < 2 ^ Z.of_N w)%Z) by (change 2%Z with (Z.of_N 2); rewrite <- N2Z.inj_pow; lia).
  destruct (v <? 2 ^ (w - 1)).
  - rewrite Z.mod_small by lia. apply N2Z.id.
  - rewrite <- (Z.mod_add _ 1) by lia. rewrite Z.mod_small by lia. lia.
Qed.
Lemma millis_back m : ((m / 1000) * 1000 + Z.of_N (Z.to_N (m mod 1000) * 1000000 / 1000000) = m)%Z.
Proof. rewrite N.div_mul by lia. pose proof (Z.mod_pos_bound m 1000 ltac:(lia)). rewrite Z2N.id by lia. pose proof (Z.div_mod m 1000). lia. Qed.

Lemma value_back millis_ok t len data post off r v :
  lossless t -> legal_length t len -> len <> 65535 -> blen data = len -> bytes_ok data = true ->
  p_value millis_ok t len (mkR (data ++ post) off) = (r, Ok v) ->
  r = mkR post (off + len) /\ w_value t v (Some len) = Ok data.
Proof.
  intros Ht Hleg Hvar Hl Hb E.
  assert (Hw : forall w, len <= N.of_nat w -> w_reduced w (be_val data) (Some len) = Ok data).
  { intros w Hw. unfold w_reduced. replace (N.of_nat w <? len) with false by lia. now rewrite enc_val_len. }
  assert (He : forall k, N.of_nat k = len -> be_enc k (be_val data) = data).
  { intros k Hk. replace k with (N.to_nat len) by lia. now apply enc_val_len. }
  destruct t; try contradiction Ht; cbn [legal_length] in Hleg; cbn [p_value w_value] in *.
  - (* octets *) unfold read_len in E. replace (len =? 65535) with false in E by lia.
    unfold bind at 1, ret at 1 in E. unfold bind, pmap_err in E. rewrite read_bytes_data in E by assumption.
    cbn in E. injection E as <- <-. split; [reflexivity|]. unfold w_bytes. replace (len =? 65535) with false by lia.
    now rewrite filled_exact.
  - (* mpls *) destruct (len =? 3) eqn:El; [|discriminate E]. cbn [negb] in E. apply N.eqb_eq in El. rewrite El in *.
    unfold bind, pmap_err in E. rewrite read_bytes_data in E by assumption. cbn in E. injection E as <- <-.
    split; [reflexivity|]. unfold w_bytes. change (3 =? 65535) with false. cbn iota. now rewrite filled_exact.
  - subst len. change (negb (1 =? 1)) with false in E. cbn iota in E. unfold bind, pmap_err in E.
    rewrite u8_data in E by assumption. cbn [map_err ret] in E. injection E as <- <-. split; [reflexivity|]. now rewrite He.
  - assert (C : len = 1 \/ len = 2) by lia. destruct C as [C|C]; rewrite C in *.
    + change (1 =? 1) with true in E. cbn iota in E. unfold bind, pmap_err in E.
      rewrite u8_data in E by assumption. cbn [map_err ret] in E. injection E as <- <-. split; [reflexivity|]. apply Hw. lia.
    + change (2 =? 1) with false in E. change (2 =? 2) with true in E. cbn iota in E. unfold read_u16 in E. unfold bind at 1, pmap_err in E.
      rewrite read_be_data in E by assumption. cbn [map_err ret] in E. injection E as <- <-. split; [reflexivity|]. apply Hw. lia.
  - replace (4 <? len) with false in E by lia. unfold bind, pmap_err in E. rewrite <- Hl in E. rewrite unsigned32_spec in E by lia.
    cbn [map_err ret] in E. injection E as <- <-. rewrite Hl. split; [reflexivity|]. rewrite positional_be_val. apply Hw. lia.
  - replace (8 <? len) with false in E by lia. unfold bind, pmap_err in E. rewrite <- Hl in E. rewrite unsigned64_spec in E by lia.
    cbn [map_err ret] in E. injection E as <- <-. rewrite Hl. split; [reflexivity|]. rewrite positional_be_val. apply Hw. lia.
  - subst len. change (negb (1 =? 1)) with false in E. cbn iota in E. unfold bind, pmap_err in E.
    rewrite u8_data in E by assumption. cbn [map_err ret] in E. injection E as <- <-. split; [reflexivity|].
    rewrite to_signed_back; [now rewrite He|]. pose proof (be_val_bound data Hb). rewrite Hl in H. assumption.
  - replace (8 <? len) with false in E by lia. unfold bind, pmap_err in E. rewrite <- Hl in E. rewrite signed32_spec in E by (assumption || lia).
    cbn [map_err ret] in E. injection E as <- <-. rewrite Hl. split; [reflexivity|]. unfold w_reduced.
    change (N.of_nat 4) with 4. replace (4 <? len) with false by lia. rewrite twos_back by (assumption || lia). reflexivity.
  - replace (8 <? len) with false in E by lia. unfold bind, pmap_err in E. rewrite <- Hl in E. rewrite signed64_spec in E by (assumption || lia).
    cbn [map_err ret] in E. injection E as <- <-. rewrite Hl. split; [reflexivity|]. unfold w_reduced.
    change (N.of_nat 8) with 8. replace (8 <? len) with false by lia. rewrite twos_back by (assumption || lia). reflexivity.
  - (* f32 *) subst len. change (negb (4 =? 4)) with false in E. cbn iota in E. unfold bind at 1, pmap_err, read_u32 in E.
    rewrite read_be_data in E by assumption. cbn [map_err ret] in E. injection E as <- <-. split; [reflexivity|]. apply Hw. lia.
  - (* f64 *) subst len. change (negb (8 =? 8)) with false in E. cbn iota in E. unfold bind at 1, pmap_err, read_u64 in E.
    rewrite read_be_data in E by assumption. cbn [map_err ret] in E. injection E as <- <-. split; [reflexivity|]. apply Hw. lia.
  - (* mac *) subst len. change (negb (6 =? 6)) with false in E. cbn iota in E. unfold bind at 1, pmap_err in E.
    rewrite read_bytes_data in E by assumption. cbn [map_err ret] in E. injection E as <- <-. auto.
  - (* secs *) subst len. change (negb (4 =? 4)) with false in E. cbn iota in E. unfold bind at 1, pmap_err, read_u32 in E.
    rewrite read_be_data in E by assumption. cbn [map_err ret] in E. injection E as <- <-. split; [reflexivity|].
    unfold of_signed. pose proof (be_val_bound data Hb) as Hv. rewrite Hl in Hv. change (256 ^ 4) with 4294967296 in Hv.
    rewrite Z.mod_small by (change (2 ^ Z.of_N 32)%Z with 4294967296%Z; lia). rewrite N2Z.id. now rewrite He.
  - (* millis *) subst len. change (negb (8 =? 8)) with false in E. cbn iota in E. unfold bind at 1, pmap_err, read_u64 in E.
    rewrite read_be_data in E by assumption. cbn [map_err] in E. cbn zeta in E.
    destruct (millis_ok _); [|discriminate E]. cbn [ret] in E. injection E as <- <-. split; [reflexivity|].
    rewrite millis_back. rewrite to_signed_back; [now rewrite He|]. pose proof (be_val_bound data Hb) as Hv. rewrite Hl in Hv. exact Hv.
  - (* v4 *) subst len. change (negb (4 =? 4)) with false in E. cbn iota in E. unfold bind at 1, pmap_err, read_u32 in E.
    rewrite read_be_data in E by assumption. cbn [map_err ret] in E. injection E as <- <-. split; [reflexivity|]. now rewrite He.
  - (* v6 *) subst len. change (negb (16 =? 16)) with false in E. cbn iota in E. unfold bind at 1, pmap_err, read_u128 in E.
    rewrite read_be_data in E by assumption. cbn [map_err ret] in E. injection E as <- <-. split; [reflexivity|]. now rewrite He.
  - (* list *) unfold read_len in E. replace (len =? 65535) with false in E by lia.
    unfold bind at 1, ret at 1 in E. unfold bind, pmap_err in E. rewrite read_bytes_data in E by assumption.
    cbn in E. injection E as <- <-. auto.
  - (* u256 *) replace (32 <? len) with false in E by lia. unfold bind at 1, pmap_err, read_padded in E. replace (32 <? len) with false in E by lia.
    unfold bind in E. rewrite read_bytes_data in E by assumption. cbn [map_err ret] in E. injection E as <- <-. split; [reflexivity|].
    cbn zeta. rewrite blen_app, blen_repeat, Hl, N2Nat.id. replace (len + (32 - len) <? len) with false by lia.
    now rewrite take_app_exact.
Qed.

(* ---- writing never panics on records that follow their templates ---- *)
Definition fine {A} (x : res werr A) : Prop := match x with Ok _ | Err _ => True | _ => False end.
Lemma fine_bind {A B} (x : res werr A) (f : A -> res werr B) : fine x -> (forall a, fine (f a)) -> fine (rbind x f).
Proof. destruct x; cbn; auto. Qed.
Lemma fine_mapm {X} (w : X -> res werr (list N)) l : (forall x, In x l -> fine (w x)) -> fine (wmapm w l).
Proof.
  induction l as [|x l IH]; intros H; cbn [wmapm]; [exact I|]. apply fine_bind; [apply H; now left|]. intros b.
  apply fine_bind; [apply IH; intros y Hy; apply H; now right|]. intros; exact I.
Qed.
Section NoPanic.
Context (iana : N -> option dtype) (vendor : N -> option (N -> option dtype)).
Lemma field_none f : typed iana vendor f -> fine (w_field iana vendor f None).
Proof.
  destruct f as [pen id v|pen id b]; cbn [w_field typed]; [|intros _; exact I]. intros H.
  destruct (classify iana vendor pen id) as [[t| |]|]; [|destruct v; exact I|exact I|exact I].
  destruct t, v; cbn [w_value w_reduced]; try exact I. destruct (H eq_refl) as (b' & E & Hb). injection E as <-.
  cbn zeta. replace (blen b <? blen b) with false by lia. exact I.
Qed.
Lemma field_some f s : typed iana vendor f -> legal_spec iana vendor s -> ie_of_field f = ie_of_spec s -> fine (w_field iana vendor f (Some (fs_len s))).
Proof.
  destruct f as [pen id v|pen id b]; cbn [w_field typed]; [|intros; exact I]. intros H Hl Hie.
  cbn in Hie. unfold ie_of_spec in Hie. injection Hie as -> ->.
  apply legal_classify in Hl as (c & Hc & Hr). rewrite Hc in *.
  destruct c as [t| |]; [|destruct v; exact I|exact I].
  destruct t, v; cbn [w_value w_reduced]; try exact I;
    try (match goal with |- context [if ?b then _ else _] => destruct b end; exact I).
  destruct (H eq_refl) as (b' & E & Hb). injection E as <-. cbn [class_range length_range in_range] in Hr.
  cbn zeta. rewrite Hb. replace (32 <? fs_len s) with false by lia. exact I.
Qed.
Lemma fields_some fs ss : Forall (typed iana vendor) fs -> Forall (legal_spec iana vendor) ss ->
  map ie_of_field fs = map ie_of_spec ss -> fine (wmapm (wfield iana vendor) (with_lens fs (map fs_len ss))).
Proof.
  revert ss. induction fs as [|f fs IH]; intros ss Hf Hs E; destruct ss as [|s ss]; try discriminate E; cbn [with_lens map wmapm]; [exact I|].
  cbn [map] in E. injection E as E1 E2. inversion Hf; subst. inversion Hs; subst.
  apply fine_bind; [unfold wfield; cbn [fst snd]; now apply field_some|]. intros b. apply fine_bind; [now apply IH|]. intros; exact I.
Qed.
Lemma fields_none fs : Forall (typed iana vendor) fs -> fine (wmapm (wfield iana vendor) (with_lens fs [])).
Proof.
  induction fs as [|f fs IH]; intros Hf; cbn [with_lens wmapm]; [exact I|]. inversion Hf; subst.
  apply fine_bind; [unfold wfield; cbn [fst snd]; now apply field_none|]. intros b. apply fine_bind; [now apply IH|]. intros; exact I.
Qed.
Lemma encode_fine c p : all_legal iana vendor (c_ipfix c) ->
  (forall id recs r, In (SData id recs) (ip_sets p) -> In r recs ->
     Forall (typed iana vendor) (dr_scope r ++ dr_fields r) /\
     forall lay, cached c id = Some lay -> follows lay r) ->
  fine (encode iana vendor c (Ipfix p)).
Proof.
  intros Hc Hp. cbn [encode]. unfold w_ipkt. apply fine_bind; [|intros; exact I]. apply fine_mapm. intros s Hs.
  unfold w_iset. cbn zeta. destruct s as [l|l|id l]; try exact I. apply fine_bind; [|intros; exact I].
  apply fine_mapm. intros r Hr. destruct (Hp id l r Hs Hr) as [Ht Hf]. apply Forall_app in Ht as [Ht1 Ht2].
  unfold w_drec. unfold cached in Hf. destruct (tget id (c_ipfix c)) as [t|] eqn:Et; cbn [t_scope_lens t_field_lens].
  - destruct (Hf _ eq_refl) as [F1 F2]. cbn [fst snd] in *. destruct (Hc id t Et) as (_ & L1 & L2). cbn [fst snd] in *.
    apply fine_bind; [now apply fields_some|]. intros a. apply fine_bind; [now apply fields_some|]. intros; exact I.
  - apply fine_bind; [now apply fields_none|]. intros a. apply fine_bind; [now apply fields_none|]. intros; exact I.
Qed.
End NoPanic.
