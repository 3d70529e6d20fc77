From Verif Require Import Base BaseLemmas AfModel MapLib FlModel FlSpec FlSafeProofs FlDecodeProofs FlTemplateProofs FlValueProofs FlRoundProofs FlNRoundProofs.

Lemma only_templates_ok iana vendor millis_ok enc l : Forall (only_templates iana vendor) l ->
  forall v, sets_ok iana vendor millis_ok enc v l.
Proof.
  induction 1 as [|s l Hs _ IH]; intros v; cbn [sets_ok]; [exact I|]. split; [|apply IH].
  destruct s; cbn in *; tauto.
Qed.

(* the length field of a written IPFIX message *)
Lemma encode_declared iana vendor millis_ok enc dec p : header_ok p ->
  sets_ok iana vendor millis_ok (cached enc) (cached dec) (ip_sets p) ->
  exists b, encode iana vendor enc (Ipfix p) = Ok b /\ version_of b = 10 /\ declared b = blen b mod 65536 /\
            blen b = 16 + nsum (map (iset_len iana vendor (c_ipfix enc)) (ip_sets p)).
Proof.
  intros (Ht & Hq & Hd) Hs.
  destruct (sets_round iana vendor millis_ok (c_ipfix enc) (ip_sets p) (c_ipfix dec) Hs) as (bs & Hw & Hb & _).
  cbn [encode]. unfold w_ipkt, ipkt_len. rewrite Hw. cbn [rbind]. eexists; split; [reflexivity|].
  split; [reflexivity|]. rewrite !blen_app, !be_enc_blen, <- Hb.
  split; [|change (N.of_nat 4) with 4; change (N.of_nat 2) with 2; lia].
  unfold as_u16. cbn [be_enc app declared]. change (N.of_nat 4) with 4; change (N.of_nat 2) with 2.
  pose proof (N.mod_upper_bound (16 + blen bs) 65536 ltac:(lia)). 
  replace (2 + (2 + (4 + (4 + (4 + blen bs))))) with (16 + blen bs) by lia.
  set (n := (16 + blen bs) mod 65536) in *. cbn. lia.
Qed.

Lemma map_repeat {A B} (f : A -> B) x n : map f (repeat x n) = repeat (f x) n.
Proof. induction n; cbn; congruence. Qed.
Lemma nsum_repeat x n : nsum (repeat x n) = x * N.of_nat n.
Proof. induction n as [|n IH]; cbn [repeat]; [cbn; lia|]. rewrite nsum_cons, IH. lia. Qed.

(* announced and written lengths *)
Lemma w_text_len len b x : w_text len b = x -> (forall l, len = Some l -> l <> 65535 -> blen b <= l) ->
  len <> None -> blen x = bytes_len len b.
Proof.
  intros <- H Hn. unfold w_text, bytes_len. destruct len as [l|]; [|congruence].
  destruct (N.eqb_spec l 65535) as [E|E]; [apply blen_varlen|]. specialize (H l eq_refl E).
  unfold w_filled. rewrite blen_app, blen_repeat, N2Nat.id. lia.
Qed.
Lemma w_reduced_len w v len b : w_reduced w v len = Ok b -> blen b = opt_len len (N.of_nat w).
Proof.
  unfold w_reduced, opt_len. destruct len as [l|]; [|intros [= <-]; apply be_enc_blen].
  destruct (N.of_nat w <? l); intros [= <-]. rewrite be_enc_blen. lia.
Qed.
Lemma w_bytes_len len b : (forall l, len = Some l -> l <> 65535 -> blen b <= l) -> blen (w_bytes len b) = bytes_len len b.
Proof.
  intros H. unfold w_bytes, bytes_len. destruct len as [l|]; [|reflexivity].
  destruct (N.eqb_spec l 65535) as [E|E]; [apply blen_varlen|]. specialize (H l eq_refl E).
  unfold w_filled. rewrite blen_app, blen_repeat, N2Nat.id. lia.
Qed.
Lemma written_len iana vendor f len b : w_field iana vendor f len = Ok b ->
  (forall l, len = Some l -> l <> 65535 -> blen (payload f) <= l) -> (len = None -> ~ unknown_ie iana vendor f) ->
  blen b = field_len iana vendor f len.
Proof.
  unfold w_field, field_len, unknown_ie. destruct f as [pen id v|pen id x]; cbn [payload].
  2: { intros [= <-] H Hn. apply (w_text_len len x _ eq_refl H). intros E. now apply Hn. }
  destruct (classify iana vendor pen id) as [[t| |]|]; try discriminate.
  - intros Hw H _. unfold value_len, w_value in *.
    destruct t, v; try discriminate Hw; try (injection Hw as <-); try (now apply w_reduced_len in Hw);
      rewrite ?be_enc_blen, ?blen_app, ?be_enc_blen; try reflexivity; try (now apply w_bytes_len).
    + unfold w_text. destruct len as [l|]; [|apply blen_varlen].
      destruct (N.eqb_spec l 65535) as [E|E]; [apply blen_varlen|]. specialize (H l eq_refl E).
      unfold w_filled. rewrite blen_app, blen_repeat, N2Nat.id. lia.
    + unfold opt_len. destruct (N.ltb_spec (blen b0) (match len with Some l => l | None => blen b0 end)); [discriminate Hw|].
      injection Hw as <-. destruct len; now apply blen_take.
  - destruct v; try discriminate. intros [= <-] H Hn. apply (w_text_len len b0 _ eq_refl H). intros E. now apply Hn.
Qed.

(* a conforming encoding of a long field is never read as that field *)
Lemma long_misread millis_ok b rest off : 255 <= blen b < 65536 -> bytes_ok (b ++ rest) = true ->
  forall r v, p_value millis_ok TOctets 65535 (mkR (rfc_varlen b ++ rest) off) = (r, Ok v) -> v <> VBytes b.
Proof.
  intros Hb Hok r v. unfold rfc_varlen. replace (blen b <? 255) with false by lia.
  destruct b as [|x b]; [rewrite blen_nil in Hb; lia|]. cbn [app].
  set (n := blen (x :: b)) in *.
  assert (Hx : x < 256).
  { cbn [app bytes_ok forallb] in Hok. apply andb_true_iff in Hok as [Hx _]. now apply N.ltb_lt in Hx. }
  assert (Hh : n / 256 < 256) by (apply N.div_lt_upper_bound; lia).
  pose proof (N.mod_upper_bound n 256 ltac:(lia)) as Hm.
  assert (Hv : parses read_varlen [255; n / 256; n mod 256; x] ((n / 256) * 65536 + (n mod 256) * 256 + x)).
  { unfold read_varlen. change [255; n / 256; n mod 256; x] with ([255] ++ [n / 256; n mod 256; x]).
    eapply parses_bind; [apply parses_map_err, (parses_u8 255); lia|]. change (255 =? 255) with true. cbn iota.
    replace [n / 256; n mod 256; x] with (be_enc 3 ((n / 256) * 65536 + (n mod 256) * 256 + x)).
    - apply parses_map_err. change 3 with (N.of_nat 3). apply parses_unsigned32; [lia|]. change (256 ^ N.of_nat 3) with 16777216. nia.
    - clearbody n. cbn [be_enc app]. set (h := n / 256) in *. set (l := n mod 256) in *. clearbody h l.
      assert (E1 : (h * 65536 + l * 256 + x) mod 256 = x) by lia.
      assert (E2 : (h * 65536 + l * 256 + x) / 256 = h * 256 + l) by lia.
      rewrite E1, E2. replace ((h * 256 + l) / 256) with h by lia. replace ((h * 256 + l) mod 256) with l by lia.
      rewrite N.mod_small by assumption. reflexivity. }
  cbn [p_value]. unfold bind at 1, read_len. change (65535 =? 65535) with true. cbn iota.
  pose proof (Hv (b ++ rest) off) as E. cbn [app] in E. rewrite E. clear E.
  unfold bind, pmap_err, read_bytes. cbn [rbuf].
  set (k := n / 256 * 65536 + n mod 256 * 256 + x).
  destruct (N.ltb_spec (blen (b ++ rest)) k) as [Hl|Hl]; [discriminate|]. unfold ret. intros [= <- <-] Heq.
  assert (Hk : blen (take k (b ++ rest)) = n) by (injection Heq as ->; reflexivity).
  rewrite blen_take in Hk by assumption. subst k.
  pose proof (N.div_mod n 256 ltac:(lia)) as Hd. nia.
Qed.

Lemma twos_val len bits z : 8 * len <= bits ->
  Z.of_N (be_val (be_enc (N.to_nat len) (of_signed bits z))) = (z mod 2 ^ (8 * Z.of_N len))%Z.
Proof.
  intros H. rewrite be_val_enc_mod, N2Nat.id. unfold of_signed.
  assert (Hp : (0 < 2 ^ Z.of_N bits)%Z) by (apply Z.pow_pos_nonneg; lia).
  pose proof (Z.mod_pos_bound z _ Hp).
  rewrite N2Z.inj_mod, Z2N.id by lia. rewrite N2Z.inj_pow. change (Z.of_N 256) with (2 ^ 8)%Z.
  rewrite <- Z.pow_mul_r by lia.
  symmetry. apply Znumtheory.Zmod_div_mod; [apply Z.pow_pos_nonneg; lia|assumption|].
  exists (2 ^ (Z.of_N bits - 8 * Z.of_N len))%Z. rewrite <- Z.pow_add_r by lia. f_equal. lia.
Qed.

Lemma u256_small n : n < 256 -> be_enc 32 n = repeat 0 31 ++ [n].
Proof.
  intros H. change (be_enc 32 n) with (be_enc 31 (n / 256) ++ [n mod 256]).
  rewrite N.div_small, N.mod_small by assumption. reflexivity.
Qed.
Lemma take_repeat (k n : nat) : (k <= n)%nat -> take (N.of_nat k) (repeat 0 n) = repeat 0 k.
Proof.
  intros H. unfold take. rewrite Nat2N.id. replace n with (k + (n - k))%nat by lia. rewrite repeat_app.
  rewrite firstn_app, repeat_length. replace (k - k)%nat with 0%nat by lia. cbn. rewrite app_nil_r.
  rewrite <- (repeat_length 0 k) at 1. apply firstn_all.
Qed.
Lemma u256_reduced millis_ok n len : 0 < n < 256 -> 1 <= len <= 31 ->
  exists b, w_value TU256 (VBytes (u256_octets n)) (Some len) = Ok b /\ b <> rfc_unsigned len n /\
  reads (p_value millis_ok TU256 len) b (VBytes (u256_octets 0)).
Proof.
  intros Hn Hl. exists (repeat 0 (N.to_nat len)).
  assert (Ht : forall k, k < 256 -> take len (u256_octets k) = repeat 0 (N.to_nat len)).
  { intros k Hk. unfold u256_octets. rewrite u256_small by assumption. unfold take. rewrite firstn_app, repeat_length.
    replace (N.to_nat len - 31)%nat with 0%nat by lia. cbn [firstn]. rewrite app_nil_r.
    pose proof (take_repeat (N.to_nat len) 31 ltac:(lia)) as E. unfold take in E. rewrite Nat2N.id in E. exact E. }
  split; [|split].
  - cbn [w_value]. unfold u256_octets at 1. rewrite be_enc_blen. change (N.of_nat 32) with 32.
    replace (32 <? len) with false by lia. rewrite Ht by lia. reflexivity.
  - unfold rfc_unsigned. intros E. apply (f_equal be_val) in E. rewrite be_val_repeat0, be_val_enc_mod, N2Nat.id in E.
    rewrite N.mod_small in E; [lia|]. assert (256 ^ 1 <= 256 ^ len) by (apply N.pow_le_mono_r; lia). change (256 ^ 1) with 256 in *. lia.
  - destruct (value_round millis_ok TU256 len (VBytes (u256_octets 0))) as (b & Hw & Hp & _).
    { split; [lia|]. exists (repeat 0 (N.to_nat len)). rewrite blen_repeat, N2Nat.id. split; [|reflexivity].
      unfold u256_octets. rewrite u256_small by lia. change (repeat 0 31 ++ [0]) with (repeat 0 32). rewrite <- repeat_app. f_equal. lia. }
    cbn [w_value] in Hw. unfold u256_octets in Hw at 1. rewrite be_enc_blen in Hw. change (N.of_nat 32) with 32 in Hw.
    replace (32 <? len) with false in Hw by lia. rewrite Ht in Hw by lia. injection Hw as <-. exact Hp.
Qed.
