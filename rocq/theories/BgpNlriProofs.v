From Verif Require Import Base BaseLemmas AfModel BgpCapProofs BgpNlriModel BgpNlriSpec.
Ltac Zify.zify_post_hook ::= Z.div_mod_to_equations.

Lemma round_len_0 : round_len 0 = 0. Proof. reflexivity. Qed.
Lemma round_len_pos p : 0 < p -> round_len p = 1 + round_len (p - 8).
Proof. unfold round_len. intros H. destruct (N.le_gt_cases p 8); lia. Qed.
Lemma round_len_le p w : p <= 8 * w -> round_len p <= w.
Proof. unfold round_len. lia. Qed.

Lemma clear_host_len p a : blen (clear_host p a) = blen a.
Proof. revert p; induction a as [|b a IH]; intros p; [reflexivity|]. cbn [clear_host]. rewrite !blen_cons, IH. reflexivity. Qed.
Lemma clear_host_0 a : bytes_ok a = true -> clear_host 0 a = repeat 0 (length a).
Proof.
  induction a as [|b a IH]; intros H; [reflexivity|]. rewrite bytes_ok_cons in H.
  apply andb_true_iff in H. destruct H as [Hb Ha]. cbn [clear_host length repeat].
  change (0 - 8) with 0. rewrite IH by exact Ha. f_equal. change (2 ^ (8 - 0)) with 256. lia.
Qed.

Lemma bit_at_cons b a i : bit_at (b :: a) i = if i <? 8 then N.testbit b (7 - i) else bit_at a (i - 8).
Proof.
  unfold bit_at. destruct (i <? 8) eqn:H.
  - replace (i / 8) with 0 by lia. replace (i mod 8) with i by lia. reflexivity.
  - replace (i / 8) with (1 + (i - 8) / 8) by lia. replace (i mod 8) with ((i - 8) mod 8) by lia.
    replace (N.to_nat (1 + (i - 8) / 8)) with (S (N.to_nat ((i - 8) / 8))) by lia. reflexivity.
Qed.
Lemma clear_bit b k j : N.testbit (b / 2 ^ k * 2 ^ k) j = (k <=? j) && N.testbit b j.
Proof.
  rewrite <- N.shiftr_div_pow2, <- N.shiftl_mul_pow2.
  destruct (k <=? j) eqn:H.
  - rewrite N.shiftl_spec_high' by lia. rewrite N.shiftr_spec'. cbn [andb]. f_equal. lia.
  - rewrite N.shiftl_spec_low by lia. reflexivity.
Qed.
Lemma clear_host_bit p a i : bit_at (clear_host p a) i = (i <? p) && bit_at a i.
Proof.
  revert p i; induction a as [|b a IH]; intros p i.
  - cbn [clear_host]. unfold bit_at. destruct (N.to_nat (i / 8)); cbn [nth]; rewrite N.bits_0, andb_false_r; reflexivity.
  - cbn [clear_host]. rewrite !bit_at_cons. destruct (i <? 8) eqn:H.
    + rewrite clear_bit. f_equal. lia.
    + rewrite IH. f_equal. lia.
Qed.
Lemma testbit_high b j : b < 256 -> 8 <= j -> N.testbit b j = false.
Proof.
  intros Hb Hj. destruct (N.eq_dec b 0) as [->|Hz]; [apply N.bits_0|].
  apply N.bits_above_log2.
  apply N.lt_le_trans with 8; [|exact Hj]. apply N.log2_lt_pow2; [lia|]. change (2 ^ 8) with 256. exact Hb.
Qed.
Lemma bits_ext a b : bytes_ok a = true -> bytes_ok b = true -> blen a = blen b ->
  (forall i, i < 8 * blen a -> bit_at a i = bit_at b i) -> a = b.
Proof.
  revert b; induction a as [|x a IH]; intros [|y b] Ha Hb Hl H.
  - reflexivity.
  - rewrite blen_cons in Hl. change (blen (@nil N)) with 0 in Hl. lia.
  - rewrite blen_cons in Hl. change (blen (@nil N)) with 0 in Hl. lia.
  - rewrite bytes_ok_cons in Ha, Hb. apply andb_true_iff in Ha, Hb. destruct Ha as [Hx Ha], Hb as [Hy Hb].
    rewrite !blen_cons in Hl. rewrite !blen_cons in H.
    f_equal.
    + apply N.bits_inj. intros j. destruct (N.lt_ge_cases j 8) as [Hj|Hj].
      * specialize (H (7 - j) ltac:(lia)). rewrite !bit_at_cons in H.
        replace (7 - j <? 8) with true in H by lia. replace (7 - (7 - j)) with j in H by lia. exact H.
      * rewrite !testbit_high by lia. reflexivity.
    + apply IH; try assumption; [lia|]. intros i Hi. specialize (H (i + 8) ltac:(lia)).
      rewrite !bit_at_cons in H. replace (i + 8 <? 8) with false in H by lia.
      replace (i + 8 - 8) with i in H by lia. exact H.
Qed.
Lemma clear_host_ok p a : bytes_ok a = true -> bytes_ok (clear_host p a) = true.
Proof.
  revert p; induction a as [|b a IH]; intros p H; [reflexivity|].
  rewrite bytes_ok_cons in H. apply andb_true_iff in H. destruct H as [Hb Ha].
  cbn [clear_host]. rewrite bytes_ok_cons, IH by exact Ha. rewrite andb_true_r.
  assert (2 ^ (8 - p) <> 0) by (apply N.pow_nonzero; lia).
  pose proof (N.mul_div_le b (2 ^ (8 - p)) H). lia.
Qed.
Lemma network_canon n : bytes_ok (fst n) = true -> no_host_bits n -> network n = fst n.
Proof.
  intros Hok Hc. unfold network. apply bits_ext.
  - apply clear_host_ok, Hok.
  - exact Hok.
  - apply clear_host_len.
  - rewrite clear_host_len. intros i Hi. rewrite clear_host_bit.
    destruct (i <? snd n) eqn:H; cbn [andb]; [reflexivity|].
    symmetry. apply Hc; lia.
Qed.
Lemma clear_host_split p a : bytes_ok a = true -> p <= 8 * blen a ->
  clear_host p a = take (round_len p) (clear_host p a) ++ repeat 0 (N.to_nat (blen a - round_len p)).
Proof.
  revert p; induction a as [|b a IH]; intros p Hok Hp.
  - change (blen (@nil N)) with 0 in *. replace p with 0 by lia. reflexivity.
  - rewrite bytes_ok_cons in Hok. apply andb_true_iff in Hok. destruct Hok as [Hb Ha].
    rewrite blen_cons in Hp. destruct (N.eq_dec p 0) as [->|Hz].
    + rewrite round_len_0, take_0. rewrite clear_host_0 by (rewrite bytes_ok_cons, Ha, Hb; reflexivity).
      cbn [app]. f_equal. unfold blen. lia.
    + rewrite round_len_pos by lia. cbn [clear_host].
      replace (take (1 + round_len (p - 8)) _) with
        (b / 2 ^ (8 - p) * 2 ^ (8 - p) :: take (round_len (p - 8)) (clear_host (p - 8) a)).
      2:{ unfold take. replace (N.to_nat (1 + round_len (p - 8))) with (S (N.to_nat (round_len (p - 8)))) by lia. reflexivity. }
      cbn [app]. f_equal. rewrite IH at 1 by (try assumption; lia). rewrite blen_cons. f_equal. f_equal. lia.
Qed.

(* ---- prefixes ---- *)
Lemma nrd_u8 v : parses (nrd read_u8) [v] v.
Proof. apply parses_map_err, parses_u8. Qed.
Lemma nrd_bytes l n : n = blen l -> parses (nrd (read_bytes n)) l l.
Proof. intros. apply parses_map_err, parses_bytes. assumption. Qed.
Lemma nrd_u16 v : u16 v -> parses (nrd read_u16) (be_enc 2 v) v.
Proof. intros. apply parses_map_err, parses_u16. assumption. Qed.
Lemma nrd_u32 v : u32 v -> parses (nrd read_u32) (be_enc 4 v) v.
Proof. intros. apply parses_map_err, parses_u32. assumption. Qed.

Lemma net_size_wf w p : p <= 8 * w -> w <= 16 -> net_size w p = round_len p.
Proof.
  intros H Hw. unfold net_size. replace (248 <=? p) with false by lia. pose proof (round_len_le p w H). lia.
Qed.
Lemma enc_net_octets_len w n : net_wf w n -> blen (enc_net_octets n) = round_len (snd n).
Proof.
  intros (Hl & Hok & Hp). unfold enc_net_octets, network. apply blen_take. rewrite clear_host_len, Hl.
  apply round_len_le, Hp.
Qed.
Lemma p_net_len w n : net_wf w n -> w <= 16 -> no_host_bits n ->
  parses (parse_net_len w (snd n)) (enc_net_octets n) n.
Proof.
  intros Hwf Hw Hc. pose proof (enc_net_octets_len w n Hwf) as Hel.
  pose proof Hwf as (Hl & Hok & Hp). unfold parse_net_len.
  apply parses_bind_ret with (x := enc_net_octets n).
  - apply nrd_bytes. rewrite Hel. apply net_size_wf; assumption.
  - replace (8 * w <? snd n) with false by lia.
    assert (Heq : enc_net_octets n ++ repeat 0 (N.to_nat (w - blen (enc_net_octets n))) = fst n).
    { rewrite Hel. unfold enc_net_octets, network. rewrite <- Hl.
      rewrite <- clear_host_split; [|assumption|lia]. apply network_canon; assumption. }
    rewrite Heq. destruct n as [a p]. cbn [fst snd] in *. apply parses_ret.
Qed.
Lemma p_net w n : net_wf w n -> w <= 16 -> no_host_bits n -> parses (parse_net w) (enc_net n) n.
Proof.
  intros. unfold parse_net, enc_net. apply (parses_bind _ _ [snd n] (enc_net_octets n)) with (x := snd n).
  - apply nrd_u8.
  - apply p_net_len; assumption.
Qed.
Lemma family_width_le t : family_width t <= 16.
Proof. destruct t; cbn; lia. Qed.
Lemma p_chk t n : family_ok t n = true -> parses (chk_net t n) [] n.
Proof. intros H. unfold chk_net. rewrite H. apply parses_ret. Qed.

(* ---- route distinguisher ---- *)
Lemma lor3 a b c ka kb : b < 2 ^ ka -> c < 2 ^ kb -> kb <= ka ->
  N.lor (N.lor (N.shiftl a (ka + kb)) (N.shiftl b kb)) c = a * 2 ^ (ka + kb) + b * 2 ^ kb + c.
Proof.
  intros Hb Hc Hk. rewrite !N.shiftl_mul_pow2.
  replace (a * 2 ^ (ka + kb)) with ((a * 2 ^ ka) * 2 ^ kb) by (rewrite N.pow_add_r; lia).
  rewrite <- (N.shiftl_mul_pow2 (a * 2 ^ ka) kb), <- (N.shiftl_mul_pow2 b kb).
  rewrite <- N.shiftl_lor, lor_disjoint by exact Hb. rewrite N.shiftl_mul_pow2.
  rewrite lor_disjoint by exact Hc. rewrite N.mul_add_distr_r, ?N.shiftl_mul_pow2. reflexivity.
Qed.
Lemma be_enc_app k m v : be_enc (k + m) v = be_enc k (v / 256 ^ N.of_nat m) ++ be_enc m v.
Proof.
  assert (H : be_val (be_enc (k + m) v) = be_val (be_enc k (v / 256 ^ N.of_nat m) ++ be_enc m v)).
  { rewrite be_val_app, !be_val_enc_mod, be_enc_blen.
    replace (N.of_nat (k + m)) with (N.of_nat m + N.of_nat k) by lia. rewrite N.pow_add_r.
    rewrite N.mod_mul_r by (apply N.pow_nonzero; discriminate). rewrite N.add_comm, (N.mul_comm (256 ^ N.of_nat m)). reflexivity. }
  apply be_val_inj in H; [exact H| | |].
  - apply be_enc_ok.
  - rewrite bytes_ok_app, !be_enc_ok. reflexivity.
  - rewrite app_length, !be_enc_length. reflexivity.
Qed.
Lemma enc_3 a b c (kb kc : nat) : u16 a -> b < 256 ^ N.of_nat kb -> c < 256 ^ N.of_nat kc -> (kb + kc = 6)%nat ->
  be_enc 8 (a * 256 ^ N.of_nat (kb + kc) + b * 256 ^ N.of_nat kc + c) = be_enc 2 a ++ be_enc kb b ++ be_enc kc c.
Proof.
  intros Ha Hb Hc Hk. replace 8%nat with (2 + (kb + kc))%nat by lia.
  assert (Hpk : 256 ^ N.of_nat (kb + kc) = 256 ^ N.of_nat kb * 256 ^ N.of_nat kc).
  { rewrite <- N.pow_add_r. f_equal. lia. }
  assert (Hkc : 256 ^ N.of_nat kc <> 0) by (apply N.pow_nonzero; lia).
  assert (Hkb : 256 ^ N.of_nat kb <> 0) by (apply N.pow_nonzero; lia).
  rewrite be_enc_app. f_equal.
  - f_equal. symmetry. apply N.div_unique with (r := b * 256 ^ N.of_nat kc + c); [|lia].
    rewrite Hpk. nia.
  - rewrite be_enc_app. f_equal.
    + apply be_val_inj; [apply be_enc_ok|apply be_enc_ok|rewrite !be_enc_length; reflexivity|].
      rewrite !be_val_enc_mod. rewrite N.mod_small with (a := b) by exact Hb.
      replace ((a * 256 ^ N.of_nat (kb + kc) + b * 256 ^ N.of_nat kc + c) / 256 ^ N.of_nat kc)
        with (b + a * 256 ^ N.of_nat kb).
      * rewrite N.mod_add by exact Hkb. apply N.mod_small, Hb.
      * apply N.div_unique with (r := c); [exact Hc|]. rewrite Hpk. nia.
    + apply be_val_inj; [apply be_enc_ok|apply be_enc_ok|rewrite !be_enc_length; reflexivity|].
      rewrite !be_val_enc_mod. rewrite Hpk.
      replace (a * (256 ^ N.of_nat kb * 256 ^ N.of_nat kc) + b * 256 ^ N.of_nat kc + c)
        with (c + (a * 256 ^ N.of_nat kb + b) * 256 ^ N.of_nat kc) by nia.
      rewrite N.mod_add by exact Hkc. reflexivity.
Qed.
Lemma enc_rd_len r : blen (enc_rd r) = 8.
Proof. unfold enc_rd. apply be_enc_blen. Qed.
Lemma enc_rd_as2 a n : u16 a -> u32 n -> enc_rd (RdAs2 a n) = be_enc 2 0 ++ be_enc 2 a ++ be_enc 4 n.
Proof.
  intros Ha Hn. unfold enc_rd, rd_value. unfold u16, u32 in *.
  replace (N.shiftl 0 48) with (N.shiftl 0 (16 + 32)) by reflexivity.
  rewrite <- (enc_3 0 a n 2 4); [|unfold u16; lia|exact Ha|exact Hn|reflexivity]. f_equal.
  assert (a < 2 ^ 16) by exact Ha. assert (n < 2 ^ 32) by exact Hn.
  change (N.shiftl 0 (16 + 32)) with 0. rewrite N.lor_0_l, shiftl_mul, lor_disjoint by assumption.
  change (256 ^ N.of_nat 4) with (2 ^ 32). lia.
Qed.
Lemma enc_rd_ip t a n : u16 t -> u32 a -> u16 n ->
  be_enc 8 (N.lor (N.lor (N.shiftl t 48) (N.shiftl a 16)) n) = be_enc 2 t ++ be_enc 4 a ++ be_enc 2 n.
Proof.
  intros Ht Ha Hn. unfold u16, u32 in *.
  rewrite <- (enc_3 t a n 4 2); [|exact Ht|exact Ha|exact Hn|reflexivity]. f_equal.
  change 48 with (32 + 16). rewrite lor3; [|exact Ha|exact Hn|lia].
  change (256 ^ N.of_nat (4 + 2)) with (2 ^ (32 + 16)). change (256 ^ N.of_nat 2) with (2 ^ 16). reflexivity.
Qed.
Lemma p_rd r : rd_fits r -> parses parse_rd (enc_rd r) r.
Proof.
  destruct r as [a n|i n|a n|]; cbn [rd_fits]; unfold parse_rd.
  - intros [Ha Hn]. rewrite enc_rd_as2 by assumption.
    eapply parses_bind; [apply nrd_u16; unfold u16; lia|]. cbn [N.eqb].
    eapply parses_bind; [apply nrd_u16; assumption|].
    eapply parses_bind_ret; [apply nrd_u32; assumption|]. apply parses_ret.
  - intros [Ha Hn]. unfold enc_rd, rd_value. rewrite enc_rd_ip; [|unfold u16; lia|assumption|assumption].
    eapply parses_bind; [apply nrd_u16; unfold u16; lia|].
    change (1 =? 0) with false. change (1 =? 1) with true. cbv beta iota.
    eapply parses_bind; [apply nrd_u32; assumption|].
    eapply parses_bind_ret; [apply nrd_u16; assumption|]. apply parses_ret.
  - intros [Ha Hn]. unfold enc_rd, rd_value. rewrite enc_rd_ip; [|unfold u16; lia|assumption|assumption].
    eapply parses_bind; [apply nrd_u16; unfold u16; lia|].
    change (2 =? 0) with false. change (2 =? 1) with false. change (2 =? 2) with true. cbv beta iota.
    eapply parses_bind; [apply nrd_u32; assumption|].
    eapply parses_bind_ret; [apply nrd_u16; assumption|]. apply parses_ret.
  - intros _. change (enc_rd RdLeaf) with (be_enc 2 65535 ++ be_enc 2 65535 ++ be_enc 4 4294967295).
    eapply parses_bind; [apply nrd_u16; unfold u16; lia|].
    change (65535 =? 0) with false. change (65535 =? 1) with false. change (65535 =? 2) with false.
    change (65535 =? 65535) with true. cbv beta iota.
    eapply parses_bind; [apply nrd_u16; unfold u16; lia|].
    eapply parses_bind_ret; [apply nrd_u32; unfold u32; lia|]. apply parses_ret.
Qed.

(* ---- label stacks ---- *)
Lemma concat_labels_len ls : Forall (octets 3) ls -> blen (concat ls) = 3 * blen ls.
Proof.
  induction 1 as [|l ls [Hl _] _ IH]; [reflexivity|]. cbn [concat]. rewrite blen_app, blen_cons, Hl, IH. lia.
Qed.
Lemma p_label_loop fuel limit ls rest :
  stack_fits limit ls -> (length ls < fuel)%nat -> forall off,
  label_loop fuel limit (mkR (concat ls ++ rest) off) = (mkR rest (off + blen (concat ls)), Ok ls).
Proof.
  revert fuel limit; induction ls as [|l ls IH]; intros fuel limit (Ho & Hlen & Hnb & Hlast) Hf off.
  - destruct fuel as [|f]; [cbn in Hf; lia|]. destruct Hlast as [[Hne _]|[Heq _]]; [congruence|].
    change (0 = limit) in Heq. subst limit. cbn [label_loop]. change (0 =? 0) with true. cbn.
    rewrite N.add_0_r. reflexivity.
  - destruct fuel as [|f]; [lia|]. rewrite blen_cons in Hlen.
    inversion Ho as [|? ? Hl Ho']; subst. destruct Hl as [Hl Hlok].
    cbn [label_loop]. replace (limit =? 0) with false by lia.
    cbn [concat]. rewrite <- app_assoc.
    assert (Hrd : nrd (read_bytes 3) (mkR (l ++ concat ls ++ rest) off)
                  = (mkR (concat ls ++ rest) (off + blen l), Ok l)).
    { apply (nrd_bytes l 3). symmetry. exact Hl. }
    unfold bind at 1. rewrite Hrd. cbv beta iota.
    destruct ls as [|l' ls'].
    + cbn [last] in Hlast. destruct (label_bottom l) eqn:Hb.
      * cbn. rewrite app_nil_r. reflexivity.
      * destruct Hlast as [[_ HH]|[Heq Hlim]]; [congruence|]. rewrite blen_cons in Heq.
        change (blen (@nil label)) with 0 in Heq. assert (limit = 1) by lia. subst limit.
        change (1 =? 255) with false. cbv beta iota. change (1 - 1) with 0.
        unfold bind. destruct f; cbn; rewrite app_nil_r; reflexivity.
    + assert (Hb : label_bottom l = false).
      { change (removelast (l :: l' :: ls')) with (l :: removelast (l' :: ls')) in Hnb.
        inversion Hnb; subst; assumption. }
      rewrite Hb. cbv beta iota. cbn zeta.
      set (limit' := if limit =? 255 then limit else limit - 1).
      assert (Hfit : stack_fits limit' (l' :: ls')).
      { unfold stack_fits. rewrite blen_cons in Hlen |- *. repeat apply conj.
        - assumption.
        - unfold limit'. destruct (limit =? 255) eqn:E; lia.
        - change (removelast (l :: l' :: ls')) with (l :: removelast (l' :: ls')) in Hnb.
          inversion Hnb; subst; assumption.
        - destruct Hlast as [[_ HH]|[Heq Hlim]].
          + left. split; [discriminate|]. exact HH.
          + right. rewrite !blen_cons in Heq. unfold limit'.
            destruct (limit =? 255) eqn:E; lia. }
      unfold bind. rewrite IH; [|assumption|cbn in Hf |- *; lia].
      rewrite blen_app. unfold ret. rewrite N.add_assoc. reflexivity.
Qed.
Lemma len_le_concat ls : Forall (octets 3) ls -> (length ls <= length (concat ls))%nat.
Proof.
  induction 1 as [|l ls [Hl _] _ IH]; [cbn; lia|]. cbn [concat length]. rewrite app_length.
  unfold blen in Hl. lia.
Qed.
Lemma p_labels limit ls : stack_fits limit ls -> parses (parse_labels limit) (concat ls) ls.
Proof.
  intros H rest off. unfold parse_labels. cbn [rbuf]. apply p_label_loop; [assumption|].
  destruct H as (Ho & _). pose proof (len_le_concat ls Ho). rewrite app_length. unfold label in *; lia.
Qed.

Lemma p_path_id ap p : path_id_fits ap p -> parses (parse_path_id ap) (enc_path_id p) p.
Proof.
  unfold path_id_fits, parse_path_id. destruct p as [i|].
  - intros [-> Hi]. cbn [enc_path_id]. eapply parses_bind_ret; [apply nrd_u32; exact Hi|]. apply parses_ret.
  - intros ->. apply parses_ret.
Qed.

Lemma p_ip_bits a : ip_fits a -> parses parse_ip_bits (enc_ip_bits a) a.
Proof.
  unfold parse_ip_bits. destruct a as [o|o]; intros [Ho _]; cbn [enc_ip_bits].
  - apply (parses_bind _ _ [32] o) with (x := 32); [apply nrd_u8|]. change (32 =? 32) with true. cbv beta iota.
    eapply parses_bind_ret; [apply nrd_bytes; symmetry; exact Ho|]. apply parses_ret.
  - apply (parses_bind _ _ [128] o) with (x := 128); [apply nrd_u8|].
    change (128 =? 32) with false. change (128 =? 128) with true. cbv beta iota.
    eapply parses_bind_ret; [apply nrd_bytes; symmetry; exact Ho|]. apply parses_ret.
Qed.
Lemma enc_ip_len a : ip_fits a -> blen (enc_ip_bits a) = 1 + ip_len a.
Proof. destruct a; intros [H _]; cbn [enc_ip_bits ip_len]; rewrite blen_cons, H; reflexivity. Qed.
Lemma network_len w n : net_wf w n -> blen (network n) = w.
Proof. intros (H & _). unfold network. rewrite clear_host_len. exact H. Qed.
Lemma evpn_len e : evpn_fits e -> blen (enc_evpn_value e) = evpn_value_len e.
Proof.
  destruct e; cbn [evpn_fits enc_evpn_value evpn_value_len].
  - intros (Hr & [He _] & Ht & [Hl _]). rewrite !blen_app, enc_rd_len, be_enc_blen, He, Hl. reflexivity.
  - intros (Hr & [He _] & Ht & [Hm _] & Hip & [Hl _] & Hl2).
    rewrite !blen_app, blen_cons, !blen_app, enc_rd_len, be_enc_blen, He, Hl, Hm.
    destruct ip as [a|]; destruct l2 as [l|].
    + rewrite enc_ip_len by assumption. destruct Hl2 as [-> _]. lia.
    + rewrite enc_ip_len by assumption. change (blen (@nil N)) with 0. lia.
    + change (blen [0]) with 1. destruct Hl2 as [-> _]. lia.
    + change (blen [0]) with 1. change (blen (@nil N)) with 0. lia.
  - intros (Hr & Ht & Hip). rewrite !blen_app, enc_rd_len, be_enc_blen, enc_ip_len by assumption. lia.
  - intros (Hr & [He _] & Hip). rewrite !blen_app, enc_rd_len, He, enc_ip_len by assumption. lia.
  - intros (Hr & [He _] & Ht & [Hn _] & [Hg _] & [Hl _]).
    rewrite !blen_app, blen_cons, !blen_app, enc_rd_len, be_enc_blen, He, Hl, Hg, (network_len 4) by assumption. reflexivity.
  - intros (Hr & [He _] & Ht & [Hn _] & [Hg _] & [Hl _]).
    rewrite !blen_app, blen_cons, !blen_app, enc_rd_len, be_enc_blen, He, Hl, Hg, (network_len 16) by assumption. reflexivity.
  - reflexivity.
Qed.
Lemma evpn_len_small e : evpn_fits e -> evpn_value_len e < 256.
Proof.
  destruct e as [| r esi tag mac ip l1 l2 | r tag ip| r esi ip| | |]; cbn [evpn_fits evpn_value_len]; intros H; try lia.
  - destruct ip as [[?|?]|]; destruct l2; cbn [ip_len]; lia.
  - destruct ip; cbn [ip_len]; lia.
  - destruct ip; cbn [ip_len]; lia.
Qed.

(* ---- EVPN ---- *)
Lemma safe_bind_post {E A B} (p : parser E A) (f : A -> parser E B) :
  safe p -> (forall r r' a, p r = (r', Ok a) -> safe (f a)) -> safe (bind p f).
Proof.
  intros Hp Hf r. unfold bind. destruct (Hp r) as [Ha Hc]. specialize (Hf r).
  destruct (p r) as [r' x]. cbn [fst snd] in *.
  destruct x as [a|e| |]; cbn in Hc; try contradiction.
  - destruct (Hf r' a eq_refl r') as [Ha' Hc']. split; [|exact Hc'].
    eapply adv_trans; eauto.
  - cbn [fst snd]. split; [exact Ha|exact I].
Qed.
Lemma pe_get_reader {E B} (k : reader -> parser E B) b y :
  (forall off, parses_end (k (mkR b off)) b y) -> parses_end (bind get_reader k) b y.
Proof. intros H off. unfold bind, get_reader. apply H. Qed.
Lemma pe_bind_ret {E A B} (p : parser E A) (f : A -> parser E B) b x y :
  parses p b x -> parses_end (f x) [] y -> parses_end (bind p f) b y.
Proof. intros. rewrite <- (app_nil_r b). eapply parses_end_bind; eauto. Qed.
Ltac pseq := eapply parses_bind; [solve [eauto using p_rd, nrd_u8, nrd_u16, nrd_u32, nrd_bytes, p_ip_bits]|].
Ltac plast := eapply parses_bind_ret; [solve [eauto using p_rd, nrd_u8, nrd_u16, nrd_u32, nrd_bytes, p_ip_bits]|apply parses_ret].
Lemma nrd_octets k l : octets k l -> parses (nrd (read_bytes k)) l l.
Proof. intros [H _]. apply nrd_bytes. symmetry. exact H. Qed.
#[local] Hint Resolve p_rd nrd_octets nrd_u8 nrd_u16 nrd_u32 p_ip_bits : prs.
Ltac ps := eapply parses_bind; [solve [eauto with prs]|].
Ltac pe := eapply parses_end_bind; [solve [eauto with prs]|].
Ltac pl := eapply parses_bind_ret; [solve [eauto with prs]|]; try apply parses_ret.

Lemma p_ev_prefix w mk r esi tag n gw l :
  rd_fits r -> octets 10 esi -> u32 tag -> net_wf w n -> no_host_bits n -> octets w gw -> octets 3 l ->
  parses (parse_ev_prefix w mk) (enc_rd r ++ esi ++ be_enc 4 tag ++ snd n :: network n ++ gw ++ l)
         (mk r esi tag n gw l).
Proof.
  intros Hr He Ht (Hnl & Hnok & Hnp) Hnc Hg Hl. unfold parse_ev_prefix. rewrite network_canon by assumption.
  ps. ps. ps. change (snd n :: fst n ++ gw ++ l) with ([snd n] ++ fst n ++ gw ++ l). ps.
  eapply parses_bind; [apply nrd_bytes; symmetry; exact Hnl|].
  replace (8 * w <? snd n) with false by lia.
  ps. pl. destruct n. apply parses_ret.
Qed.
Lemma p_evpn e : evpn_fits e -> parses parse_evpn (enc_evpn e) e.
Proof.
  intros H. pose proof (evpn_len e H) as Hl. pose proof (evpn_len_small e H) as Hs.
  unfold parse_evpn, enc_evpn.
  change (evpn_code e :: as_u8 (evpn_value_len e) :: enc_evpn_value e)
    with ([evpn_code e] ++ [as_u8 (evpn_value_len e)] ++ enc_evpn_value e).
  ps. ps. rewrite <- (app_nil_r (enc_evpn_value e)). apply parses_slice.
  { rewrite Hl. unfold as_u8. apply N.mod_small. exact Hs. }
  intros off. rewrite ?app_nil_r in *. apply parses_on_sub. clear Hs.
  destruct e; cbn [evpn_code enc_evpn_value] in *.
  - destruct H as (Hr & He & Ht & Hlb). apply parses_to_end.
    change (1 =? 1) with true. cbv beta iota. unfold parse_ev_auto.
    ps. ps. ps. pl.
  - destruct H as (Hr & He & Ht & Hm & Hip & Hl1 & Hl2).
    change (2 =? 1) with false. change (2 =? 2) with true. cbv beta iota. unfold parse_ev_macip.
    pe. pe. pe.
    match goal with |- parses_end _ (48 :: ?t) _ => change (48 :: t) with ([48] ++ t) end. pe.
    change (negb (48 =? 48)) with false. cbv beta iota. pe.
    assert (Htail : N -> parses_end
      (do l0 <- nrd (read_bytes 3);;
       do rr <- get_reader;;
       do l3 <- (if ris_empty rr then ret None else (do l <- nrd (read_bytes 3);; ret (Some l)));;
       ret (EvMacIp r esi tag mac ip l0 l3))
      (l1 ++ match l2 with Some l => l | None => [] end) (EvMacIp r esi tag mac ip l1 l2)).
    { intros _. pe. apply pe_get_reader. intros off'. destruct l2 as [l|].
      - destruct Hl2 as [Hl2 Hok2]. unfold ris_empty. cbn [rbuf].
        destruct l as [|b0 l]; [discriminate|]. cbv beta iota.
        eapply pe_bind_ret; [|apply parses_to_end, parses_ret].
        eapply parses_bind_ret; [apply nrd_bytes; symmetry; exact Hl2|apply parses_ret].
      - cbn [ris_empty rbuf]. eapply pe_bind_ret; [apply parses_ret|apply parses_to_end, parses_ret]. }
    specialize (Htail 0). destruct ip as [[o|o]|]; cbn [enc_ip_bits].
    + change ((32 :: o) ++ l1 ++ match l2 with Some l => l | None => [] end)
        with ([32] ++ o ++ l1 ++ match l2 with Some l => l | None => [] end).
      pe. change (32 =? 0) with false. change (32 =? 32) with true. cbv beta iota.
      eapply parses_end_bind; [|exact Htail].
      eapply parses_bind_ret; [apply nrd_octets; exact Hip|apply parses_ret].
    + change ((128 :: o) ++ l1 ++ match l2 with Some l => l | None => [] end)
        with ([128] ++ o ++ l1 ++ match l2 with Some l => l | None => [] end).
      pe. change (128 =? 0) with false. change (128 =? 32) with false. change (128 =? 128) with true. cbv beta iota.
      eapply parses_end_bind; [|exact Htail].
      eapply parses_bind_ret; [apply nrd_octets; exact Hip|apply parses_ret].
    + pe. change (0 =? 0) with true. cbv beta iota.
      change (l1 ++ match l2 with Some l => l | None => [] end)
        with ([] ++ l1 ++ match l2 with Some l => l | None => [] end).
      eapply parses_end_bind; [apply parses_ret|exact Htail].
  - destruct H as (Hr & Ht & Hip). apply parses_to_end.
    change (3 =? 1) with false. change (3 =? 2) with false. change (3 =? 3) with true.
    cbv beta iota. unfold parse_ev_multicast. ps. ps. pl.
  - destruct H as (Hr & He & Hip). apply parses_to_end.
    change (4 =? 1) with false. change (4 =? 2) with false. change (4 =? 3) with false. change (4 =? 4) with true.
    cbv beta iota. unfold parse_ev_segment. ps. ps. pl.
  - destruct H as (Hr & He & Ht & (Hn & Hc) & Hg & Hlb).
    change (5 =? 1) with false. change (5 =? 2) with false. change (5 =? 3) with false.
    change (5 =? 4) with false. change (5 =? 5) with true.
    cbv beta iota. unfold parse_ev_ip_prefix. apply pe_get_reader. intros off'.
    unfold remaining. cbn [rbuf]. rewrite Hl. cbn [evpn_value_len]. change (34 =? 34) with true. cbv beta iota.
    apply parses_to_end, p_ev_prefix; assumption.
  - destruct H as (Hr & He & Ht & (Hn & Hc) & Hg & Hlb).
    change (5 =? 1) with false. change (5 =? 2) with false. change (5 =? 3) with false.
    change (5 =? 4) with false. change (5 =? 5) with true.
    cbv beta iota. unfold parse_ev_ip_prefix. apply pe_get_reader. intros off'.
    unfold remaining. cbn [rbuf]. rewrite Hl. cbn [evpn_value_len]. change (58 =? 34) with false.
    change (58 =? 58) with true. cbv beta iota.
    apply parses_to_end, p_ev_prefix; assumption.
  - destruct H as (Hc & Hn & Hv). cbn [In] in Hn.
    replace (code =? 1) with false by lia. replace (code =? 2) with false by lia.
    replace (code =? 3) with false by lia. replace (code =? 4) with false by lia.
    replace (code =? 5) with false by lia.
    apply pe_get_reader. intros off'. unfold remaining. cbn [rbuf].
    eapply pe_bind_ret; [apply nrd_bytes; reflexivity|apply parses_to_end, parses_ret].
Qed.

(* ---- all families ---- *)
Lemma stack_small (ls : list label) (n : N) : 24 * blen ls + n <= 248 -> as_u8 (blen ls) = blen ls /\ 24 * blen ls < 256.
Proof. intros H. split; [unfold as_u8; apply N.mod_small; lia|lia]. Qed.
Lemma p_u8_checked {E} v : v < 256 -> parses (@u8_checked E v) [] v.
Proof. intros H. unfold u8_checked. replace (v <? 256) with true by lia. apply parses_ret. Qed.
Lemma round_len_8 a b : round_len (8 * a + b) = a + round_len b.
Proof. unfold round_len. lia. Qed.
Lemma path_id_blen p : blen (enc_path_id p) = path_id_len p.
Proof. destruct p; [apply be_enc_blen|reflexivity]. Qed.

Lemma labelled_roundtrip t ap limit ls n :
  ap = false -> stack_fits limit ls -> net_wf (family_width t) n -> no_host_bits n ->
  24 * blen ls + snd n <= 248 ->
  parses (parse_labelled t ap limit) (as_u8 (blen ls * 24 + snd n) :: concat ls ++ enc_net_octets n)
         (NLabelled None ls n).
Proof.
  intros -> Hst Hwf Hc Hlen. destruct (stack_small ls _ Hlen) as [Ha Hb].
  pose proof (enc_net_octets_len _ _ Hwf) as Hol.
  assert (Hcl : blen (concat ls) = 3 * blen ls) by (apply concat_labels_len; destruct Hst; assumption).
  unfold parse_labelled. apply parses_bind0 with (x := None); [apply parses_ret|].
  replace (as_u8 (blen ls * 24 + snd n)) with (24 * blen ls + snd n) by (unfold as_u8; rewrite N.mod_small; lia).
  match goal with |- parses _ (?x :: ?l) _ => change (x :: l) with ([x] ++ l) end.
  ps. rewrite <- (app_nil_r (concat ls ++ enc_net_octets n)). apply parses_slice.
  { unfold prefix_bytes. replace (248 <? 24 * blen ls + snd n) with false by lia.
    rewrite blen_app, Hol, Hcl. replace (24 * blen ls) with (8 * (3 * blen ls)) by lia. apply round_len_8. }
  intros off. apply parses_on_sub. apply parses_to_end.
  eapply parses_bind; [apply p_labels; exact Hst|]. rewrite Ha.
  eapply parses_bind0; [apply p_u8_checked; exact Hb|].
  replace (24 * blen ls + snd n <? 24 * blen ls) with false by lia.
  replace (24 * blen ls + snd n - 24 * blen ls) with (snd n) by lia.
  eapply parses_bind_ret; [apply p_net_len; [exact Hwf|apply family_width_le|exact Hc]|].
  replace (255 <? 24 * blen ls + snd n) with false by lia. apply parses_ret.
Qed.
Lemma vpn_roundtrip t ap limit pid r ls n :
  path_id_fits ap pid -> rd_fits r -> stack_fits limit ls -> net_wf (family_width t) n -> no_host_bits n ->
  family_ok t n = true -> 64 + 24 * blen ls + snd n <= 248 ->
  parses (parse_vpn t ap limit)
    (enc_path_id pid ++ as_u8 (64 + blen ls * 3 * 8 + snd n) :: concat ls ++ enc_rd r ++ enc_net_octets n)
    (NVpn pid r ls n).
Proof.
  intros Hpid Hr Hst Hwf Hc Hf Hlen.
  pose proof (enc_net_octets_len _ _ Hwf) as Hol.
  assert (Hcl : blen (concat ls) = 3 * blen ls) by (apply concat_labels_len; destruct Hst; assumption).
  unfold parse_vpn. eapply parses_bind; [apply p_path_id; exact Hpid|].
  replace (as_u8 (64 + blen ls * 3 * 8 + snd n)) with (64 + 24 * blen ls + snd n)
    by (unfold as_u8; rewrite N.mod_small; lia).
  match goal with |- parses _ (?x :: ?l) _ => change (x :: l) with ([x] ++ l) end.
  ps. rewrite <- (app_nil_r (concat ls ++ enc_rd r ++ enc_net_octets n)). apply parses_slice.
  { unfold prefix_bytes. replace (248 <? 64 + 24 * blen ls + snd n) with false by lia.
    rewrite !blen_app, Hol, Hcl, enc_rd_len.
    replace (64 + 24 * blen ls) with (8 * (8 + 3 * blen ls)) by lia. rewrite round_len_8. lia. }
  intros off. apply parses_on_sub.
  eapply parses_end_bind; [apply p_labels; exact Hst|].
  eapply parses_end_bind; [apply p_rd; exact Hr|].
  replace (as_u8 (blen ls) * 24) with (24 * blen ls) by (unfold as_u8; rewrite N.mod_small; lia).
  rewrite <- (app_nil_l (enc_net_octets n)).
  eapply parses_end_bind; [apply p_u8_checked; lia|].
  rewrite <- (app_nil_l (enc_net_octets n)).
  eapply parses_end_bind; [apply p_u8_checked; lia|].
  replace (64 + 24 * blen ls + snd n <? 64 + 24 * blen ls) with false by lia.
  replace (64 + 24 * blen ls + snd n - (64 + 24 * blen ls)) with (snd n) by lia.
  eapply pe_bind_ret; [apply p_net_len; [exact Hwf|apply family_width_le|exact Hc]|].
  eapply pe_bind_ret; [apply p_chk; exact Hf|].
  apply pe_get_reader. intros off'. cbn [ris_empty rbuf]. apply parses_to_end, parses_ret.
Qed.
Lemma rtm_roundtrip ap pid m :
  path_id_fits ap pid ->
  match m with None => True | Some (o, rt) => u32 o /\ blen rt <= 8 /\ bytes_ok rt = true end ->
  forall b, write_nlri (NRtm pid m) = Ok b -> parses (parse_rtm ap) b (NRtm pid m).
Proof.
  intros Hpid Hm b Hw. unfold parse_rtm. destruct m as [[o rt]|]; cbn [write_nlri] in Hw; apply Ok_inj in Hw; subst b.
  - destruct Hm as (Ho & Hrt & Hok). eapply parses_bind; [apply p_path_id; exact Hpid|].
    replace (as_u8 ((4 + blen rt) * 8)) with (32 + 8 * blen rt) by (unfold as_u8; rewrite N.mod_small; lia).
    match goal with |- parses _ (?x :: ?l) _ => change (x :: l) with ([x] ++ l) end. ps.
    replace (32 + 8 * blen rt =? 0) with false by lia.
    replace ((32 <=? 32 + 8 * blen rt) && (32 + 8 * blen rt <=? 96)) with true by lia. cbn [negb].
    ps. eapply parses_bind_ret; [apply nrd_bytes; lia|]. apply parses_ret.
  - eapply parses_bind; [apply p_path_id; exact Hpid|]. eapply parses_bind_ret; [apply nrd_u8|].
    change (0 =? 0) with true. apply parses_ret.
Qed.
Lemma plain_roundtrip t ap pid n : path_id_fits ap pid -> net_wf (family_width t) n -> no_host_bits n ->
  family_ok t n = true -> parses (parse_plain t ap) (enc_path_id pid ++ enc_net n) (NPlain pid n).
Proof.
  intros Hpid Hwf Hc Hf. unfold parse_plain.
  eapply parses_bind; [apply p_path_id; exact Hpid|].
  eapply parses_bind_ret; [apply p_net; [exact Hwf|apply family_width_le|exact Hc]|].
  eapply parses_bind0; [apply p_chk; exact Hf|]. apply parses_ret.
Qed.
Lemma ev_roundtrip ap pid e : path_id_fits ap pid -> evpn_fits e ->
  parses (parse_ev ap) (enc_path_id pid ++ enc_evpn e) (NEvpn pid e).
Proof.
  intros Hp He. unfold parse_ev. eapply parses_bind; [apply p_path_id; exact Hp|].
  eapply parses_bind_ret; [apply p_evpn; exact He|apply parses_ret].
Qed.
Lemma nlri_roundtrip t ap limit x b :
  nlri_fits t ap limit x -> keeps_path_id t ap -> write_nlri x = Ok b -> parses (parse_nlri_of t ap limit) b x.
Proof.
  intros Hf Hk Hw. destruct t; destruct x; cbn [nlri_fits keeps_path_id parse_nlri_of] in *; try contradiction;
    try (cbn [write_nlri] in Hw; apply Ok_inj in Hw; subst b).
  all: try (apply plain_roundtrip; tauto).
  all: try (apply vpn_roundtrip; tauto).
  all: try (apply ev_roundtrip; tauto).
  all: try (eapply rtm_roundtrip; [exact (proj1 Hf)|exact (proj2 Hf)|exact Hw]).
  all: destruct Hf as (Hp & Hst & Hwf & Hc & Hlen); subst ap;
    destruct pid; [destruct Hp; discriminate|];
    cbn [write_nlri] in Hw; replace (255 <? blen ls * 24 + snd n) with false in Hw by lia;
    apply Ok_inj in Hw; subst b; apply labelled_roundtrip; auto.
Qed.
Lemma nlri_written t ap limit x : nlri_fits t ap limit x ->
  exists b, write_nlri x = Ok b /\ blen b = nlri_len x.
Proof.
  intros Hf. destruct t; destruct x; cbn [nlri_fits] in Hf; try contradiction; cbn [write_nlri nlri_len].
  all: try (destruct Hf as (Hp & Hwf & Hc & Hok); eexists; split; [reflexivity|];
            rewrite blen_app, path_id_blen; unfold enc_net, net_len; rewrite blen_cons, (enc_net_octets_len _ _ Hwf); unfold label in *; lia).
  all: try (destruct Hf as (Hp & Hr & Hst & Hwf & Hc & Hok & Hlen); eexists; split; [reflexivity|];
            rewrite blen_app, path_id_blen, blen_cons, !blen_app, enc_rd_len, (enc_net_octets_len _ _ Hwf),
              concat_labels_len by (destruct Hst; assumption); unfold net_len; unfold label in *; lia).
  all: try (destruct Hf as (Hp & He); eexists; split; [reflexivity|];
            rewrite blen_app, path_id_blen; unfold enc_evpn; rewrite !blen_cons, (evpn_len e He); unfold label in *; lia).
  all: try (destruct Hf as (Hp & Hst & Hwf & Hc & Hlen);
            replace (255 <? blen ls * 24 + snd n) with false by lia; eexists; split; [reflexivity|];
            rewrite blen_cons, blen_app, (enc_net_octets_len _ _ Hwf), concat_labels_len by (destruct Hst; assumption); unfold label in *; lia).
  destruct Hf as (Hp & Hm). destruct m as [[o rt]|]; eexists; (split; [reflexivity|]);
    rewrite blen_app, path_id_blen, ?blen_cons, ?blen_app, ?be_enc_blen, ?blen_nil; lia.
Qed.

(* ---- safety ---- *)
Lemma label_loop_safe fuel : forall limit r, (length (rbuf r) < fuel)%nat ->
  adv r (fst (label_loop fuel limit r)) /\ no_crash (snd (label_loop fuel limit r)).
Proof.
  induction fuel as [|f IH]; intros limit r Hf; [lia|]. cbn [label_loop].
  destruct (limit =? 0); [split; [apply adv_refl|exact I]|].
  unfold bind at 1 3. pose proof (safe_map_err NE_Parse _ (safe_bytes 3) r) as [Ha Hc].
  pose proof (strict_map_err NE_Parse _ (strict_bytes 3 ltac:(lia)) r) as Hs.
  fold (@nrd (list N) (read_bytes 3)) in *. fold (@nrd (list N)) in *.
  change (pmap_err NE_Parse (read_bytes 3) r) with (nrd (read_bytes 3) r) in *.
  destruct (nrd (read_bytes 3) r) as [r1 [l|e| |]]; cbn [fst snd] in *; try contradiction.
  2:{ split; [exact Ha|exact I]. }
  specialize (Hs l eq_refl). cbv zeta. destruct (label_bottom l).
  { cbn [ret fst snd]. split; [exact Ha|exact I]. }
  unfold bind. specialize (IH (if limit =? 255 then limit else limit - 1) r1 ltac:(lia)).
  destruct (label_loop f _ r1) as [r2 [ls|e| |]]; cbn [fst snd] in *;
    try (destruct IH as [_ IH]; contradiction).
  - split; [eapply adv_trans; [exact Ha|tauto]|exact I].
  - split; [eapply adv_trans; [exact Ha|tauto]|exact I].
Qed.
Lemma safe_labels limit : safe (parse_labels limit).
Proof. intros r. unfold parse_labels. apply label_loop_safe. lia. Qed.
Lemma label_loop_count fuel : forall limit r r' ls, limit < 255 ->
  label_loop fuel limit r = (r', Ok ls) -> blen ls <= limit.
Proof.
  induction fuel as [|f IH]; intros limit r r' ls Hl H; cbn [label_loop] in H.
  - destruct (limit =? 0) eqn:E0; inversion H; subst. rewrite blen_nil. lia.
  - destruct (limit =? 0) eqn:E0; [inversion H; subst; rewrite blen_nil; lia|].
    apply bind_ok in H as [l [r1 [_ H]]]. cbv zeta in H.
    replace (limit =? 255) with false in H by lia.
    destruct (label_bottom l).
    + apply ret_ok in H as [_ ->]. rewrite blen_cons, blen_nil. lia.
    + apply bind_ok in H as [ls' [r2 [H H2]]]. apply ret_ok in H2 as [_ ->].
      apply IH in H; [|lia]. rewrite blen_cons. lia.
Qed.
Lemma safe_u8_checked {E} v : v < 256 -> safe (@u8_checked E v).
Proof. intros H. unfold u8_checked. replace (v <? 256) with true by lia. apply safe_ret. Qed.
Lemma safe_rd : safe parse_rd. Proof. unfold parse_rd, nrd. psafe. Qed.
Lemma safe_net_len w p : safe (parse_net_len w p). Proof. unfold parse_net_len, nrd. psafe. Qed.
Lemma safe_path_id ap : safe (parse_path_id ap). Proof. unfold parse_path_id, nrd. psafe. Qed.
Lemma safe_chk t n : safe (chk_net t n). Proof. unfold chk_net. psafe. Qed.
Lemma safe_net w : safe (parse_net w).
Proof. unfold parse_net, nrd. psafe; auto using safe_net_len. Qed.
Lemma safe_evpn : safe parse_evpn.
Proof.
  unfold parse_evpn, parse_ev_auto, parse_ev_macip, parse_ev_multicast, parse_ev_segment, parse_ev_ip_prefix,
    parse_ev_prefix, parse_ip_bits, nrd. pose proof safe_rd. psafe.
Qed.
Lemma safe_nlri t ap limit : limit <= 7 -> safe (parse_nlri_of t ap limit).
Proof.
  intros Hl. pose proof safe_rd. pose proof (safe_path_id ap). pose proof safe_evpn.
  assert (Hpl : safe (parse_plain t ap)).
  { unfold parse_plain. psafe; auto using safe_net, safe_chk. }
  assert (Hlb : safe (parse_labelled t ap limit)).
  { unfold parse_labelled, nrd. apply safe_bind; [assumption|intros pid].
    apply safe_bind; [psafe|intros plen]. apply safe_bind; [psafe|intros sub]. apply safe_on_sub.
    apply safe_bind_post; [apply safe_labels|].
    intros r r' ls Hls. unfold parse_labels in Hls. apply label_loop_count in Hls; [|lia].
    apply safe_bind; [apply safe_u8_checked; unfold as_u8; rewrite N.mod_small; lia|intros bits].
    psafe; auto using safe_net_len. }
  assert (Hv : safe (parse_vpn t ap limit)).
  { unfold parse_vpn, nrd. apply safe_bind; [assumption|intros pid].
    apply safe_bind; [psafe|intros plen]. apply safe_bind; [psafe|intros sub]. apply safe_on_sub.
    apply safe_bind_post; [apply safe_labels|].
    intros r r' ls Hls. unfold parse_labels in Hls. apply label_loop_count in Hls; [|lia].
    apply safe_bind; [assumption|intros rd0].
    assert (Hm : as_u8 (blen ls) * 24 <= 168) by (unfold as_u8; rewrite N.mod_small; lia).
    apply safe_bind_post; [apply safe_u8_checked; lia|]. intros ra rb lb Hlb0.
    unfold u8_checked in Hlb0. replace (as_u8 (blen ls) * 24 <? 256) with true in Hlb0 by lia.
    apply ret_ok in Hlb0 as [_ ->].
    apply safe_bind; [apply safe_u8_checked; lia|intros bits].
    psafe; auto using safe_net_len, safe_chk. }
  destruct t; cbn [parse_nlri_of]; try assumption; unfold parse_ev, parse_rtm, nrd; psafe.
Qed.
Lemma strict_head {A} ap (k : option N -> N -> parser nlri_err A) :
  (forall pid p r, adv r (fst (k pid p r))) ->
  strict (do pid <- parse_path_id ap;; do p <- nrd read_u8;; k pid p).
Proof.
  intros Hk. apply strict_bind_r; [apply safe_path_id|]. intros pid r a.
  pose proof (strict_map_err NE_Parse _ strict_u8 r) as Hs. unfold bind, nrd in *.
  destruct (pmap_err NE_Parse read_u8 r) as [r1 [v|e| |]]; cbn [fst snd] in *; try discriminate.
  intros _. specialize (Hs v eq_refl). specialize (Hk pid v r1). apply adv_len in Hk. lia.
Qed.
Lemma adv_slice {A} n (q : parser nlri_err A) r :
  adv r (fst (bind (nrd (take_slice n)) (fun sub => on_sub sub q) r)).
Proof.
  unfold bind. pose proof (safe_map_err NE_Parse _ (safe_take_slice n) r) as [Ha _]. unfold nrd in *.
  destruct (pmap_err NE_Parse (take_slice n) r) as [r1 [v|e| |]]; cbn [fst snd on_sub] in *; exact Ha.
Qed.
Lemma strict_nlri t ap limit : strict (parse_nlri_of t ap limit).
Proof.
  assert (Hpl : strict (parse_plain t ap)).
  { unfold parse_plain, parse_net, nrd. apply strict_bind_r; [apply safe_path_id|]. intros pid.
    apply strict_bind_l; [|intros n; psafe; apply safe_chk].
    apply strict_bind_l; [apply strict_map_err, strict_u8|intros; apply safe_net_len]. }
  assert (Hlb : strict (parse_labelled t ap limit)) by (apply strict_head; intros; apply adv_slice).
  assert (Hv : strict (parse_vpn t ap limit)) by (apply strict_head; intros; apply adv_slice).
  assert (Hev : strict (parse_ev ap)).
  { unfold parse_ev. apply strict_bind_r; [apply safe_path_id|]. intros pid.
    apply strict_bind_l; [|intros; psafe]. unfold parse_evpn.
    apply strict_bind_l; [apply strict_map_err, strict_u8|]. intros code.
    pose proof safe_rd. unfold parse_ev_auto, parse_ev_macip, parse_ev_multicast, parse_ev_segment,
      parse_ev_ip_prefix, parse_ev_prefix, parse_ip_bits, nrd. psafe. }
  assert (Hr : strict (parse_rtm ap)).
  { apply strict_head. intros pid p r.
    match goal with |- adv _ (fst (?q r)) => assert (safe q) end.
    { unfold nrd; psafe. }
    apply H. }
  destruct t; cbn [parse_nlri_of]; assumption.
Qed.

(* ---- what a decoded prefix says about the wire ---- *)
Lemma bit_at_app_l a b i : i < 8 * blen a -> bit_at (a ++ b) i = bit_at a i.
Proof. intros H. unfold bit_at. rewrite app_nth1; [reflexivity|]. unfold blen in H. lia. Qed.
Lemma net_parsed w r r' n : w <= 16 -> parse_net w r = (r', Ok n) ->
  exists o, rbuf r = (snd n :: o) ++ rbuf r' /\ blen o = round_len (snd n) /\ snd n <= 8 * w /\
            fst n = o ++ repeat 0 (N.to_nat (w - blen o)) /\ blen (fst n) = w /\
            forall i, i < snd n -> bit_at (fst n) i = bit_at o i.
Proof.
  intros Hw H. unfold parse_net, parse_net_len in H. apply bind_ok in H as [plen [r1 [H1 H]]].
  apply map_err_ok, read_u8_ok in H1. apply bind_ok in H as [o [r2 [H2 H]]].
  apply map_err_ok, read_bytes_ok_inv in H2.
  destruct (8 * w <? plen) eqn:Ep; [discriminate|]. apply ret_ok in H as [-> ->].
  rewrite net_size_wf in H2 by lia. destruct H1 as [H1 _], H2 as (H2 & _ & H3). cbn [fst snd].
  pose proof (round_len_le plen w ltac:(lia)) as Hr.
  exists o. repeat apply conj; try lia.
  - rewrite H1, H2. reflexivity.
  - reflexivity.
  - rewrite blen_app, blen_repeat. lia.
  - intros i Hi. apply bit_at_app_l. rewrite H3. unfold round_len. lia.
Qed.
Lemma bit_at_take k a i : i < 8 * k -> k <= blen a -> bit_at (take k a) i = bit_at a i.
Proof.
  intros Hi Hk. rewrite <- (take_drop k a) at 2. symmetry. apply bit_at_app_l. rewrite blen_take by exact Hk. exact Hi.
Qed.
Lemma net_written_bits w n i : net_wf w n -> i < 8 * round_len (snd n) ->
  bit_at (enc_net_octets n) i = (i <? snd n) && bit_at (fst n) i.
Proof.
  intros (Hl & Hok & Hp) Hi. unfold enc_net_octets, network.
  rewrite bit_at_take; [apply clear_host_bit|exact Hi|].
  rewrite clear_host_len, Hl. apply round_len_le, Hp.
Qed.
(* a prefix read from octets without stray bits is written back as the same octets *)
Lemma net_rewritten w n (o : list N) : bytes_ok o = true -> blen o = round_len (snd n) -> snd n <= 8 * w ->
  fst n = o ++ repeat 0 (N.to_nat (w - blen o)) ->
  (forall i, snd n <= i -> i < 8 * blen o -> bit_at o i = false) ->
  enc_net n = snd n :: o.
Proof.
  intros Hok Hl Hp Hf Hb. pose proof (round_len_le _ _ Hp) as Hr. unfold enc_net. f_equal.
  assert (Hwl : blen (fst n) = w) by (rewrite Hf, blen_app, blen_repeat; lia).
  assert (Hfok : bytes_ok (fst n) = true) by (rewrite Hf, bytes_ok_app, Hok, bytes_ok_repeat0; reflexivity).
  unfold enc_net_octets. rewrite network_canon.
  - rewrite Hf. apply take_app_exact. symmetry. exact Hl.
  - exact Hfok.
  - intros i Hi Hi2. destruct (N.lt_ge_cases i (8 * blen o)) as [Hc|Hc].
    + rewrite Hf, bit_at_app_l by exact Hc. apply Hb; assumption.
    + unfold bit_at. rewrite Hf. rewrite app_nth2 by (unfold blen in Hc; lia).
      rewrite nth_repeat. apply N.bits_0.
Qed.
