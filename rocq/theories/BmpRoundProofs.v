(* Written BMP messages are read back. *)
From Verif Require Import Base BaseLemmas MapLib AfModel FramingModel BgpCapModel BgpCapSpec BgpCapProofs BgpFrameModel BgpFrameSpec
  BgpFrameProofs BgpNlriModel BgpNlriSpec BgpNlriProofs BgpAttrModel BgpAttrSpec BgpAttrProofs BgpMsgModel BgpMsgSpec BgpMsgProofs
  BmpModel BmpSpec BmpFrameProofs.
From Coq Require Import Lia ZifyBool ZifyN ZifyNat.

(* ---- parsers that change their context ---- *)
Definition cgo {C E A} (p : cparser C E A) (c : C) (b : list N) (c' : C) (x : A) : Prop :=
  forall rest off, p c (mkR (b ++ rest) off) = (c', mkR rest (off + blen b), Ok x).
Definition cgo_end {C E A} (p : cparser C E A) (c : C) (b : list N) (c' : C) (x : A) : Prop :=
  forall off, p c (mkR b off) = (c', mkR [] (off + blen b), Ok x).
Lemma cg_end {C E A} (p : cparser C E A) c b c' x : cgo p c b c' x -> cgo_end p c b c' x.
Proof. intros H off. rewrite <- (H [] off), app_nil_r. reflexivity. Qed.
Lemma cg_ret {C E A} (c : C) (x : A) : cgo (@cret C E A x) c [] c x.
Proof. intros rest off. unfold cret. cbn [app]. rewrite blen_nil, N.add_0_r. reflexivity. Qed.
Lemma cg_lift {C E A} (c : C) (p : parser E A) b x : parses p b x -> cgo (clift p) c b c x.
Proof. intros H rest off. unfold clift. rewrite H. reflexivity. Qed.
Lemma cg_lift_end {C E A} (c : C) (p : parser E A) b x : parses_end p b x -> cgo_end (clift p) c b c x.
Proof. intros H off. unfold clift. rewrite H. reflexivity. Qed.
Lemma cg_bind {C E A B} (p : cparser C E A) (f : A -> cparser C E B) c c1 c2 b1 b2 x y :
  cgo p c b1 c1 x -> cgo (f x) c1 b2 c2 y -> cgo (cbind p f) c (b1 ++ b2) c2 y.
Proof.
  intros H1 H2 rest off. unfold cbind. rewrite <- app_assoc, H1, H2. rewrite blen_app, N.add_assoc. reflexivity.
Qed.
Lemma cg_bind_end {C E A B} (p : cparser C E A) (f : A -> cparser C E B) c c1 c2 b1 b2 x y :
  cgo p c b1 c1 x -> cgo_end (f x) c1 b2 c2 y -> cgo_end (cbind p f) c (b1 ++ b2) c2 y.
Proof.
  intros H1 H2 off. unfold cbind. rewrite H1, H2. rewrite blen_app, N.add_assoc. reflexivity.
Qed.
Lemma cg_bind_end' {C E A B} (p : cparser C E A) (f : A -> cparser C E B) c c1 c2 b x y :
  cgo_end p c b c1 x -> cgo_end (f x) c1 [] c2 y -> cgo_end (cbind p f) c b c2 y.
Proof.
  intros H1 H2 off. unfold cbind. rewrite H1. rewrite H2, blen_nil, N.add_0_r. reflexivity.
Qed.
Lemma cg_bind_ret {C E A B} (p : cparser C E A) (f : A -> cparser C E B) c c1 c2 b x y :
  cgo p c b c1 x -> cgo (f x) c1 [] c2 y -> cgo (cbind p f) c b c2 y.
Proof. intros. rewrite <- (app_nil_r b). eapply cg_bind; eauto. Qed.
Lemma cg_in_sub {C E A} (g : perr -> E) n (p : cparser C E A) c c' b x :
  n = blen b -> cgo_end p c b c' x -> cgo (in_sub g n p) c b c' x.
Proof.
  intros -> H rest off. unfold in_sub, cbind, clift, pmap_err, take_slice, read_bytes, con_sub. cbn [rbuf roff].
  rewrite blen_app. replace (blen b + blen rest <? blen b) with false by lia.
  rewrite drop_app_exact, take_app_exact by reflexivity. cbn [map_err]. rewrite H. reflexivity.
Qed.
Lemma cp_cgo {C E A} (p : cparser C E A) c b x : cparses p c b x -> cgo p c b c x.
Proof. intros H. exact H. Qed.
Lemma cp_cgo_end {C E A} (p : cparser C E A) c b x : cparses_end p c b x -> cgo_end p c b c x.
Proof. intros H. exact H. Qed.

(* the context after messages about peer h *)
Definition touched (h : peer_header) (m : bmpctx) : bmpctx :=
  mset pkey_eqb (key_of h) (set_asn4 (is_asn4 h) (peer_ctx (key_of h) m)) m.
Lemma cg_on_peer {A} h (p : cparser bctx bmp_err A) m b x :
  cparses p (set_asn4 (is_asn4 h) (peer_ctx (key_of h) m)) b x -> cgo (on_peer h p) m b (touched h m) x.
Proof. intros H rest off. unfold on_peer. rewrite H. reflexivity. Qed.
Lemma cg_on_peer_end {A} h (p : cparser bctx bmp_err A) m b x :
  cparses_end p (set_asn4 (is_asn4 h) (peer_ctx (key_of h) m)) b x -> cgo_end (on_peer h p) m b (touched h m) x.
Proof. intros H off. unfold on_peer. rewrite H. reflexivity. Qed.

(* ---- BGP messages at any offset ---- *)
Lemma cp_bgp x m b : fits_ctx x m -> write_bgp m = Ok b -> cparses parse_bgp x b m.
Proof.
  intros Hf Hw. destruct (write_framed _ _ _ _ _ Hf Hw) as (body & Hb & -> & Hla).
  destruct (body_roundtrip x m body Hf Hb) as [Hp _]. destruct Hla as [Hl Ht].
  intros rest off. rewrite framed_app. rewrite framed_blen, blen_nil, N.add_0_r.
  unfold parse_bgp, parse_message, framed.
  set (L := 19 + blen body) in *. set (t := msg_type m) in *.
  unfold cbind at 1. unfold clift at 1. unfold pmap_err at 1. rewrite <- marker_bytes.
  assert (Hm : u128_max < 2 ^ 128) by (vm_compute; reflexivity).
  rewrite (parses_u128 u128_max Hm _ off). cbn [map_err]. rewrite N.eqb_refl. cbn [negb].
  unfold cbind. unfold clift, parse_length_and_type. unfold bind at 1. unfold pmap_err at 1.
  replace ([L / 256; L mod 256; mtype_code t] ++ body ++ rest) with (be_enc 2 L ++ (mtype_code t :: body) ++ rest).
  2:{ rewrite be_enc_2. rewrite (N.mod_small (L / 256) 256) by lia. reflexivity. }
  rewrite (parses_u16 L ltac:(lia)). cbn [map_err].
  replace (L <? bgp_min_len) with false by (unfold bgp_min_len; lia).
  unfold bind, pmap_err, take_slice.
  rewrite (parses_bytes (mtype_code t :: body) (L - 18) ltac:(rewrite blen_cons; lia)). cbn [map_err].
  cbn [read_u8 rbuf roff app]. cbn [read_u8 rbuf roff map_err]. rewrite mtype_code_of.
  rewrite !be_enc_blen. rewrite blen_cons. set (o1 := off + N.of_nat 16 + N.of_nat 2).
  assert (Hg : match t with
     | TOpen | TKeepAlive => if (bgp_min_len <=? L) && (L <=? bgp_max_len)
                             then ret (L, t, mkR body (o1 + 1)) else fail (BE_Length L)
     | _ => ret (L, t, mkR body (o1 + 1)) end (mkR rest (o1 + (1 + blen body)))
     = (mkR rest (o1 + (1 + blen body)), @Ok (bgp_err body_err) _ (L, t, mkR body (o1 + 1)))).
  { unfold bgp_min_len, bgp_max_len. destruct t; try reflexivity;
      replace ((19 <=? L) && (L <=? 4096)) with true; try reflexivity;
      symmetry; apply andb_true_iff; lia. }
  rewrite Hg. unfold cmap_err. unfold t. rewrite Hp. cbn [map_err ris_empty rbuf].
  f_equal. f_equal. f_equal. unfold o1, L. lia.
Qed.
Lemma cp_pdu x m b : pdu_fits x m -> write_pdu m = Ok b -> cparses bgp_pdu x b m.
Proof.
  intros Hf Hw. apply cp_map_err, cp_bgp; [exact Hf|]. unfold write_pdu in Hw.
  destruct (write_bgp m); cbn [map_err] in Hw; try discriminate. apply Ok_inj in Hw. now subst.
Qed.
Lemma pdu_written x m : pdu_fits x m -> exists b, write_pdu m = Ok b /\ blen b = pdu_len m /\ pdu_len m <= 65535.
Proof.
  intros Hf. destruct (bgp_written _ _ _ m Hf) as [b Hb]. exists b. unfold write_pdu. rewrite Hb.
  split; [reflexivity|]. destruct (write_framed _ _ _ _ _ Hf Hb) as (body & Hw & -> & _).
  destruct (body_roundtrip x m body Hf Hw) as [_ Hl]. destruct (msg_len_fits _ _ _ _ Hf) as [H1 _].
  unfold pdu_len. rewrite framed_blen, blen_nil. lia.
Qed.
Lemma open_pdu_fits x m : open_pdu m -> pdu_fits x m.
Proof. intros (o & -> & H). exact H. Qed.

(* ---- header ---- *)
Lemma brd_u8 v : parses (brd read_u8) [v] v. Proof. apply parses_map_err, parses_u8. Qed.
Lemma brd_u16 v : v < 65536 -> parses (brd read_u16) (be_enc 2 v) v. Proof. intros. now apply parses_map_err, parses_u16. Qed.
Lemma brd_u32 v : v < 4294967296 -> parses (brd read_u32) (be_enc 4 v) v. Proof. intros. now apply parses_map_err, parses_u32. Qed.
Lemma brd_u64 v : v < 18446744073709551616 -> parses (brd read_u64) (be_enc 8 v) v. Proof. intros. now apply parses_map_err, parses_u64. Qed.
Lemma brd_u128 v : v < 2 ^ 128 -> parses (brd read_u128) (be_enc 16 v) v. Proof. intros. now apply parses_map_err, parses_u128. Qed.
Lemma rest_bytes_end l : parses_end rest_bytes l l.
Proof.
  intros off. unfold rest_bytes, get_reader, bind, brd, pmap_err, remaining. cbn [rbuf].
  pose proof (parses_bytes l (blen l) eq_refl [] off) as H. rewrite app_nil_r in H. rewrite H. reflexivity.
Qed.
Lemma xp_of_num base x : xp_of base (base + xp_num x) = Some x.
Proof.
  unfold xp_of. destruct x; cbn [xp_num].
  - rewrite N.add_0_r, N.eqb_refl. reflexivity.
  - replace (base + 1 =? base) with false by lia. rewrite N.eqb_refl. reflexivity.
  - replace (base + 2 =? base) with false by lia. replace (base + 2 =? base + 1) with false by lia. rewrite N.eqb_refl. reflexivity.
  - replace (base + 3 =? base) with false by lia. replace (base + 3 =? base + 1) with false by lia.
    replace (base + 3 =? base + 2) with false by lia. rewrite N.eqb_refl. reflexivity.
Qed.
Lemma p_ptype t : parses parse_ptype [ptype_code t; ptype_flags t] t.
Proof.
  unfold parse_ptype. change [ptype_code t; ptype_flags t] with ([ptype_code t] ++ [ptype_flags t]).
  eapply parses_bind; [apply brd_u8|]. destruct t as [i v6 pp a2 out|f|x fl].
  - destruct i, v6, pp, a2, out; (eapply parses_bind_ret; [apply brd_u8|]); apply parses_ret.
  - destruct f; (eapply parses_bind_ret; [apply brd_u8|]); apply parses_ret.
  - cbn [ptype_code ptype_flags]. rewrite xp_of_num. eapply parses_bind_ret; [apply brd_u8|apply parses_ret].
Qed.
Lemma be_enc_zeros n : be_enc n 0 = repeat 0 n.
Proof.
  apply be_val_inj.
  - apply be_enc_ok.
  - apply bytes_ok_repeat0.
  - rewrite be_enc_length, repeat_length. reflexivity.
  - rewrite be_val_repeat0, be_val_enc_mod. apply N.mod_0_l. apply N.pow_nonzero. discriminate.
Qed.
Definition addr_num (a : option bip) : N := match a with None => 0 | Some (B4 v) => v | Some (B6 v) => v end.
Lemma enc_addr_num v6 a : addr_fits v6 a -> enc_addr a = be_enc 16 (addr_num a) /\ addr_num a < 2 ^ 128 /\ addr_of v6 (addr_num a) = a.
Proof.
  assert (H32 : 2 ^ 32 = 4294967296) by reflexivity. assert (H128 : 2 ^ 32 < 2 ^ 128) by (vm_compute; reflexivity).
  destruct a as [[v|v]|]; cbn [addr_fits enc_addr addr_num].
  - intros [-> Hv]. repeat split; [|lia|].
    + apply be_val_inj.
      * rewrite bytes_ok_app, !be_enc_ok. reflexivity.
      * apply be_enc_ok.
      * rewrite app_length, !be_enc_length. reflexivity.
      * rewrite be_val_app, (be_val_enc 4), (be_val_enc 16), (be_enc_zeros 12), be_val_repeat0;
          [lia|change (256 ^ N.of_nat 16) with (2 ^ 128); lia|change (256 ^ N.of_nat 4) with (2 ^ 32); lia].
    + unfold addr_of, as_u32. replace (v =? 0) with false by lia. rewrite N.mod_small by lia. reflexivity.
  - intros [-> Hv]. repeat split; [lia|]. unfold addr_of. replace (v =? 0) with false by lia. reflexivity.
  - intros _. repeat split.
Qed.
Lemma rd_zero : enc_rd (RdAs2 0 0) = be_enc 8 0. Proof. vm_compute. reflexivity. Qed.
Definition rd_or_zero (d : option rd) : rd := match d with None => RdAs2 0 0 | Some d => d end.
Definition time_num (t : option (N * N)) : N * N := match t with None => (0, 0) | Some (s, n) => (s, n / 1000) end.
Lemma time_of_num t : time_fits t -> time_of (fst (time_num t)) (snd (time_num t)) = Some t /\
  fst (time_num t) < 4294967296 /\ snd (time_num t) < 4294967296 /\
  be_enc 4 (fst (time_num t)) ++ be_enc 4 (snd (time_num t)) =
    match t with None => be_enc 8 0 | Some (s, n) => be_enc 4 (as_u32 s) ++ be_enc 4 (n / 1000) end.
Proof.
  change (2 ^ 32) with 4294967296. destruct t as [[s n]|]; unfold time_fits; cbn [time_num fst snd].
  - change (2 ^ 32) with 4294967296. intros (Hs & Hn & Hz & Ht). assert (Hd := N.div_mod n 1000 ltac:(lia)). rewrite Hn, N.add_0_r in Hd.
    assert (Hn2 : n < 2000000000) by (destruct Ht; lia).
    repeat split.
    + unfold time_of. replace ((s =? 0) && (n / 1000 =? 0)) with false by lia.
      replace (N.min (n / 1000 * 1000) 4294967295) with n by lia.
      unfold time_ok. destruct Ht as [Ht|[Ht Ht2]].
      * replace (n <? 1000000000) with true by lia. reflexivity.
      * replace (n <? 2000000000) with true by lia. rewrite Ht2. cbn [andb N.eqb Pos.eqb]. rewrite orb_true_r. reflexivity.
    + exact Hs.
    + lia.
    + unfold as_u32. rewrite N.mod_small by exact Hs. reflexivity.
  - intros _. repeat split.
Qed.
Lemma p_header h : header_fits h -> parses parse_header (enc_header h) h /\ blen (enc_header h) = 42.
Proof.
  intros (Ht & Hr & Ha & Has & Hid & Htm). destruct h as [t d a asn id tm].
  cbn [ph_type ph_rd ph_addr ph_as ph_id ph_time] in *.
  destruct (enc_addr_num _ _ Ha) as (Ea & Ba & Oa). destruct (time_of_num _ Htm) as (Et & B1 & B2 & Bt).
  assert (Hd : rd_fits (rd_or_zero d)) by (destruct d; [apply Hr|split; unfold u16, u32; lia]).
  assert (He : enc_header (mkPH t d a asn id tm) =
    [ptype_code t; ptype_flags t] ++ enc_rd (rd_or_zero d) ++ be_enc 16 (addr_num a) ++ be_enc 4 asn ++ be_enc 4 id
      ++ be_enc 4 (fst (time_num tm)) ++ be_enc 4 (snd (time_num tm))).
  { unfold enc_header. cbn [ph_type ph_rd ph_addr ph_as ph_id ph_time]. rewrite Ea, Bt. cbn [app]. f_equal. f_equal.
    destruct d; [reflexivity|]. cbn [rd_or_zero]. rewrite rd_zero. reflexivity. }
  split.
  - rewrite He. unfold parse_header. eapply parses_bind; [apply p_ptype|]. eapply parses_bind; [apply parses_map_err, p_rd, Hd|].
    eapply parses_bind; [apply brd_u128, Ba|]. eapply parses_bind; [apply brd_u32, Has|]. eapply parses_bind; [apply brd_u32, Hid|].
    eapply parses_bind; [apply brd_u32, B1|]. eapply parses_bind_ret; [apply brd_u32, B2|]. rewrite Et, Oa.
    replace (match rd_or_zero d with RdAs2 0 0 => None | _ => Some (rd_or_zero d) end) with d; [apply parses_ret|].
    destruct d as [d|]; cbn [rd_or_zero]; [|reflexivity]. destruct Hr as [_ Hr].
    destruct d as [[|] [|]| | |]; try reflexivity. congruence.
  - rewrite He. rewrite !blen_app, enc_rd_len, !be_enc_blen, !blen_cons, blen_nil. reflexivity.
Qed.

(* ---- information TLVs ---- *)
Lemma p_info i : info_fits i -> parses parse_info (enc_info i) i.
Proof.
  intros [Hc Hl]. destruct i as [c v]. cbn [fst snd] in *. unfold enc_info, parse_info. cbn [fst snd].
  assert (Hu : c < 65536) by lia.
  eapply parses_bind; [apply brd_u16, Hu|].
  replace (info_code_ok c) with true by (unfold info_code_ok; lia). cbn [negb].
  unfold as_u16. rewrite N.mod_small by lia. eapply parses_bind; [apply brd_u16; lia|].
  rewrite <- (app_nil_r v) at 2. apply parses_slice with (g := BM_Parse); [reflexivity|]. intros off.
  apply parses_on_sub. eapply parses_end_bind'; [apply rest_bytes_end|].
  replace ((c <=? 4) && negb (utf8_ok v)) with false; [apply parses_ret|].
  destruct Hc as [[Hc ->]|Hc]; [rewrite andb_false_r; reflexivity|]. replace (c <=? 4) with false by lia. reflexivity.
Qed.
Lemma enc_info_len i : info_fits i -> blen (enc_info i) = info_len i.
Proof. intros _. unfold enc_info, info_len. rewrite !blen_app, !be_enc_blen. lia. Qed.
Lemma enc_info_ne i : enc_info i <> []. Proof. unfold enc_info. rewrite be_enc_2. discriminate. Qed.
Lemma sum_len_flat {A} (enc : A -> list N) (f : A -> N) l : Forall (fun x => blen (enc x) = f x) l ->
  blen (flat_map enc l) = sum_len f l.
Proof.
  induction 1 as [|x l Hx _ IH]; [reflexivity|]. cbn [flat_map]. rewrite blen_app, Hx, IH. reflexivity.
Qed.
Lemma p_infos l : Forall info_fits l -> parses_end (many_all parse_info) (flat_map enc_info l) l.
Proof.
  intros H. apply parses_many_all. intros x Hx. rewrite Forall_forall in H. split; [apply p_info, H, Hx|apply enc_info_ne].
Qed.
Lemma infos_len l : Forall info_fits l -> blen (flat_map enc_info l) = sum_len info_len l.
Proof. intros H. apply sum_len_flat. eapply Forall_impl; [|exact H]. apply enc_info_len. Qed.

(* ---- termination ---- *)
Lemma term_head c : c < 2 \/ (exists x, c = 65531 + xp_num x) ->
  (2 <=? c) && match xp_of 65531 c with None => true | _ => false end = false.
Proof.
  intros [H|[x ->]]; [replace (2 <=? c) with false by lia; reflexivity|]. rewrite xp_of_num. apply andb_false_r.
Qed.
Lemma xp_num_lt x : xp_num x < 4. Proof. destruct x; cbn; lia. Qed.
Lemma used_up {A} len (x : A) :
  parses_end (do r <- get_reader;; if ris_empty r then ret x else fail (BM_TlvUnparsed len (remaining r))) [] x.
Proof. intros off. unfold get_reader, bind, ris_empty. cbn [rbuf]. rewrite blen_nil, N.add_0_r. reflexivity. Qed.
Lemma parses_end_bind_end {E A B} (p : parser E A) (f : A -> parser E B) b x y :
  parses_end p b x -> parses_end (f x) [] y -> parses_end (bind p f) b y.
Proof.
  intros H1 H2 off. unfold bind. rewrite H1. rewrite H2, blen_nil, N.add_0_r. reflexivity.
Qed.
Definition term_value (t : term_info) : list N := match t with TiString v => v | TiReason c => be_enc 2 c | TiExp _ v => v end.
Definition term_type (t : term_info) : N := match t with TiString _ => 0 | TiReason _ => 1 | TiExp x _ => 65531 + xp_num x end.
Lemma term_value_len t : blen (term_value t) = term_len t - 4.
Proof. unfold term_len, term_value. destruct t; try lia. rewrite be_enc_blen. lia. Qed.
Lemma p_term t : term_fits t -> parses parse_term (enc_term t) t.
Proof.
  intros Ht. change (enc_term t) with (be_enc 2 (term_type t) ++ be_enc 2 (as_u16 (term_len t - 4)) ++ term_value t).
  assert (Hty : term_type t < 65536) by (destruct t; cbn [term_type]; try lia; pose proof (xp_num_lt x); lia).
  assert (Hl : term_len t - 4 <= 65535).
  { rewrite <- term_value_len. destruct t; cbn [term_fits term_value] in *; try tauto; try lia. rewrite be_enc_blen. lia. }
  unfold parse_term. eapply parses_bind; [apply brd_u16, Hty|]. rewrite term_head.
  2: { destruct t; cbn [term_type]; [left; lia|left; lia|right; eexists; reflexivity]. }
  unfold as_u16. rewrite N.mod_small by lia. eapply parses_bind; [apply brd_u16; lia|].
  rewrite <- (app_nil_r (term_value t)). apply parses_slice with (g := BM_Parse); [symmetry; apply term_value_len|]. intros off.
  apply parses_on_sub. eapply parses_end_bind_end; [|apply used_up].
  destruct t as [v|c|x v]; cbn [term_type term_value term_fits] in *.
  - change (0 =? 0) with true. cbv iota. eapply parses_end_bind'; [apply rest_bytes_end|]. rewrite (proj1 Ht). apply parses_ret.
  - change (1 =? 0) with false. change (1 =? 1) with true. cbv iota. apply parses_to_end.
    eapply parses_bind_ret; [apply brd_u16; lia|]. replace (term_code_ok c) with true by (unfold term_code_ok; lia). apply parses_ret.
  - replace (65531 + xp_num x =? 0) with false by lia. replace (65531 + xp_num x =? 1) with false by lia. rewrite xp_of_num.
    eapply parses_end_bind'; [apply rest_bytes_end|apply parses_ret].
Qed.
Lemma enc_term_len t : blen (enc_term t) = term_len t.
Proof.
  change (enc_term t) with (be_enc 2 (term_type t) ++ be_enc 2 (as_u16 (term_len t - 4)) ++ term_value t).
  rewrite !blen_app, !be_enc_blen, term_value_len. unfold term_len. destruct t; lia.
Qed.

(* ---- statistics ---- *)
Definition stat_bytes (s : stat_val) : list N :=
  match s with
  | S32 v => be_enc 4 v
  | S64 v => be_enc 8 v
  | SAf t v => be_enc 2 (at_afi t) ++ [at_safi t] ++ be_enc 8 v
  | SRaw v => v
  end.
Lemma stat_bytes_len s : blen (stat_bytes (snd s)) = stat_len s - 4.
Proof.
  unfold stat_len, stat_bytes. destruct (snd s); rewrite ?blen_app, ?be_enc_blen, ?blen_cons, ?blen_nil; lia.
Qed.
Lemma p_family t : parses parse_family (be_enc 2 (at_afi t) ++ [at_safi t]) t.
Proof.
  assert (H : at_afi t < 65536 /\ afi_ok (at_afi t) = true /\ safi_ok (at_safi t) = true /\
              from_afi_safi (at_afi t) (at_safi t) = Some t) by (destruct t; vm_compute; repeat split).
  destruct H as (H1 & H2 & H3 & H4). unfold parse_family. eapply parses_bind; [apply brd_u16, H1|]. rewrite H2. cbn [negb].
  eapply parses_bind_ret; [apply brd_u8|]. rewrite H3. cbn [negb]. rewrite H4. apply parses_ret.
Qed.
Lemma existsb_eqb c l : existsb (N.eqb c) l = true <-> In c l.
Proof.
  rewrite existsb_exists. split.
  - intros (x & Hx & Heq). apply N.eqb_eq in Heq. congruence.
  - intros H. exists c. split; [exact H|apply N.eqb_refl].
Qed.
Lemma stat_kind_of s : stat_fits s ->
  stat_kind (fst s) = match snd s with S32 _ => K32 | S64 _ => K64 | SAf _ _ => KAf | SRaw _ => KRaw end.
Proof.
  intros [_ H]. unfold stat_kind.
  destruct ((fst s <=? 6) || ((11 <=? fst s) && (fst s <=? 13))) eqn:H1.
  { destruct (snd s); [reflexivity| | |]; exfalso; destruct H as [H _]; unfold gauge64, family_gauge64 in H; lia. }
  destruct (existsb (N.eqb (fst s)) [7; 8; 14; 15; 18; 20; 29; 31; 33; 39]) eqn:H2.
  { apply existsb_eqb in H2. cbn [In] in H2. destruct (snd s); [|reflexivity| |]; exfalso; destruct H as [H _]; unfold counter32, family_gauge64 in H; lia. }
  apply not_true_iff_false in H2. rewrite existsb_eqb in H2. cbn [In] in H2.
  match goal with |- (if ?b then _ else _) = _ => destruct b eqn:H3 end.
  { apply existsb_eqb in H3. cbn [In] in H3. destruct (snd s); [| |reflexivity|]; exfalso; destruct H as [H _]; unfold counter32, gauge64 in H; lia. }
  apply not_true_iff_false in H3. rewrite existsb_eqb in H3. cbn [In] in H3.
  destruct (snd s); [| | |reflexivity]; exfalso; destruct H as [H _]; unfold counter32, gauge64, family_gauge64 in H; lia.
Qed.
Lemma p_stat s : stat_fits s -> parses parse_stat (enc_stat s) s.
Proof.
  intros Hfit. pose proof (stat_kind_of s Hfit) as Hk. destruct Hfit as [Hu Hs]. change (enc_stat s) with (be_enc 2 (fst s) ++ be_enc 2 (as_u16 (stat_len s - 4)) ++ stat_bytes (snd s)).
  assert (Hl : stat_len s - 4 <= 65535).
  { unfold stat_len. destruct (snd s); lia. }
  unfold parse_stat. eapply parses_bind; [apply brd_u16, Hu|].
  unfold as_u16. rewrite N.mod_small by lia. eapply parses_bind; [apply brd_u16; lia|].
  rewrite <- (app_nil_r (stat_bytes (snd s))). apply parses_slice with (g := BM_Parse); [symmetry; apply stat_bytes_len|]. intros off.
  apply parses_on_sub. destruct s as [c v]. cbn [fst snd] in *.
  eapply parses_end_bind_end; [|apply used_up].
  rewrite Hk. destruct v as [v|v|t v|v]; destruct Hs as [_ Hs]; cbn [stat_bytes].
  - apply parses_to_end. eapply parses_bind_ret; [apply brd_u32, Hs|apply parses_ret].
  - apply parses_to_end. eapply parses_bind_ret; [apply brd_u64, Hs|apply parses_ret].
  - apply parses_to_end. rewrite app_assoc. eapply parses_bind; [apply p_family|].
    eapply parses_bind_ret; [apply brd_u64, Hs|apply parses_ret].
  - eapply parses_end_bind'; [apply rest_bytes_end|apply parses_ret].
Qed.
Lemma enc_stat_len s : blen (enc_stat s) = stat_len s.
Proof.
  change (enc_stat s) with (be_enc 2 (fst s) ++ be_enc 2 (as_u16 (stat_len s - 4)) ++ stat_bytes (snd s)).
  rewrite !blen_app, !be_enc_blen, stat_bytes_len. unfold stat_len. destruct (snd s); lia.
Qed.
Lemma p_times {A} (p : parser bmp_err A) (enc : A -> list N) l : (forall x, In x l -> parses p (enc x) x) ->
  forall fuel, (length l <= fuel)%nat -> parses (times fuel (blen l) p) (flat_map enc l) l.
Proof.
  induction l as [|x l IH]; intros H fuel Hf.
  - destruct fuel; apply parses_ret.
  - cbn [length] in Hf. destruct fuel as [|f]; [lia|]. cbn [times flat_map]. rewrite blen_cons.
    replace (1 + blen l =? 0) with false by lia. replace (1 + blen l - 1) with (blen l) by lia.
    eapply parses_bind; [apply H; now left|]. eapply parses_bind_ret; [|apply parses_ret].
    apply IH; [intros y Hy; apply H; now right|lia].
Qed.
Lemma p_stats h l : header_fits h -> Forall stat_fits l -> blen l < 4294967296 ->
  parses_end parse_stats (enc_header h ++ be_enc 4 (as_u32 (blen l)) ++ flat_map enc_stat l) (CStats h l).
Proof.
  intros Hh Hl Hn. unfold parse_stats. eapply parses_end_bind; [apply p_header, Hh|].
  unfold as_u32. rewrite N.mod_small by exact Hn. eapply parses_end_bind; [apply brd_u32, Hn|].
  intros off. unfold get_reader, bind at 1. cbn [rbuf].
  assert (Hp : parses (times (S (length (flat_map enc_stat l))) (blen l) parse_stat) (flat_map enc_stat l) l).
  { apply p_times; [intros x Hx; rewrite Forall_forall in Hl; apply p_stat, Hl, Hx|].
    assert (H := length_flat_map_ge enc_stat l).
    assert (length l <= length (flat_map enc_stat l))%nat; [apply H|lia]. intros x _.
    unfold enc_stat. rewrite be_enc_2. discriminate. }
  pose proof (parses_bind_ret _ (fun l => ret (CStats h l)) _ _ _ Hp (parses_ret _)) as Hq.
  apply parses_to_end in Hq. apply Hq.
Qed.

(* ---- peer up ---- *)
Lemma touched_asn4 h m : x_asn4 (peer_ctx (key_of h) (touched h m)) = is_asn4 h.
Proof. unfold peer_ctx, touched. rewrite (mget_mset pkey_eqb) by (intros a b; unfold pkey_eqb; destruct (pkey_eq_dec a b); constructor; assumption).
  unfold pkey_eqb. destruct (pkey_eq_dec _ _); [reflexivity|congruence]. Qed.
Lemma port_ok p : port_fits p -> nonzero (opt0 p) = p /\ opt0 p < 65536.
Proof. destruct p as [v|]; cbn [port_fits opt0]; intros H; [|split; [reflexivity|lia]]. unfold nonzero. replace (v =? 0) with false by lia. split; [reflexivity|lia]. Qed.
Lemma p_up m p : up_fits p -> exists b, write_up p = Ok b /\ blen b = up_len p /\
  cgo_end parse_up m b (touched (pu_hdr p) (touched (pu_hdr p) m)) p.
Proof.
  intros (Hh & Ha & Hlp & Hrp & Hs & Hr & Hi). destruct p as [h a lp rp sent recv infos].
  cbn [pu_hdr pu_addr pu_lport pu_rport pu_sent pu_recv pu_info] in *.
  destruct (pdu_written default_ctx sent (open_pdu_fits _ _ Hs)) as (sb & Ws & Ls & _).
  destruct (pdu_written default_ctx recv (open_pdu_fits _ _ Hr)) as (rb & Wr & Lr & _).
  destruct (p_header h Hh) as [Ph Lh]. destruct (enc_addr_num _ _ Ha) as (Ea & Ba & Oa).
  destruct (port_ok _ Hlp) as [Nl Bl]. destruct (port_ok _ Hrp) as [Nr Br].
  eexists. split; [unfold write_up; cbn [pu_hdr pu_addr pu_lport pu_rport pu_sent pu_recv pu_info]; rewrite Ws, Wr; reflexivity|].
  split.
  - rewrite !blen_app, Lh, Ea, !be_enc_blen, Ls, Lr, infos_len by exact Hi.
    unfold up_len, header_len. cbn [pu_sent pu_recv pu_info]. lia.
  - rewrite Ea. unfold parse_up. eapply cg_bind_end; [apply cg_lift, Ph|]. eapply cg_bind_end; [apply cg_lift, brd_u128, Ba|].
    eapply cg_bind_end; [apply cg_lift, brd_u16, Bl|]. eapply cg_bind_end; [apply cg_lift, brd_u16, Br|].
    eapply cg_bind_end; [apply cg_on_peer, cp_pdu; [apply open_pdu_fits, Hs|exact Ws]|].
    eapply cg_bind_end; [apply cg_on_peer, cp_pdu; [apply open_pdu_fits, Hr|exact Wr]|].
    eapply cg_bind_end'; [apply cg_lift_end, p_infos, Hi|].
    destruct Hs as (so & -> & _). destruct Hr as (ro & -> & _). cbn [is_open negb].
    rewrite Oa, Nl, Nr. apply cg_end, cg_ret.
Qed.

(* ---- peer down ---- *)
Lemma p_reason x d : reason_fits d -> exists b, write_reason d = Ok b /\ blen b = reason_len d /\ check_reason d = None /\
  cparses_end parse_reason x b d /\ (match d with DExp _ _ => True | _ => cparses parse_reason x b d end).
Proof.
  intros Hd.
  assert (Hn : forall nt, notif_fits nt -> pdu_fits x (MNotification nt)) by (intros nt H; exact H).
  destruct d as [m|v|m| | |i|y v]; cbn [reason_fits] in Hd.
  - destruct Hd as (nt & -> & Hf). destruct (pdu_written x _ (Hn _ Hf)) as (b & Hw & Hl & _).
    exists (1 :: b). unfold write_reason. rewrite Hw. split; [reflexivity|]. split; [rewrite blen_cons, Hl; reflexivity|].
    split; [reflexivity|]. assert (Hp : cparses parse_reason x (1 :: b) (DLocalPdu (MNotification nt))); [|split; [apply cp_end|]; exact Hp].
    change (1 :: b) with ([1] ++ b). unfold parse_reason. eapply cp_bind; [apply cp_lift, brd_u8|].
    change (1 =? 1) with true. cbv iota. eapply cp_bind_ret; [apply cp_pdu; [apply Hn, Hf|exact Hw]|apply cp_ret].
  - eexists. split; [reflexivity|]. split; [rewrite blen_cons, be_enc_blen; reflexivity|]. split; [reflexivity|].
    assert (Hp : cparses parse_reason x (2 :: be_enc 2 v) (DLocalFsm v)); [|split; [apply cp_end|]; exact Hp].
    change (2 :: be_enc 2 v) with ([2] ++ be_enc 2 v). unfold parse_reason. eapply cp_bind; [apply cp_lift, brd_u8|].
    change (2 =? 1) with false. change (2 =? 2) with true. cbv iota. eapply cp_bind_ret; [apply cp_lift, brd_u16, Hd|apply cp_ret].
  - destruct Hd as (nt & -> & Hf). destruct (pdu_written x _ (Hn _ Hf)) as (b & Hw & Hl & _).
    exists (3 :: b). unfold write_reason. rewrite Hw. split; [reflexivity|]. split; [rewrite blen_cons, Hl; reflexivity|].
    split; [reflexivity|]. assert (Hp : cparses parse_reason x (3 :: b) (DRemotePdu (MNotification nt))); [|split; [apply cp_end|]; exact Hp].
    change (3 :: b) with ([3] ++ b). unfold parse_reason. eapply cp_bind; [apply cp_lift, brd_u8|].
    change (3 =? 1) with false. change (3 =? 2) with false. change (3 =? 3) with true. cbv iota.
    eapply cp_bind_ret; [apply cp_pdu; [apply Hn, Hf|exact Hw]|apply cp_ret].
  - eexists. split; [reflexivity|]. split; [reflexivity|]. split; [reflexivity|].
    assert (Hp : cparses parse_reason x [4] DRemoteNoData); [|split; [apply cp_end|]; exact Hp].
    unfold parse_reason. eapply cp_bind_ret; [apply cp_lift, brd_u8|apply cp_ret].
  - eexists. split; [reflexivity|]. split; [reflexivity|]. split; [reflexivity|].
    assert (Hp : cparses parse_reason x [5] DDeConfigured); [|split; [apply cp_end|]; exact Hp].
    unfold parse_reason. eapply cp_bind_ret; [apply cp_lift, brd_u8|apply cp_ret].
  - destruct Hd as [Hi H3]. eexists. split; [reflexivity|]. split; [rewrite blen_cons, enc_info_len by exact Hi; reflexivity|].
    split; [cbn [check_reason]; rewrite H3; reflexivity|].
    assert (Hp : cparses parse_reason x (6 :: enc_info i) (DLocalTlv i)); [|split; [apply cp_end|]; exact Hp].
    change (6 :: enc_info i) with ([6] ++ enc_info i). unfold parse_reason. eapply cp_bind; [apply cp_lift, brd_u8|].
    change (6 =? 1) with false. change (6 =? 2) with false. change (6 =? 3) with false. change (6 =? 4) with false.
    change (6 =? 5) with false. change (6 =? 6) with true. cbv iota. eapply cp_bind_ret; [apply cp_lift, p_info, Hi|apply cp_ret].
  - eexists. split; [reflexivity|]. split; [rewrite blen_cons; reflexivity|]. split; [reflexivity|]. split; [|exact I].
    cbn [reason_code].
    change (251 + xp_num y :: v) with ([251 + xp_num y] ++ v). unfold parse_reason. eapply cp_bind_end; [apply cp_lift, brd_u8|].
    replace (251 + xp_num y =? 1) with false by lia. replace (251 + xp_num y =? 2) with false by lia.
    replace (251 + xp_num y =? 3) with false by lia. replace (251 + xp_num y =? 4) with false by lia.
    replace (251 + xp_num y =? 5) with false by lia. replace (251 + xp_num y =? 6) with false by lia.
    rewrite xp_of_num. eapply cp_bind_end'; [apply cp_lift_end, rest_bytes_end|apply cp_ret].
Qed.
Lemma p_raw_tlv t : raw_tlv_fits t -> exists b, write_raw_tlv t = Ok b /\ blen b = 4 + blen (snd t) /\ parses parse_raw_tlv b t.
Proof.
  intros [Hc Hl]. destruct t as [c v]. cbn [fst snd] in *. unfold write_raw_tlv, tlv_header. cbn [fst snd].
  unfold as_u16. rewrite N.mod_small by lia. replace (4 + blen v <? 4) with false by lia. cbn [rbind].
  eexists. split; [reflexivity|]. split; [rewrite !blen_app, !be_enc_blen; lia|].
  replace (4 + blen v - 4) with (blen v) by lia. unfold parse_raw_tlv. rewrite <- app_assoc.
  eapply parses_bind; [apply brd_u16, Hc|]. eapply parses_bind; [apply brd_u16; lia|].
  eapply parses_bind_ret; [apply parses_map_err, parses_bytes; reflexivity|apply parses_ret].
Qed.
(* writing a list *)
Definition octets {A} (f : A -> wr) (x : A) : list N := match f x with Ok b => b | _ => [] end.
Lemma write_all_ok {A} (f : A -> wr) l : Forall (fun x => exists b, f x = Ok b) l ->
  write_all f l = Ok (flat_map (octets f) l).
Proof.
  induction 1 as [|x l [b Hb] _ IH]; [reflexivity|]. cbn [write_all flat_map]. rewrite IH, Hb. cbn [rbind].
  replace (octets f x) with b by (unfold octets; rewrite Hb; reflexivity). reflexivity.
Qed.

(* ---- mirroring ---- *)
Lemma in_whole_ok {C A} (p : cparser C bmp_err A) c b x n : n = blen b -> cparses_end p c b x -> cparses (in_whole n p) c b x.
Proof.
  intros Hn Hp. apply cp_in_sub; [exact Hn|]. intros off. unfold cbind at 1. rewrite Hp. reflexivity.
Qed.
Lemma p_mirrored x v : mirrored_fits x v -> exists b, write_mirrored v = Ok b /\ blen b = mirrored_len v /\
  cparses parse_mirrored x b v.
Proof.
  intros Hf. destruct v as [m|b|c|y b]; cbn [mirrored_fits] in Hf; [|contradiction| |].
  - destruct (pdu_written x m Hf) as (pb & Hw & Hl & Hb). unfold write_mirrored. rewrite Hw. cbn [rbind].
    eexists. split; [reflexivity|]. unfold mirrored_len. replace (4 + pdu_len m - 4) with (pdu_len m) by lia.
    unfold as_u16. rewrite N.mod_small by lia. split; [rewrite !blen_app, !be_enc_blen, Hl; lia|].
    unfold parse_mirrored. eapply cp_bind; [apply cp_lift, brd_u16; lia|]. rewrite term_head by (left; lia).
    eapply cp_bind; [apply cp_lift, brd_u16; lia|]. apply in_whole_ok; [now symmetry|].
    change (0 =? 0) with true. cbv iota. apply cp_end. eapply cp_bind_ret; [apply cp_pdu; [exact Hf|exact Hw]|apply cp_ret].
  - unfold write_mirrored. cbn [rbind]. eexists. split; [reflexivity|]. unfold mirrored_len. change (as_u16 (4 + 2 - 4)) with 2.
    split; [rewrite !blen_app, !be_enc_blen; lia|].
    unfold parse_mirrored. eapply cp_bind; [apply cp_lift, brd_u16; lia|]. rewrite term_head by (left; lia).
    eapply cp_bind; [apply cp_lift, brd_u16; lia|]. apply in_whole_ok; [now rewrite be_enc_blen|].
    change (1 =? 0) with false. change (1 =? 1) with true. cbv iota. apply cp_end.
    eapply cp_bind_ret; [apply cp_lift, brd_u16; lia|]. replace (mirror_info_ok c) with true by (unfold mirror_info_ok; lia). apply cp_ret.
  - unfold write_mirrored. cbn [rbind]. eexists. split; [reflexivity|]. unfold mirrored_len. replace (4 + blen b - 4) with (blen b) by lia.
    unfold as_u16. rewrite N.mod_small by lia. split; [rewrite !blen_app, !be_enc_blen; lia|].
    unfold parse_mirrored. eapply cp_bind; [apply cp_lift, brd_u16; pose proof (xp_num_lt y); lia|].
    rewrite term_head by (right; eexists; reflexivity).
    eapply cp_bind; [apply cp_lift, brd_u16; lia|]. apply in_whole_ok; [reflexivity|].
    replace (65531 + xp_num y =? 0) with false by lia. replace (65531 + xp_num y =? 1) with false by lia. rewrite xp_of_num.
    apply cp_end. eapply cp_bind_ret; [apply cp_lift, parses_map_err, parses_bytes; reflexivity|apply cp_ret].
Qed.
Lemma p_mirroring m h l : header_fits h -> Forall (mirrored_fits (set_asn4 (is_asn4 h) (peer_ctx (key_of h) m))) l ->
  exists b, write_common (CMirror h l) = Ok b /\ blen b = common_len (CMirror h l) /\
    cgo_end parse_mirroring m b (touched h m) (CMirror h l).
Proof.
  intros Hh Hl. destruct (p_header h Hh) as [Ph Lh]. set (x := set_asn4 _ _) in *.
  assert (H : Forall (fun v => exists b, write_mirrored v = Ok b) l).
  { eapply Forall_impl; [|exact Hl]. intros v Hv. destruct (p_mirrored x v Hv) as (b & Hw & _). exists b. exact Hw. }
  cbn [write_common]. rewrite (write_all_ok _ _ H). cbn [rbind]. eexists. split; [reflexivity|]. split.
  - rewrite blen_app, Lh. cbn [common_len]. rewrite (sum_len_flat _ mirrored_len); [reflexivity|].
    eapply Forall_impl; [|exact Hl]. intros v Hv. destruct (p_mirrored x v Hv) as (b & Hw & Hb & _). unfold octets. rewrite Hw. exact Hb.
  - unfold parse_mirroring. eapply cg_bind_end; [apply cg_lift, Ph|].
    eapply cg_bind_end'; [|apply cg_end, cg_ret]. apply cg_on_peer_end. fold x. apply cp_many_all. intros v Hv.
    rewrite Forall_forall in Hl. destruct (p_mirrored x v (Hl v Hv)) as (b & Hw & Hb & Hp). unfold octets. rewrite Hw.
    split; [eapply cp_bind_ret; [exact Hp|apply cp_ret]|]. intros ->. rewrite blen_nil in Hb. unfold mirrored_len in Hb. destruct v; lia.
Qed.

(* ---- v4 route monitoring ---- *)
Lemma group_flag i : 32768 <= i -> u16 i -> flag_set 32768 i = true.
Proof.
  unfold u16. intros H1 H2. unfold flag_set. rewrite (land_pow2 i 15 : N.land i 32768 = _).
  assert (Hb : N.testbit i 15 = true).
  { rewrite N.testbit_eqb. change (2 ^ 15) with 32768. apply N.eqb_eq.
    assert (Hq : i / 32768 = 1).
    { symmetry. apply (N.div_unique i 32768 1 (i - 32768)); lia. }
    rewrite Hq. reflexivity. }
  rewrite Hb. reflexivity.
Qed.
Lemma flat_be2_len l : blen (flat_map (be_enc 2) l) = 2 * blen l.
Proof. induction l as [|x l IH]; [reflexivity|]. cbn [flat_map]. rewrite blen_app, be_enc_blen, IH, blen_cons. lia. Qed.
Lemma p_mark s r : u32 s -> match r with Some c => u16 c | None => True end ->
  parses_end parse_mark (be_enc 4 s ++ match r with Some c => be_enc 2 c | None => [] end) (TvMark s r).
Proof.
  intros Hs Hr. unfold parse_mark. eapply parses_end_bind; [apply brd_u32, Hs|]. destruct r as [c|].
  - intros off. unfold get_reader, bind at 1, remaining. cbn [rbuf]. rewrite be_enc_blen.
    change (N.of_nat 2 =? 0) with false. change (N.of_nat 2 =? 2) with true. cbv iota.
    pose proof (parses_bind_ret _ (fun v => ret (TvMark s (Some v))) _ _ _ (brd_u16 c Hr) (parses_ret _)) as H.
    apply parses_to_end in H. rewrite H, be_enc_blen. reflexivity.
  - intros off. unfold get_reader, bind, remaining. cbn [rbuf]. rewrite blen_nil, N.add_0_r. reflexivity.
Qed.
Lemma cap_len_small c : cap_ok c -> cap_len c <= 65531.
Proof.
  intros [Hf Hm]. unfold cap_len. destruct c; cbn [cap_fits not_multiple_labels cap_value_len] in *; try lia; try contradiction.
Qed.
Definition after_tlv (out : bool) (x : bctx) (t : rm_tlv) : bctx :=
  match tl_val t with TvCap c => update_capability c out x | _ => x end.
Lemma tlv_value_ok t : tlv_fits t -> exists v, write_tlv_val (tl_val t) = Ok v /\ blen v = tlv_val_len (tl_val t) /\
  blen v <= 65531 /\ tlv_code (tl_val t) < 65536 /\ tlv_code (tl_val t) <> 4.
Proof.
  intros [Hi Hv]. destruct t as [i [c|l|v|m|s r|c v]]; cbn [tl_val tl_index write_tlv_val tlv_val_len tlv_code] in *.
  - destruct (cap_octets_ok c Hv) as (Hw & _ & Hl & _). rewrite Hw. cbn [map_err]. eexists. split; [reflexivity|].
    split; [exact Hl|]. rewrite Hl. split; [|lia]. apply cap_len_small, Hv.
  - eexists. split; [reflexivity|]. rewrite flat_be2_len. lia.
  - eexists. split; [reflexivity|]. lia.
  - contradiction.
  - eexists. split; [reflexivity|]. rewrite blen_app, be_enc_blen. destruct r; rewrite ?be_enc_blen, ?blen_nil; lia.
  - eexists. split; [reflexivity|]. destruct Hv as (Hu & Hn & Hl). unfold u16 in Hu. cbn [In] in Hn. repeat split; try lia.
Qed.

Lemma tlv_octets_ok t : tlv_fits t -> exists v, octets write_rm_tlv t =
    be_enc 2 (tlv_code (tl_val t)) ++ be_enc 2 (blen v) ++ be_enc 2 (tl_index t) ++ v /\
  write_rm_tlv t = Ok (octets write_rm_tlv t) /\ write_tlv_val (tl_val t) = Ok v /\ blen v <= 65531 /\
  blen (octets write_rm_tlv t) = rm_tlv_len t.
Proof.
  intros Hf. destruct (tlv_value_ok t Hf) as (v & Hw & Hl & Hb & Hc & Hn). exists v.
  assert (H : write_rm_tlv t = Ok ((be_enc 2 (tlv_code (tl_val t)) ++ be_enc 2 (blen v)) ++ be_enc 2 (tl_index t) ++ v)).
  { unfold write_rm_tlv, rm_tlv_len, tlv_header. rewrite <- Hl. replace (6 + blen v - 2) with (4 + blen v) by lia.
    unfold as_u16. rewrite N.mod_small by lia. replace (4 + blen v <? 4) with false by lia.
    replace (4 + blen v - 4) with (blen v) by lia. cbn [rbind]. rewrite Hw. reflexivity. }
  unfold octets. rewrite H. rewrite <- app_assoc. repeat split; try assumption.
  rewrite !blen_app, !be_enc_blen. unfold rm_tlv_len. rewrite <- Hl. lia.
Qed.
Lemma cg_len_checked {C A} len (p : cparser C bmp_err A) c c' b x : len = blen b -> cgo (in_sub BM_Parse len p) c b c' x ->
  cgo (cbind (clift get_reader) (fun r0 => if remaining r0 <? len then cfail (BM_TlvLength len (as_u16 (remaining r0)))
                                           else in_sub BM_Parse len p)) c b c' x.
Proof.
  intros Hl H rest off. unfold cbind at 1, clift at 1, get_reader, remaining. cbn [rbuf]. rewrite blen_app.
  replace (blen b + blen rest <? len) with false by lia. apply H.
Qed.
Lemma p_rm_tlv out x t : tlv_fits t -> cgo (parse_rm_tlv out) x (octets write_rm_tlv t) (after_tlv out x t) t.
Proof.
  intros Hf. destruct (tlv_octets_ok t Hf) as (v & -> & _ & Hw & Hb & _). destruct (tlv_value_ok t Hf) as (v' & Hw' & Hl & _ & Hc & Hn).
  rewrite Hw in Hw'. apply Ok_inj in Hw'. subst v'. destruct Hf as [Hi Hv]. destruct t as [i val]. cbn [tl_index tl_val] in *.
  unfold parse_rm_tlv. eapply cg_bind; [apply cg_lift, brd_u16, Hc|]. eapply cg_bind; [apply cg_lift, brd_u16; lia|].
  eapply cg_bind; [apply cg_lift, brd_u16, Hi|]. apply cg_len_checked; [reflexivity|]. apply cg_in_sub; [reflexivity|].
  destruct val as [c|l|w|m|s r|c w]; cbn [tlv_code write_tlv_val] in *; unfold after_tlv; cbn [tl_val].
  - change (1 =? 1) with true. cbv iota. destruct (cap_octets_ok c Hv) as (Hwc & Hp & _). rewrite Hwc in Hw. cbn [map_err] in Hw.
    apply Ok_inj in Hw. subst v. apply cg_end. eapply cg_bind_ret; [apply cg_lift, parses_map_err, Hp|].
    intros rest off. cbn [app]. rewrite blen_nil, N.add_0_r. reflexivity.
  - change (2 =? 1) with false. change (2 =? 2) with true. cbv iota. apply Ok_inj in Hw. subst v.
    eapply cg_bind_end'; [apply cg_lift_end, parses_many_all|].
    + intros y Hy. destruct Hv as [Hv _]. rewrite Forall_forall in Hv. split; [apply brd_u16, Hv, Hy|rewrite be_enc_2; discriminate].
    + rewrite group_flag by (try apply Hv; exact Hi). apply cg_end, cg_ret.
  - change (3 =? 1) with false. change (3 =? 2) with false. change (3 =? 3) with true. cbv iota. apply Ok_inj in Hw. subst w.
    eapply cg_bind_end'; [apply cg_lift_end, rest_bytes_end|]. destruct Hv as [Hu Hlv]. rewrite Hu. cbn [negb].
    replace (255 <? blen v) with false by lia. apply cg_end, cg_ret.
  - contradiction.
  - change (5 =? 1) with false. change (5 =? 2) with false. change (5 =? 3) with false. change (5 =? 5) with true. cbv iota.
    apply Ok_inj in Hw. subst v. eapply cg_bind_end'; [apply cg_lift_end, p_mark; apply Hv|apply cg_end, cg_ret].
  - destruct Hv as (Hu & Hni & Hlv). cbn [In] in Hni. apply Ok_inj in Hw. subst w.
    replace (c =? 1) with false by lia. replace (c =? 2) with false by lia. replace (c =? 3) with false by lia.
    replace (c =? 5) with false by lia. eapply cg_bind_end'; [apply cg_lift_end, rest_bytes_end|apply cg_end, cg_ret].
Qed.
Lemma peek_type {A} (f : N -> cparser A bmp_err (option rm_tlv)) c code tail off : code < 65536 ->
  cbind (clift (brd (peek_be 2))) f c (mkR (be_enc 2 code ++ tail) off) = f code c (mkR (be_enc 2 code ++ tail) off).
Proof.
  intros Hc. unfold cbind, clift, brd, pmap_err, peek_be, remaining. cbn [rbuf]. rewrite blen_app, be_enc_blen.
  replace (N.of_nat 2 + blen tail <? 2) with false by lia. cbn [map_err].
  replace (take 2 (be_enc 2 code ++ tail)) with (be_enc 2 code) by (symmetry; apply take_app_exact; now rewrite be_enc_blen).
  rewrite be_val_enc by (change (256 ^ N.of_nat 2) with 65536; exact Hc). reflexivity.
Qed.
Lemma p_rm_step out x q t : tlv_fits t ->
  cgo (rm_step out) (x, q) (octets write_rm_tlv t) (after_tlv out x t, q) (Some t).
Proof.
  intros Hf rest off. pose proof (p_rm_tlv out x t Hf rest off) as H.
  destruct (tlv_octets_ok t Hf) as (v & Ho & _). destruct (tlv_value_ok t Hf) as (_ & _ & _ & _ & Hc & Hn).
  unfold rm_step. rewrite Ho, <- app_assoc in *. rewrite peek_type by exact Hc.
  replace (tlv_code (tl_val t) =? 4) with false by lia. cbn [fst snd]. rewrite H. reflexivity.
Qed.
Lemma p_rm_pdu out x q pb rest off : blen pb <= 65531 -> exists so,
  rm_step out (x, q) (mkR ((be_enc 2 4 ++ be_enc 2 (blen pb) ++ be_enc 2 0 ++ pb) ++ rest) off) =
    ((x, Some (mkR pb so)), mkR rest (off + (6 + blen pb)), Ok None).
Proof.
  intros Hb. unfold rm_step. rewrite <- app_assoc. rewrite peek_type by lia. change (4 =? 4) with true. cbv iota.
  unfold cbind, clift. rewrite (brd_u16 4) by lia. rewrite <- !app_assoc. rewrite (brd_u16 (blen pb)) by lia.
  rewrite (brd_u16 0) by lia. unfold brd, pmap_err, take_slice. rewrite (parses_bytes pb (blen pb) eq_refl). cbn [map_err roff fst].
  rewrite !be_enc_blen. eexists. f_equal. f_equal. f_equal. lia.
Qed.
Lemma rm_loop out pb l : blen pb <= 65531 -> Forall tlv_fits l -> forall fuel x q off, (S (length l) <= fuel)%nat -> exists so,
  cmany fuel (rm_step out) (x, q) (mkR (flat_map (octets write_rm_tlv) l ++ be_enc 2 4 ++ be_enc 2 (blen pb) ++ be_enc 2 0 ++ pb) off) =
    ((after_tlvs out x l, Some (mkR pb so)),
     mkR [] (off + blen (flat_map (octets write_rm_tlv) l ++ be_enc 2 4 ++ be_enc 2 (blen pb) ++ be_enc 2 0 ++ pb)), Ok l).
Proof.
  intros Hb. induction l as [|t l IH]; intros Hl fuel x q off Hf.
  - destruct fuel as [|f]; [cbn [length] in Hf; lia|]. cbn [flat_map app cmany].
    destruct (p_rm_pdu out x q pb [] off Hb) as [so Hp]. rewrite app_nil_r in Hp. exists so.
    replace (ris_empty _) with false by reflexivity. unfold cbind. rewrite Hp.
    destruct f; cbn [cmany ris_empty rbuf]; unfold cret; rewrite !blen_app, !be_enc_blen;
      change (after_tlvs out x []) with x; (do 3 f_equal); lia.
  - inversion Hl as [|? ? Ht Hl']; subst. cbn [length] in Hf. destruct fuel as [|f]; [lia|].
    cbn [flat_map cmany]. rewrite <- app_assoc.
    set (tail := flat_map (octets write_rm_tlv) l ++ be_enc 2 4 ++ be_enc 2 (blen pb) ++ be_enc 2 0 ++ pb) in *.
    destruct (IH Hl' f (after_tlv out x t) q (off + blen (octets write_rm_tlv t))) as [so Hso]; [lia|]. exists so.
    replace (ris_empty _) with false.
    2: { destruct (tlv_octets_ok t Ht) as (v & Ho & _). unfold ris_empty. cbn [rbuf]. rewrite Ho, be_enc_2. reflexivity. }
    unfold cbind. rewrite (p_rm_step out x q t Ht tail off). rewrite Hso. unfold cret.
    rewrite (blen_app (octets write_rm_tlv t)), N.add_assoc. reflexivity.
Qed.
Lemma p_monitoring4 m h u l : header_fits h -> (exists y, u = MUpdate y) -> Forall tlv_fits l ->
  pdu_fits (after_tlvs (adj_rib_out h) (set_asn4 (is_asn4 h) (peer_ctx (key_of h) m)) l) u -> pdu_len u <= 65531 ->
  exists b, write_value (V4Monitoring h u l) = Ok b /\ 1 + blen b = value_len (V4Monitoring h u l) /\
    cgo_end parse_monitoring4 m b (touched h m) (V4Monitoring h u l).
Proof.
  intros Hh Hu Hl Hp Hb. destruct (p_header h Hh) as [Ph Lh]. set (x := set_asn4 _ _) in *.
  destruct (pdu_written _ u Hp) as (pb & Wp & Lp & _).
  assert (H : Forall (fun v => exists b, write_rm_tlv v = Ok b) l).
  { eapply Forall_impl; [|exact Hl]. intros t Ht. destruct (tlv_octets_ok t Ht) as (_ & _ & Hw & _). eexists. exact Hw. }
  assert (Hw : write_rm_tlv (mkTlv 0 (TvUpdate u)) = Ok ((be_enc 2 4 ++ be_enc 2 (blen pb)) ++ be_enc 2 0 ++ pb)).
  { unfold write_rm_tlv, rm_tlv_len, tlv_header. cbn [tl_val tl_index tlv_val_len tlv_code write_tlv_val].
    replace (6 + pdu_len u - 2) with (4 + pdu_len u) by lia. unfold as_u16. rewrite N.mod_small by lia.
    replace (4 + pdu_len u <? 4) with false by lia. replace (4 + pdu_len u - 4) with (blen pb) by lia. cbn [rbind].
    rewrite Wp. reflexivity. }
  cbn [write_value]. rewrite (write_all_ok _ _ H), Hw. cbn [rbind]. eexists. split; [reflexivity|]. split.
  - rewrite !blen_app, Lh, !be_enc_blen, Lp. rewrite (sum_len_flat _ rm_tlv_len).
    + change (value_len (V4Monitoring h u l)) with (1 + (header_len + (6 + pdu_len u) + sum_len rm_tlv_len l)). unfold header_len. lia.
    + eapply Forall_impl; [|exact Hl]. intros t Ht. destruct (tlv_octets_ok t Ht) as (_ & _ & _ & _ & _ & Hlen). exact Hlen.
  - unfold parse_monitoring4. eapply cg_bind_end; [apply cg_lift, Ph|]. rewrite <- (app_assoc (be_enc 2 4)).
    intros off. unfold on_peer. fold x. unfold rm_body, cmany_all. cbn [rbuf].
    set (B := flat_map (octets write_rm_tlv) l ++ be_enc 2 4 ++ be_enc 2 (blen pb) ++ be_enc 2 0 ++ pb).
    destruct (rm_loop (adj_rib_out h) pb l ltac:(lia) Hl (S (length B)) x None off) as [so Hso].
    { unfold B. rewrite app_length. assert (length l <= length (flat_map (octets write_rm_tlv) l))%nat; [|lia].
      apply length_flat_map_ge. intros t Ht. rewrite Forall_forall in Hl. destruct (tlv_octets_ok t (Hl t Ht)) as (v & -> & _).
      rewrite be_enc_2. discriminate. }
    fold B in Hso. rewrite Hso.
    pose proof (cp_end _ _ _ _ (cp_pdu _ u pb Hp Wp) so) as Hpdu. rewrite Hpdu.
    destruct Hu as [y ->]. reflexivity.
Qed.

(* ---- whole messages ---- *)
Lemma sum_len_ge {A} (f : A -> N) l : (forall x, 1 <= f x) -> blen l <= sum_len f l.
Proof.
  intros H. induction l as [|x l IH]; [rewrite blen_nil; cbn; lia|]. rewrite blen_cons.
  change (sum_len f (x :: l)) with (f x + sum_len f l). specialize (H x). lia.
Qed.
Lemma p_common m c : common_fits (fun h => set_asn4 (is_asn4 h) (peer_ctx (key_of h) m)) c -> common_len c < 4294967296 ->
  exists b m', write_common c = Ok b /\ blen b = common_len c /\ cgo_end (parse_common (common_code c)) m b m' c.
Proof.
  intros Hf Hlen. unfold parse_common. destruct c as [h l|p|l|l|h l|y v]; cbn [common_fits common_code] in *.
  - destruct Hf as [Hh Hl]. cbn [common_len] in Hlen.
    assert (Hn : blen l <= sum_len stat_len l) by (apply sum_len_ge; intros s; unfold stat_len; lia).
    eexists _, m. split; [reflexivity|]. split.
    + cbn [common_len]. rewrite !blen_app, be_enc_blen, (proj2 (p_header h Hh)), (sum_len_flat _ stat_len);
        [unfold header_len; lia|]. apply Forall_forall. intros s _. apply enc_stat_len.
    + change (1 =? 1) with true. cbv iota. apply cg_lift_end, p_stats; [exact Hh|exact Hl|lia].
  - destruct (p_up m p Hf) as (b & Hw & Hl & Hp). exists b. eexists. split; [exact Hw|]. split; [exact Hl|].
    change (3 =? 1) with false. change (3 =? 3) with true. cbv iota. eapply cg_bind_end'; [exact Hp|apply cg_end, cg_ret].
  - eexists _, m. split; [reflexivity|]. split; [cbn [common_len]; apply infos_len, Hf|].
    change (4 =? 1) with false. change (4 =? 3) with false. change (4 =? 4) with true. cbv iota.
    eapply cg_bind_end'; [apply cg_lift_end, p_infos, Hf|apply cg_end, cg_ret].
  - eexists _, m. split; [reflexivity|]. split.
    + cbn [common_len]. apply sum_len_flat, Forall_forall. intros t _. apply enc_term_len.
    + change (5 =? 1) with false. change (5 =? 3) with false. change (5 =? 4) with false. change (5 =? 5) with true. cbv iota.
      eapply cg_bind_end'; [apply cg_lift_end, parses_many_all|apply cg_end, cg_ret].
      intros t Ht. rewrite Forall_forall in Hf. split; [apply p_term, Hf, Ht|]. unfold enc_term. rewrite be_enc_2. discriminate.
  - destruct Hf as [Hh Hl]. destruct (p_mirroring m h l Hh Hl) as (b & Hw & Hb & Hp). exists b. eexists.
    split; [exact Hw|]. split; [exact Hb|].
    change (6 =? 1) with false. change (6 =? 3) with false. change (6 =? 4) with false. change (6 =? 5) with false.
    change (6 =? 6) with true. cbv iota. exact Hp.
  - eexists _, m. split; [reflexivity|]. split; [reflexivity|].
    replace (251 + xp_num y =? 1) with false by lia. replace (251 + xp_num y =? 3) with false by lia.
    replace (251 + xp_num y =? 4) with false by lia. replace (251 + xp_num y =? 5) with false by lia.
    replace (251 + xp_num y =? 6) with false by lia. rewrite xp_of_num.
    eapply cg_bind_end'; [apply cg_lift_end, rest_bytes_end|apply cg_end, cg_ret].
Qed.
Definition fits_in (m : bmpctx) (msg : bmp_msg) : Prop :=
  bmp_fits (fun h => set_asn4 (is_asn4 h) (peer_ctx (key_of h) m)) msg.
Lemma common_code_ne c : common_code c <> 0 /\ common_code c <> 2.
Proof. destruct c; cbn; lia. Qed.
Lemma p_value m msg : fits_in m msg -> exists b m', write_value msg = Ok b /\ 1 + blen b = value_len msg /\
  cgo_end (parse_value (bmp_version msg)) m (value_code msg :: b) m' msg.
Proof.
  intros [Hlen Hf]. change (2 ^ 32) with 4294967296 in Hlen. unfold bmp_len in Hlen.
  assert (Hhead : forall b m' (f : N -> cparser bmpctx bmp_err bmp_msg),
    cgo_end (f (value_code msg)) m b m' msg -> cgo_end (cbind (clift (brd read_u8)) f) m (value_code msg :: b) m' msg).
  { intros b m' f H. change (value_code msg :: b) with ([value_code msg] ++ b). eapply cg_bind_end; [apply cg_lift, brd_u8|exact H]. }
  destruct msg as [h u|h d|c|h u l|h d l|c]; cbn [value_code bmp_version] in *.
  - destruct Hf as (Hh & Hu & Hp). destruct (p_header h Hh) as [Ph Lh]. destruct (pdu_written _ u Hp) as (b & Wp & Lp & _).
    cbn [write_value]. rewrite Wp. cbn [rbind]. eexists _, _. split; [reflexivity|]. split.
    + rewrite blen_app, Lh, Lp. reflexivity.
    + apply Hhead. change (0 =? 0) with true. change (3 =? 3) with true. cbv iota. unfold parse_monitoring3.
      eapply cg_bind_end; [apply cg_lift, Ph|]. eapply cg_bind_end'; [apply cg_end, cg_on_peer, cp_pdu; [exact Hp|exact Wp]|].
      destruct Hu as [y ->]. cbn [msg_type]. apply cg_end, cg_ret.
  - destruct Hf as [Hh Hd]. destruct (p_header h Hh) as [Ph Lh].
    destruct (p_reason (set_asn4 (is_asn4 h) (peer_ctx (key_of h) m)) d Hd) as (b & Hw & Hl & Hc & Hp & _).
    cbn [write_value]. rewrite Hw. cbn [rbind]. eexists _, _. split; [reflexivity|]. split.
    + rewrite blen_app, Lh, Hl. reflexivity.
    + apply Hhead. change (2 =? 0) with false. change (2 =? 2) with true. change (3 =? 3) with true. cbv iota. unfold parse_down3.
      eapply cg_bind_end; [apply cg_lift, Ph|]. eapply cg_bind_end'; [apply cg_on_peer_end, Hp|]. rewrite Hc. apply cg_end, cg_ret.
  - destruct (p_common m c Hf) as (b & m' & Hw & Hl & Hp); [unfold value_len in Hlen; lia|].
    exists b, m'. split; [exact Hw|]. split; [unfold value_len; lia|]. apply Hhead.
    destruct (common_code_ne c) as [H0 H2]. replace (common_code c =? 0) with false by lia. replace (common_code c =? 2) with false by lia.
    eapply cg_bind_end'; [exact Hp|]. change (3 =? 3) with true. cbv iota. apply cg_end, cg_ret.
  - destruct Hf as (Hh & Hu & Hl & Hp & Hb). destruct (p_monitoring4 m h u l Hh Hu Hl Hp Hb) as (b & Hw & Hlen' & Hpp).
    exists b. eexists. split; [exact Hw|]. split; [exact Hlen'|]. apply Hhead. change (0 =? 0) with true. change (4 =? 3) with false.
    cbv iota. exact Hpp.
  - destruct Hf as (Hh & Hd & Hl & Hx). destruct (p_header h Hh) as [Ph Lh].
    destruct (p_reason (set_asn4 (is_asn4 h) (peer_ctx (key_of h) m)) d Hd) as (b & Hw & Hbl & Hc & Hp & Hp').
    assert (H : Forall (fun v => exists b, write_raw_tlv v = Ok b) l).
    { eapply Forall_impl; [|exact Hl]. intros t Ht. destruct (p_raw_tlv t Ht) as (tb & Htw & _). eexists. exact Htw. }
    cbn [write_value]. rewrite Hw, (write_all_ok _ _ H). cbn [rbind]. eexists _, _. split; [reflexivity|]. split.
    + unfold value_len. rewrite !blen_app, Lh, Hbl. rewrite (sum_len_flat _ (fun t => 4 + blen (snd t))); [unfold header_len; lia|].
      eapply Forall_impl; [|exact Hl]. intros t Ht. destruct (p_raw_tlv t Ht) as (tb & Htw & Htl & _). unfold octets. rewrite Htw. exact Htl.
    + apply Hhead. change (2 =? 0) with false. change (2 =? 2) with true. change (4 =? 3) with false. cbv iota. unfold parse_down4.
      eapply cg_bind_end; [apply cg_lift, Ph|].
      assert (Htl : parses_end (many_all parse_raw_tlv) (flat_map (octets write_raw_tlv) l) l).
      { apply parses_many_all. intros t Ht. rewrite Forall_forall in Hl. destruct (p_raw_tlv t (Hl t Ht)) as (tb & Htw & Htl & Htp).
        unfold octets. rewrite Htw. split; [exact Htp|]. intros ->. rewrite blen_nil in Htl. lia. }
      destruct d as [dm|dv|dm| | |di|dx dv].
      all: try (eapply cg_bind_end; [apply cg_on_peer, Hp'|]; eapply cg_bind_end'; [apply cg_lift_end, Htl|]; rewrite Hc; apply cg_end, cg_ret).
      subst l. cbn [flat_map] in *. rewrite app_nil_r. eapply cg_bind_end'; [apply cg_on_peer_end, Hp|].
      eapply cg_bind_end'; [apply cg_lift_end, Htl|]. rewrite Hc. apply cg_end, cg_ret.
  - destruct (p_common m c Hf) as (b & m' & Hw & Hl & Hp); [unfold value_len in Hlen; lia|].
    exists b, m'. split; [exact Hw|]. split; [unfold value_len; lia|]. apply Hhead.
    destruct (common_code_ne c) as [H0 H2]. replace (common_code c =? 0) with false by lia. replace (common_code c =? 2) with false by lia.
    eapply cg_bind_end'; [exact Hp|]. change (4 =? 3) with false. cbv iota. apply cg_end, cg_ret.
Qed.
Lemma bmp_round k msg : bk_in k = false -> bmp_fits (reads k) msg ->
  exists b, write_bmp msg = Ok b /\ blen b = bmp_len msg /\
    forall rest, exists m', bmp_decode k (b ++ rest) = (mkBmp false (ctx_update msg m'), rest, DItem msg).
Proof.
  intros Hk Hf. destruct (p_value (bk_ctx k) msg Hf) as (v & m' & Hw & Hl & Hp).
  assert (Hlen : bmp_len msg < 4294967296) by exact (proj1 Hf).
  unfold write_bmp. rewrite Hw. cbn [rbind]. eexists. split; [reflexivity|].
  unfold as_u32. rewrite N.mod_small by exact Hlen.
  set (b := bmp_version msg :: be_enc 4 (bmp_len msg) ++ value_code msg :: v).
  assert (Hb : blen b = bmp_len msg).
  { unfold b. rewrite blen_cons, blen_app, be_enc_blen, blen_cons. unfold bmp_len. lia. }
  split; [exact Hb|]. intros rest. exists m'.
  assert (H5 : 5 <= bmp_len msg) by (unfold bmp_len; lia).
  assert (Hv : version_ok (bmp_version msg) = true) by (destruct msg; reflexivity).
  assert (Hfl : frame_length b = bmp_len msg).
  { unfold frame_length, b. change (drop 1 (bmp_version msg :: be_enc 4 (bmp_len msg) ++ value_code msg :: v))
      with (be_enc 4 (bmp_len msg) ++ value_code msg :: v).
    rewrite take_app_exact by (rewrite be_enc_blen; reflexivity). apply be_val_enc. exact Hlen. }
  assert (Hi : bmp_inv k (b ++ rest)) by (intros Hx; congruence).
  assert (H0 : nth 0 (b ++ rest) 0 = bmp_version msg) by reflexivity.
  destruct (bmp_decode_cases k (b ++ rest) Hi) as
    [(G5 & Gk & G)|[(G5 & Gv & G & Gk)|[(G5 & Gv & Gl & G)|[(G5 & Gv & Gl & Gw & G)|(G5 & Gv & Gl & G)]]]];
    rewrite ?H0, ?frame_length_app, ?blen_app in * by lia; try congruence; try lia.
  rewrite G. rewrite Hfl. rewrite take_app_exact, drop_app_exact by lia.
  assert (Hparse : parse_bmp (bk_ctx k) (rnew b) = (m', mkR [] (0 + blen b), Ok msg)); [|rewrite Hparse; reflexivity].
  assert (Hgo : cgo_end parse_bmp (bk_ctx k) b m' msg); [|exact (Hgo 0)].
  unfold b. change (bmp_version msg :: be_enc 4 (bmp_len msg) ++ value_code msg :: v)
    with ([bmp_version msg] ++ be_enc 4 (bmp_len msg) ++ value_code msg :: v).
  unfold parse_bmp. eapply cg_bind_end; [apply cg_lift, brd_u8|]. rewrite Hv. cbn [negb].
  eapply cg_bind_end; [apply cg_lift, brd_u32, Hlen|]. replace (bmp_len msg <? 5) with false by lia.
  apply cg_end, cg_in_sub; [rewrite blen_cons; unfold bmp_len; lia|].
  eapply cg_bind_end'; [exact Hp|]. intros off. unfold cbind, clift, get_reader, ris_empty. cbn [rbuf].
  rewrite blen_nil, N.add_0_r. reflexivity.
Qed.

(* what a message may hold depends on the settings point by point *)
Lemma msg_fits_pointwise asn4 L L' A A' m :
  (forall t, limit_of L t = limit_of L' t) -> (forall t, add_path_of A t = add_path_of A' t) ->
  msg_fits asn4 L A m -> msg_fits asn4 L' A' m.
Proof.
  intros HL HA. destruct m as [o|u|n| |r]; cbn [msg_fits]; try (intros H; exact H).
  unfold update_fits. rewrite (HA Ipv4Unicast). intros (H1 & H2 & H3 & H4). repeat split; try assumption.
  eapply Forall_impl; [|exact H2]. intros a [[Hx [Hv Hl]] Hn]. split; [|exact Hn]. split; [exact Hx|]. split; [|exact Hl].
  destruct (pa_val a); try exact Hv; unfold value_fits in *; destruct m; unfold nlris_fit in *;
    rewrite <- ?HL, <- ?HA; exact Hv.
Qed.
