From Verif Require Import Base BaseLemmas FramingModel FramingProofs BgpFrameModel BgpFrameSpec.

Lemma cbind_ok {C E A B} (p : cparser C E A) (f : A -> cparser C E B) c r c' r' y :
  cbind p f c r = (c', r', Ok y) ->
  exists x c1 r1, p c r = (c1, r1, Ok x) /\ f x c1 r1 = (c', r', Ok y).
Proof.
  unfold cbind. destruct (p c r) as [[c1 r1] [x|e| |]]; intros H; try discriminate. eauto 6.
Qed.
Lemma clift_ok {C E A} (p : parser E A) (c : C) r c' r' y :
  clift p c r = (c', r', Ok y) -> c' = c /\ p r = (r', Ok y).
Proof. unfold clift. destruct (p r) as [r1 x]. intros H; inversion H; auto. Qed.
Lemma cmap_err_ok {C E F A} (g : E -> F) (p : cparser C E A) c r c' r' y :
  cmap_err g p c r = (c', r', Ok y) -> p c r = (c', r', Ok y).
Proof.
  unfold cmap_err. destruct (p c r) as [[c1 r1] [x|e| |]]; cbn; intros H; inversion H; reflexivity.
Qed.

Lemma mtype_of_code v t : mtype_of v = Some t -> mtype_code t = v.
Proof.
  unfold mtype_of.
  repeat match goal with |- context[if ?v =? ?k then _ else _] => destruct (N.eqb_spec v k) end;
    intros H; inversion H; subst; reflexivity.
Qed.
Lemma mtype_code_of t : mtype_of (mtype_code t) = Some t.
Proof. destruct t; reflexivity. Qed.

Lemma marker_bytes : be_enc 16 u128_max = repeat 255 16.
Proof. vm_compute. reflexivity. Qed.
Lemma all_ones b : bytes_ok b = true -> blen b = 16 -> be_val b = u128_max -> b = repeat 255 16.
Proof.
  intros Hb Hl Hv. apply be_val_inj; auto.
  - unfold blen in Hl. rewrite repeat_length. lia.
Qed.

Lemma parse_length_and_type_ok {E} r r' l t sub :
  bytes_ok (rbuf r) = true ->
  @parse_length_and_type E r = (r', Ok ((l, t), sub)) ->
  rbuf r = [l / 256; l mod 256; mtype_code t] ++ rbuf sub ++ rbuf r' /\
  l = 19 + blen (rbuf sub) /\ roff sub = roff r + 3 /\ l < 65536 /\
  match t with TOpen | TKeepAlive => l <= 4096 | _ => True end.
Proof.
  intros Hb H. unfold parse_length_and_type in H.
  apply bind_ok in H as [len [r1 [H1 H2]]]. apply map_err_ok in H1.
  unfold read_u16 in H1. apply read_be_ok in H1 as [bl [E1 [E2 [E3 E4]]]].
  destruct (len <? bgp_min_len) eqn:Emin; [discriminate|].
  apply bind_ok in H2 as [s [r2 [H2 H3]]]. apply map_err_ok in H2.
  apply take_slice_ok in H2 as [S1 [S2 [S3 S4]]].
  destruct (pmap_err BE_Parse read_u8 s) as [s' [code|e| |]] eqn:Eu; try discriminate.
  apply map_err_ok in Eu. apply read_u8_ok in Eu as [U1 U2].
  destruct (mtype_of code) as [t'|] eqn:Et; [|discriminate].
  apply mtype_of_code in Et.
  assert (Hres : r' = r2 /\ l = len /\ t = t' /\ sub = s' /\
                 match t' with TOpen | TKeepAlive => len <= 4096 | _ => True end).
  { unfold bgp_max_len, bgp_min_len in H3. destruct t'; try (destruct ((19 <=? len) && (len <=? 4096)) eqn:Eg; [|discriminate]);
      inversion H3; subst; (split; [reflexivity|]); (split; [reflexivity|]); (split; [reflexivity|]);
      (split; [reflexivity|]); try exact I; apply andb_true_iff in Eg; lia. }
  destruct Hres as [-> [-> [-> [-> Hmax]]]].
  unfold bgp_min_len in Emin.
  assert (Hbl : bl = [len / 256; len mod 256]).
  { rewrite E1 in Hb. rewrite bytes_ok_app in Hb. apply andb_true_iff in Hb as [Hb _].
    destruct bl as [|x [|y [|z w]]]; try (rewrite ?blen_cons, ?blen_nil in E3; lia).
    rewrite !bytes_ok_cons in Hb. apply andb_true_iff in Hb as [Hx Hb].
    apply andb_true_iff in Hb as [Hy _].
    rewrite !be_val_cons, blen_cons, blen_nil, be_val_nil in E4.
    change (256 ^ (1+0)) with 256 in E4. change (256 ^ 0) with 1 in E4. f_equal; [lia|f_equal; lia]. }
  assert (Hlen : len < 65536).
  { rewrite E1 in Hb. rewrite bytes_ok_app in Hb. apply andb_true_iff in Hb as [Hb _].
    assert (Q := be_val_bound bl Hb). rewrite E3 in Q. change (256 ^ 2) with 65536 in Q. lia. }
  rewrite U1 in S3. rewrite blen_cons in S3.
  split; [|split; [|split; [|split]]].
  - rewrite E1, S1, U1, Hbl, Et. reflexivity.
  - lia.
  - lia.
  - exact Hlen.
  - exact Hmax.
Qed.

Lemma parse_message_ok {C E M} (body : mtype -> cparser C E M) c buf c' r' m :
  bytes_ok buf = true ->
  parse_message body c (rnew buf) = (c', r', Ok m) ->
  exists t b, buf = framed t b (rbuf r') /\ length_allowed t b /\ body_accepts (body t) c b c' m.
Proof.
  intros Hb H. unfold parse_message in H.
  apply cbind_ok in H as [h [c1 [r1 [H1 H2]]]].
  apply clift_ok in H1 as [-> H1]. apply map_err_ok in H1.
  unfold read_u128 in H1. apply read_be_ok in H1 as [bm [E1 [E2 [E3 E4]]]]. cbn [rnew rbuf roff] in *.
  destruct (negb (h =? u128_max)) eqn:Eh; [discriminate|].
  apply negb_false_iff in Eh. apply N.eqb_eq in Eh.
  apply cbind_ok in H2 as [[[l t] sub] [c2 [r2 [H2 H3]]]].
  apply clift_ok in H2 as [-> H2].
  rewrite E1, bytes_ok_app in Hb. apply andb_true_iff in Hb as [Hb1 Hb2].
  apply parse_length_and_type_ok in H2 as [F1 [F2 [F3 [F4 F5]]]]; [|exact Hb2].
  destruct (cmap_err BE_Body (body t) c sub) as [[c3 sub'] [m'|e| |]] eqn:Ebody; try discriminate.
  apply cmap_err_ok in Ebody.
  destruct (ris_empty sub') eqn:Eemp; [|discriminate].
  inversion H3; subst c3 r2 m'; clear H3.
  exists t, (rbuf sub). split; [|split].
  - unfold framed. rewrite <- F2. rewrite E1, F1.
    rewrite (all_ones bm); [reflexivity| | |]; auto; congruence.
  - unfold length_allowed. rewrite <- F2. split; [lia|]. destruct t; auto.
  - exists sub'. split.
    + replace (mkR (rbuf sub) 19) with sub; [exact Ebody|]. destruct sub as [sb so].
      cbn [rbuf roff] in *. f_equal. lia.
    + unfold ris_empty in Eemp. destruct (rbuf sub'); [reflexivity|discriminate].
Qed.

Lemma parse_message_framed {C E M} (body : mtype -> cparser C E M) c t b rest :
  length_allowed t b ->
  parse_message body c (rnew (framed t b rest)) =
  match body t c (mkR b 19) with
  | (c', r, Ok m) =>
      if ris_empty r then (c', mkR rest (19 + blen b), Ok m)
      else (c', mkR rest (19 + blen b), Err (BE_Unparsed (19 + blen b) (remaining r)))
  | (c', _, Err e) => (c', mkR rest (19 + blen b), Err (BE_Body e))
  | (c', _, Panic) => (c', mkR rest (19 + blen b), Panic)
  | (c', _, Diverge) => (c', mkR rest (19 + blen b), Diverge)
  end.
Proof.
  intros [Hl Ht]. unfold parse_message, framed, rnew.
  set (L := 19 + blen b) in *.
  unfold cbind at 1. unfold clift at 1. unfold pmap_err at 1.
  rewrite <- marker_bytes.
  assert (Hm : u128_max < 2 ^ 128) by (vm_compute; reflexivity).
  rewrite (parses_u128 u128_max Hm _ 0). cbn [map_err].
  rewrite N.eqb_refl. cbn [negb].
  unfold cbind. unfold clift, parse_length_and_type.
  unfold bind at 1. unfold pmap_err at 1.
  replace ([L / 256; L mod 256; mtype_code t] ++ b ++ rest)
    with (be_enc 2 L ++ (mtype_code t :: b) ++ rest).
  2:{ rewrite be_enc_2. rewrite (N.mod_small (L / 256) 256) by lia. reflexivity. }
  rewrite (parses_u16 L ltac:(lia)). cbn [map_err].
  replace (L <? bgp_min_len) with false by (unfold bgp_min_len; lia).
  unfold bind, pmap_err, take_slice.
  rewrite (parses_bytes (mtype_code t :: b) (L - 18) ltac:(rewrite blen_cons; lia)). cbn [map_err].
  cbn [read_u8 rbuf roff app]. cbn [read_u8 rbuf roff map_err].
  rewrite mtype_code_of.
  rewrite !be_enc_blen. rewrite blen_cons.
  replace (0 + N.of_nat 16 + N.of_nat 2) with 18 by reflexivity.
  replace (18 + (1 + blen b)) with L by (unfold L; lia).
  replace (18 + 1) with 19 by reflexivity.
  assert (Hg : match t with
     | TOpen | TKeepAlive => if (bgp_min_len <=? L) && (L <=? bgp_max_len)
                             then ret (L, t, mkR b 19) else fail (BE_Length L)
     | _ => ret (L, t, mkR b 19) end (mkR rest L) = (mkR rest L, @Ok (bgp_err E) _ (L, t, mkR b 19))).
  { unfold bgp_min_len, bgp_max_len. destruct t; try reflexivity;
      replace ((19 <=? L) && (L <=? 4096)) with true; try reflexivity;
      symmetry; apply andb_true_iff; lia. }
  rewrite Hg. unfold cmap_err.
  destruct (body t c (mkR b 19)) as [[c' r] [m|e| |]]; cbn [map_err]; try reflexivity.
Qed.

(* the codec *)
Section Codec.
Context {C E M I : Type} (ops : ctx_ops C I) (body : mtype -> cparser C E M) (asn4_of : M -> option bool).
Let D := bgp_decode ops body asn4_of.

Lemma field_app (b x : list N) : 19 <= blen b ->
  take 2 (drop 16 (b ++ x)) = take 2 (drop 16 b).
Proof.
  intros H. rewrite drop_app_le by lia. apply take_app_le. rewrite blen_drop. lia.
Qed.

Lemma decode_none k b k' b' : D k b = (k', b', DNone) -> k' = k /\ b' = b.
Proof.
  unfold D, bgp_decode. destruct (19 <=? blen b); [|intros H; inversion H; auto].
  destruct (blen b <? _); [intros H; inversion H; auto|].
  destruct (parse_message _ _ _) as [[c' r'] [m|e| |]]; try (intros H; inversion H; fail).
  destruct (op_reset ops c'). intros H; inversion H.
Qed.

Lemma decode_some k b k' b' o : D k b = (k', b', o) -> is_none o = false ->
  19 <= blen b /\ be_val (take 2 (drop 16 b)) <= blen b /\ b' = drop (be_val (take 2 (drop 16 b))) b.
Proof.
  unfold D, bgp_decode. destruct (19 <=? blen b) eqn:E19; [|intros H; inversion H; subst; discriminate].
  destruct (blen b <? _) eqn:El; [intros H; inversion H; subst; discriminate|].
  intros H Hn. split; [lia|]. split; [lia|].
  destruct (parse_message _ _ _) as [[c' r'] [m|e| |]]; try (inversion H; reflexivity).
  destruct (op_reset ops c'). inversion H; reflexivity.
Qed.

Lemma decode_app k b k' b' o : D k b = (k', b', o) -> is_none o = false ->
  forall x, D k (b ++ x) = (k', b' ++ x, o).
Proof.
  intros H Hn x. destruct (decode_some _ _ _ _ _ H Hn) as [H19 [Hl Hb]].
  revert H. unfold D, bgp_decode. rewrite blen_app, field_app by exact H19.
  set (L := be_val (take 2 (drop 16 b))) in *.
  replace (19 <=? blen b) with true by lia. replace (19 <=? blen b + blen x) with true by lia.
  replace (blen b <? L) with false by lia. replace (blen b + blen x <? L) with false by lia.
  rewrite (take_app_le L b x Hl), (drop_app_le L b x Hl).
  destruct (parse_message _ _ _) as [[c' r'] [m|e| |]]; try (intros H; inversion H; reflexivity).
  destruct (op_reset ops c'). intros H; inversion H; reflexivity.
Qed.

Lemma frame_too_short c f : blen f < 16 ->
  parse_message body c (rnew f) = (c, rnew f, Err (BE_Parse (Eof 0 16 (blen f)))).
Proof.
  intros H. unfold parse_message, cbind, clift, pmap_err, read_u128, read_be, bind, read_bytes, rnew.
  cbn [rbuf roff]. replace (blen f <? 16) with true by lia. reflexivity.
Qed.

Lemma decode_item_progress k b k' b' i : D k b = (k', b', DItem i) -> (length b' < length b)%nat.
Proof.
  intros H. destruct (decode_some _ _ _ _ _ H eq_refl) as [H19 [Hl ->]].
  revert H. unfold D, bgp_decode.
  set (L := be_val (take 2 (drop 16 b))) in *.
  replace (19 <=? blen b) with true by lia. replace (blen b <? L) with false by lia.
  assert (Hd := blen_drop L b). unfold blen in Hd, Hl, H19.
  destruct (N.eq_dec L 0) as [->|Hz].
  - rewrite take_0. rewrite frame_too_short by (rewrite blen_nil; lia). discriminate.
  - intros _. lia.
Qed.

Lemma decode_error_progress k b k' b' o : D k b = (k', b', o) -> is_none o = false ->
  be_val (take 2 (drop 16 b)) <> 0 -> (length b' < length b)%nat.
Proof.
  intros H Hn Hz. destruct (decode_some _ _ _ _ _ H Hn) as [H19 [Hl ->]].
  assert (Hd := blen_drop (be_val (take 2 (drop 16 b))) b). unfold blen in Hd, Hl, H19. lia.
Qed.

Lemma decode_no_panic k b k' b' : body_total body -> D k b <> (k', b', DPanic).
Proof.
  intros Ht. unfold D, bgp_decode. destruct (19 <=? blen b); [|discriminate].
  destruct (blen b <? _); [discriminate|].
  match goal with |- context[parse_message body ?c ?r] =>
    assert (Hs : match snd (parse_message body c r) with Panic | Diverge => False | _ => True end) end.
  { unfold parse_message, cbind, clift.
    match goal with |- context[pmap_err BE_Parse read_u128 ?r] =>
      assert (Hu : safe (pmap_err (@BE_Parse E) read_u128)) by (unfold read_u128; psafe);
      destruct (Hu r) as [_ Hu']; destruct (pmap_err BE_Parse read_u128 r) as [r1 [h|e| |]] end;
      cbn [snd no_crash] in *; try exact Hu'; try exact Logic.I.
    destruct (negb (h =? u128_max)); [exact Logic.I|].
    assert (Hp : no_crash (snd (@parse_length_and_type E r1))).
    { unfold parse_length_and_type, bind.
      assert (H16 : safe (pmap_err (@BE_Parse E) read_u16)) by (unfold read_u16; psafe).
      destruct (H16 r1) as [_ H16']; destruct (pmap_err BE_Parse read_u16 r1) as [r2 [l|e| |]];
        cbn [snd no_crash] in *; try exact H16'; try exact Logic.I.
      destruct (l <? bgp_min_len); [exact Logic.I|].
      assert (Hsl : safe (pmap_err (fun _ => @BE_Length E l) (take_slice (l - 18)))) by psafe.
      destruct (Hsl r2) as [_ Hsl']. destruct (pmap_err _ (take_slice (l - 18)) r2) as [r3 [s|e| |]];
        cbn [snd no_crash] in *; try exact Hsl'; try exact Logic.I.
      assert (H8 : safe (pmap_err (@BE_Parse E) read_u8)) by psafe.
      destruct (H8 s) as [_ H8']. destruct (pmap_err BE_Parse read_u8 s) as [r4 [v|e| |]];
        cbn [snd no_crash] in *; try exact H8'; try exact Logic.I.
      destruct (mtype_of v) as [[]|]; try exact Logic.I;
      destruct ((bgp_min_len <=? l) && (l <=? bgp_max_len)); exact Logic.I. }
    destruct (@parse_length_and_type E r1) as [r2 [[[l t] s]|e| |]]; cbn [snd no_crash] in *;
      try exact Hp; try exact Logic.I.
    unfold cmap_err. specialize (Ht t (op_set_asn4 ops (unwrap_or_false (k_recv k) && unwrap_or_false (k_sent k)) (k_ctx k)) s).
    destruct (body t _ s) as [[c3 s3] [m|e| |]]; cbn [snd map_err] in *; try exact Ht; try exact Logic.I.
    destruct (ris_empty s3); exact Logic.I. }
  destruct (parse_message _ _ _) as [[c' r'] [m|e| |]]; cbn [snd] in Hs; try contradiction.
  - destruct (op_reset ops c'). discriminate.
  - discriminate.
Qed.

Lemma codec_feed_all xs k :
  feed_all D (conn_new k) xs = feed D (conn_new k) (concat xs).
Proof.
  apply (feed_all_concat D (fun _ _ => True)).
  - auto.
  - auto.
  - intros s b s' b' _ H. apply decode_none in H as [-> ->]. auto.
  - intros s b s' b' o _ H Hn. now apply decode_app.
  - intros s b s' b' o _ H Hn Hh. destruct o; try discriminate. now apply decode_item_progress in H.
  - cbn. split; [exact Logic.I|]. unfold D, bgp_decode. reflexivity.
Qed.
Lemma codec_settled xs k : c_status (feed_all D (conn_new k) xs) <> Looping.
Proof.
  assert (H : settled D (fun _ _ => True) (feed_all D (conn_new k) xs)).
  { apply feed_all_settled; auto.
    - intros s b s' b' _ H. apply decode_none in H as [-> ->]. auto.
    - intros s b s' b' o _ H Hn. now apply decode_app.
    - intros s b s' b' o _ H Hn Hh. destruct o; try discriminate. now apply decode_item_progress in H.
    - cbn. split; [exact Logic.I|]. unfold D, bgp_decode. reflexivity. }
  unfold settled in H. destruct (c_status _); congruence || contradiction.
Qed.
End Codec.

Lemma length_field_be b : 19 <= blen b -> be_val (take 2 (drop 16 b)) = length_field b.
Proof.
  intros H. unfold blen in H.
  do 18 (destruct b as [|? b]; [cbn [length] in H; lia|]).
  unfold length_field, take, drop. 
  change (N.to_nat 16) with 16%nat. change (N.to_nat 2) with 2%nat. cbn [nth skipn firstn].
  rewrite !be_val_cons, blen_cons, blen_nil, be_val_nil.
  change (256 ^ (1+0)) with 256. change (256 ^ 0) with 1. lia.
Qed.
