(* Proofs about the UDP-Notif wire format. *)
From Verif Require Import Base BaseLemmas MapLib UdpNotifModel UdpNotifSpec.

Lemma opt_code_eqb_spec : forall a b, reflect (a = b) (opt_code_eqb a b).
Proof.
  intros [| |x] [| |y]; cbn; try (constructor; congruence).
  destruct (N.eqb_spec x y); constructor; congruence.
Qed.
Lemma msg_key_eqb_spec : forall a b, reflect (a = b) (msg_key_eqb a b).
Proof. apply pair_eqb_spec; apply N.eqb_spec. Qed.

(* ---- options ---- *)
Lemma opt_write_len kv : canonical_opt kv = true -> opt_len (snd kv) <= 255 ->
  blen (opt_write (snd kv)) = opt_len (snd kv).
Proof.
  destruct kv as [k [n l|v|t v]]; cbn [snd opt_write opt_len]; intros _ H;
  rewrite ?blen_app, ?be_enc_blen, ?blen_cons, ?blen_nil; lia.
Qed.
Lemma opt_write_nonempty o : opt_write o <> [].
Proof. destruct o; discriminate. Qed.

Lemma seg_word n (l : bool) : n < 32768 ->
  N.lor (as_u16 (N.shiftl n 1)) (if l then 1 else 0) = 2 * n + (if l then 1 else 0).
Proof.
  intros H. rewrite shiftl_mul. unfold as_u16. rewrite N.mod_small by (change (2 ^ 1) with 2; lia).
  rewrite lor_disjoint by (destruct l; cbn; lia). change (2 ^ 1) with 2. lia.
Qed.
Lemma seg_number high low : high < 256 -> low < 256 ->
  N.lor (as_u16 (N.shiftl high 7)) (N.shiftr low 1) = high * 128 + low / 2.
Proof.
  intros Hh Hl. rewrite shiftl_mul, shiftr_div. unfold as_u16.
  change (2 ^ 1) with 2.
  rewrite N.mod_small by (change (2 ^ 7) with 128; lia).
  rewrite lor_disjoint by (change (2 ^ 7) with 128; lia). reflexivity.
Qed.

Lemma opt_parses k o : canonical_opt (k, o) = true -> opt_len o <= 255 ->
  parses opt_parse (opt_write o) o.
Proof.
  unfold canonical_opt; cbn [fst snd]. intros Hc Hl.
  apply andb_true_iff in Hc as [_ Hc].
  unfold opt_parse.
  destruct o as [n l|v|t v]; cbn [opt_write opt_len] in *.
  - rewrite seg_word by lia.
    set (w := 2 * n + (if l then 1 else 0)) in *.
    assert (Hw : w < 65536) by (subst w; destruct l; lia).
    rewrite be_enc_2. change ([1; 4] ++ [(w / 256) mod 256; w mod 256])
      with ([1] ++ [4] ++ [(w / 256) mod 256; w mod 256]).
    eapply parses_bind; [apply parses_map_err, parses_u8|].
    eapply parses_bind; [apply parses_map_err, parses_u8|].
    cbn [N.ltb]. change (4 <? 2) with false. cbv iota.
    eapply parses_bind_ret; [apply parses_map_err, parses_bytes; reflexivity|].
    cbv iota. unfold rnew.
    replace (OSegment n l) with
      (OSegment (N.lor (as_u16 (N.shiftl ((w / 256) mod 256) 7)) (N.shiftr (w mod 256) 1))
                (negb (N.land (w mod 256) 1 =? 0))).
    2:{ rewrite seg_number by lia. rewrite land_1. subst w. f_equal; [destruct l; lia|].
        destruct l; lia. }
    apply parses_on_sub.
    change [(w / 256) mod 256; w mod 256] with ([(w / 256) mod 256] ++ [w mod 256]).
    eapply parses_end_bind; [apply parses_map_err, parses_u8|].
    eapply parses_to_end, parses_bind_ret; [apply parses_map_err, parses_u8|].
    apply parses_ret.
  - unfold as_u8. rewrite (N.mod_small (blen v)) by lia. rewrite N.mod_small by lia.
    change ([2; blen v + 2] ++ v) with ([2] ++ [blen v + 2] ++ v).
    eapply parses_bind; [apply parses_map_err, parses_u8|].
    eapply parses_bind; [apply parses_map_err, parses_u8|].
    replace (blen v + 2 <? 2) with false by lia.
    eapply parses_bind_ret; [apply parses_map_err, parses_bytes; lia|]. apply parses_ret.
  - unfold as_u8. rewrite (N.mod_small (blen v)) by lia. rewrite N.mod_small by lia.
    change ([t; blen v + 2] ++ v) with ([t] ++ [blen v + 2] ++ v).
    eapply parses_bind; [apply parses_map_err, parses_u8|].
    eapply parses_bind; [apply parses_map_err, parses_u8|].
    replace (blen v + 2 <? 2) with false by lia.
    eapply parses_bind_ret; [apply parses_map_err, parses_bytes; lia|].
    destruct t as [|[[p|p|]|[p|p|]|]]; try apply parses_ret; cbn in Hc; discriminate.
Qed.

Lemma opts_len_ge m kv : In kv m -> opt_len (snd kv) <= opts_len m.
Proof.
  induction m as [|x m IH]; cbn; [tauto|]. fold (opts_len m). intros [->|H]; [lia|].
  apply IH in H. lia.
Qed.
Lemma opts_write_len m : forallb canonical_opt m = true -> opts_len m <= 255 ->
  blen (flat_map (fun kv => opt_write (snd kv)) m) = opts_len m.
Proof.
  induction m as [|x m IH]; cbn [flat_map forallb]; intros Hc Hl; [reflexivity|].
  apply andb_true_iff in Hc as [Hx Hm].
  change (opts_len (x :: m)) with (opt_len (snd x) + opts_len m) in *.
  rewrite blen_app, IH, opt_write_len; lia || assumption.
Qed.

Lemma opts_collect_canonical m : forallb canonical_opt m = true -> NoDup (map fst m) ->
  opts_collect (map snd m) = m.
Proof.
  intros Hc Hn. unfold opts_collect.
  assert (H : forall acc, NoDup (map fst (acc ++ m)) ->
     fold_left (fun m o => mset opt_code_eqb (opt_code_of o) o m) (map snd m) acc = acc ++ m).
  { clear Hn. revert Hc. induction m as [|[k o] m IH]; intros Hc acc Hn; cbn [map fold_left].
    - now rewrite app_nil_r.
    - cbn [forallb] in Hc. apply andb_true_iff in Hc as [Hx Hm].
      unfold canonical_opt in Hx. cbn [fst snd] in *. apply andb_true_iff in Hx as [Hx _].
      destruct (opt_code_eqb_spec k (opt_code_of o)) as [Hk|]; [|discriminate]. rewrite <- Hk.
      rewrite mset_fresh.
      + rewrite IH; [now rewrite <- app_assoc|assumption|now rewrite <- app_assoc].
      + apply opt_code_eqb_spec.
      + rewrite map_app in Hn. cbn in Hn. apply NoDup_remove_2 in Hn.
        intros Hi. apply Hn. apply in_or_app. left. exact Hi. }
  rewrite H; [reflexivity|exact Hn].
Qed.

Lemma opts_parse m : forallb canonical_opt m = true -> opts_len m <= 255 ->
  parses_end (many_all opt_parse) (flat_map (fun kv => opt_write (snd kv)) m) (map snd m).
Proof.
  intros Hc Hl.
  replace (flat_map (fun kv => opt_write (snd kv)) m) with (flat_map opt_write (map snd m)).
  2:{ clear. induction m as [|x m IH]; cbn; [reflexivity|]. now rewrite IH. }
  apply parses_many_all. intros o Ho. apply in_map_iff in Ho as [[k o'] [E Ho]]. cbn in E; subst o'.
  split; [|apply opt_write_nonempty].
  apply (opt_parses k).
  - rewrite forallb_forall in Hc. now apply Hc.
  - apply opts_len_ge in Ho. cbn in Ho. lia.
Qed.

(* ---- first octet ---- *)
Definition first_octet (m : media_type) : N :=
  let first_byte := N.shiftl 1 5 in
  let first_byte := if mt_is_private m then N.lor first_byte 16 else first_byte in
  N.lor first_byte (mt_to_u8 m).

Lemma lt16_cases v : v < 16 -> In v (map N.of_nat (seq 0 16)).
Proof. intros H. apply in_map_iff. exists (N.to_nat v). split; [lia|apply in_seq; lia]. Qed.
Lemma first_octet_spec m : canonical_media m = true ->
  first_octet m < 256 /\
  N.land (N.shiftr (first_octet m) 5) 7 = 1 /\
  mt_from_wire (N.land (first_octet m) 15) (negb (N.land (first_octet m) 16 =? 0)) = m.
Proof.
  destruct m as [| | | |v|v]; cbn [canonical_media]; intros H;
    try (vm_compute; auto; fail).
  - assert (Hv : In v (map N.of_nat (seq 0 16))) by (apply lt16_cases; lia).
    vm_compute in Hv. 
    repeat (destruct Hv as [<-|Hv]; [first [discriminate H | vm_compute; auto]|]). destruct Hv.
  - assert (Hv : In v (map N.of_nat (seq 0 16))) by (apply lt16_cases; lia).
    vm_compute in Hv. 
    repeat (destruct Hv as [<-|Hv]; [first [discriminate H | vm_compute; auto]|]). destruct Hv.
Qed.

(* ---- packet round trip ---- *)
Lemma first_word_split fb hl ml rest : fb < 256 -> hl < 256 -> ml < 65536 ->
  let w := be_val (take 4 ([fb; hl] ++ be_enc 2 ml ++ rest)) in
  N.land w 65535 = ml /\ N.shiftr (N.land w 16711680) 16 = hl.
Proof.
  intros Hf Hh Hm. rewrite app_assoc.
  rewrite take_app_exact by (rewrite blen_app, be_enc_blen; reflexivity).
  rewrite be_val_app, be_val_enc by (cbn; lia). rewrite be_enc_blen. change (256 ^ N.of_nat 2) with 65536.
  rewrite !be_val_cons, be_val_nil. change (256 ^ blen [hl]) with 256. change (256 ^ blen (@nil N)) with 1.
  cbv zeta. rewrite N.shiftr_land, land_65535.
  change (N.shiftr 16711680 16) with 255. rewrite land_255, shiftr_div. change (2 ^ 16) with 65536.
  lia.
Qed.

Lemma header_parses p bs : canonical p -> packet_write p = Ok bs ->
  exists hd, bs = hd ++ p_payload p /\ blen hd = 12 + opts_len (p_options p) /\
  forall rest off,
    header_parse (mkR (hd ++ rest) off) =
    (mkR rest (off + blen hd),
     Ok (mkHdr (p_media p) (p_publisher p) (p_message p) (p_options p) (blen (p_payload p)))).
Proof.
  intros [Hmt [Hp [Hm [Ho [Hn Hpl]]]]] Hw. unfold packet_write in Hw.
  fold (first_octet (p_media p)) in Hw.
  destruct (255 <? 12 + opts_len (p_options p)) eqn:H1; [discriminate|].
  destruct (65535 <? 12 + opts_len (p_options p) + blen (p_payload p)) eqn:H2; [discriminate|].
  set (hl := 12 + opts_len (p_options p)) in *.
  set (ml := hl + blen (p_payload p)) in *.
  unfold as_u8, as_u16 in Hw. rewrite !N.mod_small in Hw by lia.
  set (ob := flat_map (fun kv => opt_write (snd kv)) (p_options p)) in *.
  assert (Hob : blen ob = opts_len (p_options p)) by (apply opts_write_len; [assumption|lia]).
  exists ([first_octet (p_media p); hl] ++ be_enc 2 ml ++ be_enc 4 (p_publisher p) ++ be_enc 4 (p_message p) ++ ob).
  injection Hw as <-. split; [now rewrite <- !app_assoc|].
  split; [rewrite !blen_app, !be_enc_blen, Hob, !blen_cons, blen_nil; subst hl; lia|].
  intros rest off.
  destruct (first_octet_spec _ Hmt) as [Hf [Hv Hmed]].
  unfold header_parse, bind at 1, get_reader.
  unfold remaining; cbn [rbuf roff].
  set (inner := be_enc 2 ml ++ be_enc 4 (p_publisher p) ++ be_enc 4 (p_message p) ++ ob).
  assert (Hin : blen inner = hl - 2).
  { subst inner. rewrite !blen_app, !be_enc_blen, Hob. subst hl; lia. }
  assert (Hlen : blen (([first_octet (p_media p); hl] ++ inner) ++ rest) = hl + blen rest).
  { rewrite !blen_app, Hin, !blen_cons, blen_nil. subst hl; lia. }
  rewrite Hlen. replace (hl + blen rest <? 12) with false by lia.
  unfold bind at 1. unfold pmap_err at 1. unfold peek_be at 1. cbn [rbuf roff]. rewrite Hlen.
  replace (hl + blen rest <? 4) with false by lia. cbn [map_err].
  destruct (first_word_split (first_octet (p_media p)) hl ml
             (be_enc 4 (p_publisher p) ++ be_enc 4 (p_message p) ++ ob ++ rest) Hf ltac:(lia) ltac:(lia)) as [Hw1 Hw2].
  subst inner. rewrite <- !app_assoc. cbv zeta in Hw1, Hw2.
  rewrite Hw1, Hw2. replace (ml <? hl) with false by lia.
  cbn [app]. unfold bind at 1, pmap_err at 1, read_u8 at 1. cbn [rbuf roff map_err].
  rewrite Hv. change (negb (1 =? 1)) with false. cbv iota. rewrite Hmed.
  unfold bind at 1, pmap_err at 1, read_u8 at 1. cbn [rbuf roff map_err].
  replace (hl <? 2) with false by lia.
  unfold bind at 1, get_reader. unfold remaining; cbn [rbuf roff].
  set (inner := be_enc 2 ml ++ be_enc 4 (p_publisher p) ++ be_enc 4 (p_message p) ++ ob) in *.
  replace (be_enc 2 ml ++ be_enc 4 (p_publisher p) ++ be_enc 4 (p_message p) ++ ob ++ rest)
    with (inner ++ rest) by (subst inner; now rewrite <- !app_assoc).
  rewrite blen_app, Hin. replace (hl - 2 + blen rest <? hl - 2) with false by lia.
  assert (Hsub : parses (do header_buf <- pmap_err UParse (take_slice (hl - 2));;
     on_sub header_buf
    (do_ pmap_err UParse read_u16;;
     do publisher_id <- pmap_err UParse read_u32;;
     do message_id <- pmap_err UParse read_u32;;
     do os <- many_all opt_parse;;
     ret (mkHdr (p_media p) publisher_id message_id (opts_collect os) (ml - hl))))
     (inner ++ []) (mkHdr (p_media p) (p_publisher p) (p_message p) (p_options p) (blen (p_payload p)))).
  { apply parses_slice; [now rewrite Hin|]. intros off'. apply parses_on_sub. subst inner.
    eapply parses_end_bind; [apply parses_map_err, parses_u16; lia|].
    eapply parses_end_bind; [apply parses_map_err, parses_u32; exact Hp|].
    eapply parses_end_bind; [apply parses_map_err, parses_u32; exact Hm|].
    eapply parses_end_bind'; [apply opts_parse; [assumption|lia]|].
    rewrite opts_collect_canonical by assumption.
    replace (ml - hl) with (blen (p_payload p)) by (subst ml; lia). apply parses_ret. }
  rewrite app_nil_r in Hsub. rewrite Hsub. f_equal. f_equal.
  rewrite !blen_cons, Hin. lia.
Qed.

Lemma packet_write_len p bs : canonical p -> packet_write p = Ok bs -> blen bs = packet_len p.
Proof.
  intros Hc Hw. destruct (header_parses p bs Hc Hw) as [hd [-> [Hl _]]].
  rewrite blen_app, Hl. unfold packet_len. lia.
Qed.
Lemma packet_roundtrip p bs : canonical p -> packet_write p = Ok bs -> parses packet_parse bs p.
Proof.
  intros Hc Hw. destruct (header_parses p bs Hc Hw) as [hd [-> [Hl Hh]]].
  unfold packet_parse. eapply parses_bind; [exact Hh|].
  eapply parses_bind_ret; [apply parses_map_err, parses_bytes; reflexivity|].
  cbn [h_media h_publisher h_message h_options]. destruct p; apply parses_ret.
Qed.
Lemma packet_from_bytes_roundtrip p bs rest : canonical p -> packet_write p = Ok bs ->
  packet_from_bytes (bs ++ rest) = Ok p.
Proof.
  intros Hc Hw. destruct (header_parses p bs Hc Hw) as [hd [-> [Hl Hh]]].
  unfold packet_from_bytes, rnew. rewrite <- app_assoc, Hh. cbn [roff h_payload_len h_media h_publisher h_message h_options].
  rewrite !blen_app. replace (blen hd + (blen (p_payload p) + blen rest) <? 0 + blen hd + blen (p_payload p)) with false by lia.
  rewrite drop_app_exact by lia. rewrite take_app_exact by reflexivity. destruct p; reflexivity.
Qed.
Lemma packet_write_outcome p :
  (12 + opts_len (p_options p) <= 255 /\ packet_len p <= 65535 /\ exists bs, packet_write p = Ok bs) \/
  (255 < 12 + opts_len (p_options p) /\ packet_write p = Err (WInvalidHeaderLength (12 + opts_len (p_options p)))) \/
  (12 + opts_len (p_options p) <= 255 /\ 65535 < packet_len p /\ packet_write p = Err (WInvalidMessageLength (packet_len p))).
Proof.
  unfold packet_write, packet_len.
  destruct (255 <? 12 + opts_len (p_options p)) eqn:H1.
  - right; left; split; [lia|reflexivity].
  - destruct (65535 <? 12 + opts_len (p_options p) + blen (p_payload p)) eqn:H2.
    + right; right. split; [lia|]. split; [lia|reflexivity].
    + left. split; [lia|]. split; [lia|]. eexists; reflexivity.
Qed.

(* ---- whatever the parser accepts is canonical ---- *)
Lemma opt_parse_canonical r r' o : bytes_ok (rbuf r) = true -> opt_parse r = (r', Ok o) ->
  canonical_opt (opt_code_of o, o) = true /\ bytes_ok (rbuf r') = true.
Proof.
  intros Hok H. unfold opt_parse in H. pinv.
  destruct (_ <? 2) eqn:Hl in H; pinv.
  match goal with H1 : read_u8 r = (?r1, Ok ?t), H2 : read_u8 ?r1 = (?r2, Ok ?l), H3 : read_bytes _ ?r2 = (?r3, Ok ?v) |- _ =>
    apply read_u8_ok in H1 as [E1 _]; apply read_u8_ok in H2 as [E2 _]; apply read_bytes_ok_inv in H3 as [E3 _];
    rewrite E1, E2, E3 in Hok; rewrite !bytes_ok_cons, bytes_ok_app in Hok; rename t into typ; rename v into val
  end.
  apply andb_true_iff in Hok as [Ht Hok]. apply andb_true_iff in Hok as [Hx Hok]. apply andb_true_iff in Hok as [Hv Hok].
  assert (Heq : forall t, opt_code_eqb (CUnknown t) (CUnknown t) = true) by (intros; apply N.eqb_refl).
  unfold canonical_opt; cbn [fst snd].
  assert (Hunk : forall t, typ = t -> t <> 1 -> t <> 2 -> @ret udp_parse_err _ (OUnknown t val) x4 = (r', Ok o) ->
    opt_code_eqb (opt_code_of o) (opt_code_of o) && match o with
     | OSegment n _ => n <? 32768 | OPrivate v => bytes_ok v
     | OUnknown t v => (t <? 256) && negb (t =? 1) && negb (t =? 2) && bytes_ok v end = true /\ bytes_ok (rbuf r') = true).
  { intros t Et Hn1 Hn2 Hr. apply ret_ok in Hr as [-> ->]. cbn [opt_code_of]. rewrite Heq. split; [|exact Hok]. rewrite Hv. cbn [andb]. rewrite andb_true_r. subst t. lia. }
  destruct typ as [|[[p|p|]|[p|p|]|]]; try (eapply Hunk; [reflexivity|lia|lia|exact H]).
  - apply ret_ok in H as [-> ->]. cbn. auto.
  - apply on_sub_ok in H as [-> [s' H]]. pinv.
    match goal with H1 : read_u8 _ = (_, Ok ?hi), H2 : read_u8 _ = (_, Ok ?lo) |- _ =>
      apply read_u8_ok in H1 as [E4 _]; apply read_u8_ok in H2 as [E5 _]; rename hi into high; rename lo into low end.
    cbn [rnew rbuf] in E4. rewrite E4, E5, !bytes_ok_cons in Hv.
    cbn [opt_code_of opt_code_eqb andb]. rewrite seg_number by lia. split; [|exact Hok]. lia.
Qed.

Lemma opts_collect_wf os : Forall (fun o => canonical_opt (opt_code_of o, o) = true) os ->
  forallb canonical_opt (opts_collect os) = true /\ NoDup (map fst (opts_collect os)).
Proof.
  unfold opts_collect. intros Hf.
  assert (H : forall acc, forallb canonical_opt acc = true -> NoDup (map fst acc) ->
    forallb canonical_opt (fold_left (fun m o => mset opt_code_eqb (opt_code_of o) o m) os acc) = true /\
    NoDup (map fst (fold_left (fun m o => mset opt_code_eqb (opt_code_of o) o m) os acc))).
  { induction Hf as [|o os Ho Hos IH]; intros acc Ha Hn; cbn [fold_left]; [auto|].
    apply IH.
    - clear IH Hn. induction acc as [|[k v] acc IHa]; cbn [mset].
      + cbn [forallb]. now rewrite Ho.
      + cbn [forallb] in Ha. apply andb_true_iff in Ha as [H1 H2].
        destruct (opt_code_eqb_spec (opt_code_of o) k) as [E|E]; cbn [forallb].
        * rewrite H2, <- E, Ho. reflexivity.
        * rewrite H1, IHa by assumption. reflexivity.
    - now apply (NoDup_mset _ opt_code_eqb_spec). }
  apply H; [reflexivity|constructor].
Qed.

Lemma hd_media fb : fb < 256 ->
  canonical_media (mt_from_wire (N.land fb 15) (negb (N.land fb 16 =? 0))) = true.
Proof.
  intros H. rewrite land_15. unfold mt_from_wire.
  assert (Hm : fb mod 16 < 16) by lia. set (v := fb mod 16) in *. clearbody v.
  destruct (negb _); [cbn [canonical_media]; lia|].
  destruct v as [|[[p|p|]|[p|p|]|]]; cbn [canonical_media]; try reflexivity; lia.
Qed.

Lemma header_parse_inv r r' h : bytes_ok (rbuf r) = true -> header_parse r = (r', Ok h) ->
  exists fb hl b2 b3 rest, rbuf r = fb :: hl :: b2 :: b3 :: rest /\
    hl <= be_val [b2; b3] /\ 12 <= hl /\ hl <= blen (rbuf r) /\
    rbuf r' = drop hl (rbuf r) /\ roff r' = roff r + hl /\
    h_payload_len h = be_val [b2; b3] - hl /\
    canonical_media (h_media h) = true /\ h_publisher h < 2 ^ 32 /\ h_message h < 2 ^ 32 /\
    forallb canonical_opt (h_options h) = true /\ NoDup (map fst (h_options h)).
Proof.
  intros Hok H. unfold header_parse in H. 
  apply bind_ok in H as [cur [r0 [H0 H]]]. apply get_reader_ok in H0 as [-> ->].
  destruct (remaining r <? 12) eqn:Hr in H; [pinv|].
  unfold remaining in Hr.
  apply bind_ok in H as [w [r0 [H0 H]]]. apply map_err_ok, peek_be_ok in H0 as [-> [Hp4 ->]].
  destruct (rbuf r) as [|fb [|hl [|b2 [|b3 rest]]]] eqn:Hbuf; rewrite ?blen_cons, ?blen_nil in *; try lia.
  change (take 4 (fb :: hl :: b2 :: b3 :: rest)) with [fb; hl; b2; b3] in *.
  rewrite !bytes_ok_cons in Hok.
  assert (Hw := first_word_split fb hl (be_val [b2; b3]) []).
  assert (Hml : be_enc 2 (be_val [b2; b3]) = [b2; b3]) by (apply (be_enc_val [b2; b3]); cbn; unfold byte_ok; lia).
  rewrite Hml in Hw. cbn [app] in Hw. change (take 4 [fb; hl; b2; b3]) with [fb; hl; b2; b3] in Hw.
  assert (Hb : be_val [b2; b3] < 65536) by (change 65536 with (256 ^ blen [b2; b3]); apply be_val_bound; cbn; unfold byte_ok; lia).
  specialize (Hw ltac:(lia) ltac:(lia) Hb). cbv zeta in Hw, H. destruct Hw as [Hw1 Hw2].
  rewrite Hw1, Hw2 in H. set (ml := be_val [b2; b3]) in *.
  destruct (ml <? hl) eqn:Hlt in H; [pinv|].
  apply bind_ok in H as [v0 [r1 [H0 H]]]. apply map_err_ok, read_u8_ok in H0 as [E1 O1].
  rewrite Hbuf in E1. injection E1 as <- E1.
  destruct (negb (N.land (N.shiftr fb 5) 7 =? 1)) eqn:Hver in H; [pinv|].
  apply bind_ok in H as [v0 [r2 [H0 H]]]. apply map_err_ok, read_u8_ok in H0 as [E2 O2].
  rewrite <- E1 in E2. injection E2 as <- E2.
  destruct (hl <? 2) eqn:Hl2 in H; [pinv|].
  apply bind_ok in H as [v0 [r3 [H0 H]]]. apply get_reader_ok in H0 as [-> ->].
  destruct (remaining r2 <? hl - 2) eqn:Hrem in H; [pinv|].
  apply bind_ok in H as [sub [r4 [H0 H]]]. apply map_err_ok, take_slice_ok in H0 as [E3 [O3 [L3 _]]].
  apply on_sub_ok in H as [-> [s' H]].
  apply bind_ok in H as [v1 [s1 [H1 H]]]. apply map_err_ok, read_be_ok in H1 as [c1 [F1 [_ [L1 _]]]].
  apply bind_ok in H as [v2 [s2 [H2 H]]]. apply map_err_ok, read_be_ok in H2 as [c2 [F2 [_ [L2 V2]]]].
  apply bind_ok in H as [v3 [s3 [H3 H]]]. apply map_err_ok, read_be_ok in H3 as [c3 [F3 [_ [LL3 V3]]]].
  apply bind_ok in H as [os [s4 [H4 H]]]. apply ret_ok in H as [-> ->].
  cbn [h_payload_len h_media h_publisher h_message h_options].
  unfold remaining in Hrem. rewrite <- E2 in Hrem, E3.
  assert (Hsub : bytes_ok (b2 :: b3 :: rest) = true).
  { apply andb_true_iff in Hok as [_ Hok]. apply andb_true_iff in Hok as [_ Hok]. rewrite !bytes_ok_cons. exact Hok. }
  rewrite E3, F1, F2, F3, !bytes_ok_app in Hsub.
  apply andb_true_iff in Hsub as [Hsub _]. apply andb_true_iff in Hsub as [Hs1 Hsub].
  apply andb_true_iff in Hsub as [Hs2 Hsub]. apply andb_true_iff in Hsub as [Hs3 Hs4].
  assert (Hc2 : be_val c2 < 256 ^ blen c2) by (apply be_val_bound; assumption).
  assert (Hc3 : be_val c3 < 256 ^ blen c3) by (apply be_val_bound; assumption).
  rewrite L2 in Hc2. rewrite LL3 in Hc3. change (256 ^ 4) with (2 ^ 32) in *.
  assert (Hsubl : 10 <= blen (rbuf sub)) by (rewrite F1, F2, F3, !blen_app; lia).
  assert (Hall : fb :: hl :: b2 :: b3 :: rest = ([fb; hl] ++ rbuf sub) ++ rbuf r4) by (cbn [app]; now rewrite E3).
  unfold many_all in H4.
  eapply (many_ok opt_parse (fun o => canonical_opt (opt_code_of o, o) = true) (fun r => bytes_ok (rbuf r) = true)) in H4;
    [|intros ? ? ? ? ?; eapply opt_parse_canonical; eassumption|assumption].
  destruct H4 as [H4 _]. apply opts_collect_wf in H4 as [Ho Hn].
  exists fb, hl, b2, b3, rest. split; [reflexivity|]. split; [lia|]. split; [lia|].
  split; [apply (f_equal blen) in Hall; rewrite !blen_app, !blen_cons, blen_nil in Hall; lia|].
  split; [rewrite Hall, drop_app_exact; [reflexivity|rewrite !blen_app, !blen_cons, blen_nil; lia]|].
  split; [lia|]. split; [reflexivity|]. split; [apply hd_media; lia|].
  subst v2 v3. auto.
Qed.

Lemma safe_opt_parse : safe opt_parse.
Proof. unfold opt_parse. psafe. Qed.
Lemma strict_opt_parse : strict opt_parse.
Proof. unfold opt_parse. apply strict_bind_l; [apply strict_map_err, strict_u8|intros; psafe]. Qed.
Lemma safe_header_parse : safe header_parse.
Proof. unfold header_parse. psafe; first [apply safe_opt_parse|apply strict_opt_parse]. Qed.
