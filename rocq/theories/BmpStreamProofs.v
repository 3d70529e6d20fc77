(* Whole BMP streams; what messages leave alone. *)
From Verif Require Import Base BaseLemmas MapLib AfModel FramingModel FramingProofs BgpCapModel BgpCapSpec BgpCapProofs BgpFrameModel
  BgpFrameSpec BgpFrameProofs BgpNlriModel BgpNlriSpec BgpAttrModel BgpAttrSpec BgpAttrProofs BgpMsgModel BgpMsgSpec BgpMsgProofs
  BmpModel BmpSpec BmpFrameProofs BmpCtxProofs BmpRoundProofs.
From Coq Require Import Lia ZifyBool ZifyN ZifyNat.

(* ---- a stream of written messages ---- *)
Definition tracks (m : bmpctx) (evs : list event) : Prop :=
  forall h t, (Forall (speaks_for_itself h) evs -> tracks_label h t m evs) /\
    (Forall (speaks_for_itself h) evs -> Forall (up_direction (adj_rib_out h) h) evs -> tracks_ap (adj_rib_out h) h t m evs).
Lemma app_event_cons msg evs : app_event msg evs = match event_of msg with Some e => e :: evs | None => evs end.
Proof. reflexivity. Qed.
Lemma tracks_next msg m evs : tracks m evs -> tracks (ctx_update msg m) (app_event msg evs).
Proof.
  intros H h t. destruct (H h t) as [H1 H2].
  assert (Hs : forall P : event -> Prop, Forall P (app_event msg evs) -> Forall P evs /\ forall e, event_of msg = Some e -> P e).
  { intros P HP. unfold app_event in HP. destruct (event_of msg); [inversion HP; subst; split; [assumption|congruence]|split; [exact HP|discriminate]]. }
  split.
  - intros Ha. destruct (Hs _ Ha). apply tracks_label_step; auto.
  - intros Ha Hb. destruct (Hs _ Ha), (Hs _ Hb). apply tracks_step; auto.
Qed.
Lemma tracks_kept m m' evs : same_settings m m' -> tracks m evs -> tracks m' evs.
Proof.
  intros Hs H h t. destruct (H h t) as [H1 H2]. split; intros.
  - eapply tracks_label_same; eauto.
  - eapply tracks_same; eauto.
Qed.
Lemma fits_own_header x m h : header_of m = Some h -> bmp_fits (fun _ => x h) m -> bmp_fits x m.
Proof. destruct m as [| |[| | | | |]| | |[| | | | |]]; cbn [header_of]; intros Hh H; try discriminate; injection Hh as <-; exact H. Qed.
Lemma fits_after_now k evs m : tracks (bk_ctx k) evs -> fits_after evs m -> bmp_fits (reads k) m.
Proof.
  unfold fits_after. intros Ht. destruct (header_of m) as [h|] eqn:Hh; [|intros H; apply H]. intros (H1 & H2 & H).
  apply (fits_own_header _ _ h Hh). apply H; [reflexivity|]. split; intros t; apply (Ht h t); assumption.
Qed.
Lemma bmp_stream ms : forall k evs b, bk_in k = false -> tracks (bk_ctx k) evs -> bmp_stream_fits evs ms -> bmp_written ms b ->
  forall fuel, (length b < fuel)%nat -> exists k', drain_fuel bmp_decode fuel k b = (k', [], map DItem ms, Waiting) /\ bk_in k' = false.
Proof.
  induction ms as [|m ms IH]; intros k evs b Hk Ht Hf Hw fuel Hfl; cbn [bmp_written bmp_stream_fits map] in *.
  - subst b. destruct fuel as [|f]; [cbn in Hfl; lia|]. cbn [drain_fuel]. exists k.
    split; [|exact Hk]. unfold bmp_decode. rewrite Hk. reflexivity.
  - destruct Hw as (b1 & b2 & Hw & Hw2 & ->). destruct Hf as [Hm Hf].
    destruct (bmp_round k m Hk (fits_after_now k evs m Ht Hm)) as (b' & Hw' & Hl & Hd). rewrite Hw in Hw'. apply Ok_inj in Hw'. subst b'.
    destruct (Hd b2) as [m' Hm']. destruct fuel as [|f]; [lia|]. cbn [drain_fuel]. rewrite Hm'. cbn [is_none halts].
    destruct (bmp_decode_ctx _ _ _ _ _ Hm') as (m2 & Hs & Hk'). cbn [bk_ctx] in Hk'.
    destruct (IH (mkBmp false (ctx_update m m')) (app_event m evs) b2) with (fuel := f) as (k' & Hdr & Hk2); try assumption.
    + reflexivity.
    + cbn [bk_ctx]. rewrite Hk'. apply tracks_next. eapply tracks_kept; eauto.
    + assert (5 <= blen b1) by (rewrite Hl; unfold bmp_len; lia). unfold blen in H. rewrite app_length in Hfl. lia.
    + exists k'. rewrite Hdr. split; [reflexivity|exact Hk2].
Qed.
Lemma tracks_new : tracks [] [].
Proof. intros h t. split; intros; reflexivity. Qed.
Lemma bmp_stream_chunks ms b xs : bmp_stream_fits [] ms -> bmp_written ms b -> concat xs = b ->
  let c := feed_all bmp_decode (conn_new bmp_default) xs in
  c_out c = map DItem ms /\ c_buf c = [] /\ c_status c = Waiting.
Proof.
  intros Hf Hw Hx. cbv zeta. rewrite bmp_feed_all by apply (fresh_settled bmp_default eq_refl). rewrite Hx.
  unfold feed. cbn [c_status conn_new c_buf c_st c_out app]. unfold drain.
  destruct (bmp_stream ms bmp_default [] b eq_refl tracks_new Hf Hw (S (length b))) as (k' & Hd & _); [lia|].
  rewrite Hd. repeat split.
Qed.
Lemma stream_writable ms : forall k evs, bk_in k = false -> tracks (bk_ctx k) evs -> bmp_stream_fits evs ms -> exists b, bmp_written ms b.
Proof.
  induction ms as [|m ms IH]; intros k evs Hk Ht Hf; [exists []; reflexivity|]. destruct Hf as [Hm Hf].
  destruct (bmp_round k m Hk (fits_after_now k evs m Ht Hm)) as (b' & Hw' & Hl & Hd). destruct (Hd []) as [m' Hm'].
  destruct (bmp_decode_ctx _ _ _ _ _ Hm') as (m2 & Hs & Hk'). cbn [bk_ctx] in Hk'.
  destruct (IH (mkBmp false (ctx_update m m')) (app_event m evs)) as [b2 Hb2]; [reflexivity| |exact Hf|].
  - cbn [bk_ctx]. rewrite Hk'. apply tracks_next. eapply tracks_kept; eauto.
  - exists (b' ++ b2). exists b', b2. auto.
Qed.

(* ---- whole frames ---- *)
Lemma whole_frame_step k f rest : bk_in k = false -> whole_frame f ->
  exists k' o, bmp_decode k (f ++ rest) = (k', rest, o) /\ o <> DNone /\ bk_in k' = false.
Proof.
  intros Hk (H5 & Hv & Hl).
  assert (Hi : bmp_inv k (f ++ rest)) by (intros Hx; congruence).
  destruct (bmp_decode_cases k (f ++ rest) Hi) as
    [(G5 & Gk & G)|[(G5 & Gv & G & Gk)|[(G5 & Gv & Gl & G)|[(G5 & Gv & Gl & Gw & G)|(G5 & Gv & Gl & G)]]]];
    rewrite ?first_app, ?frame_length_app, ?blen_app in * by lia; try congruence; try lia.
  rewrite G, Hl, take_app_exact, drop_app_exact by reflexivity. clear G.
  destruct (parse_bmp _ _) as [[m r] [msg|e| |]]; eexists _, _; (split; [reflexivity|split; [discriminate|reflexivity]]).
Qed.
Lemma frames_drain fs : forall k, bk_in k = false -> Forall whole_frame fs -> forall fuel, (length (concat fs) < fuel)%nat ->
  forall k' b' os st, drain_fuel (resume bmp_decode) fuel k (concat fs) = (k', b', os, st) -> ~ In DPanic os ->
  length os = length fs /\ b' = [] /\ st = Waiting.
Proof.
  induction fs as [|f fs IH]; intros k Hk Hf fuel Hfl k' b' os st Hd Hnp.
  - destruct fuel as [|fl]; [cbn in Hfl; lia|]. cbn [concat drain_fuel] in Hd. unfold resume, bmp_decode in Hd. rewrite Hk in Hd. cbn in Hd.
    injection Hd as <- <- <- <-. repeat split.
  - inversion Hf as [|? ? Hw Hf']; subst. cbn [concat] in *. destruct fuel as [|fl]; [lia|]. cbn [drain_fuel] in Hd.
    destruct (whole_frame_step k f (concat fs) Hk Hw) as (k1 & o & Hd1 & Hn & Hk1). unfold resume at 1 in Hd. rewrite Hd1 in Hd.
    assert (Hlen : (length (concat fs) < fl)%nat).
    { destruct Hw as (H5 & _). unfold blen in H5. rewrite app_length in Hfl. lia. }
    destruct o as [|m|e|]; [congruence| | |]; cbn [is_none halts] in Hd.
    3: { injection Hd as <- <- <- <-. exfalso. apply Hnp. left. reflexivity. }
    all: destruct (drain_fuel (resume bmp_decode) fl k1 (concat fs)) as [[[k2 b2] os2] st2] eqn:Hd2; injection Hd as <- <- <- <-;
      destruct (IH k1 Hk1 Hf' fl Hlen _ _ _ _ Hd2) as (H1 & H2 & H3); [intros Hx; apply Hnp; right; exact Hx|];
      cbn [length]; rewrite H1; repeat split; assumption.
Qed.
Lemma frames_chunks fs xs k : bk_in k = false -> Forall whole_frame fs -> concat xs = concat fs ->
  let c := feed_all (resume bmp_decode) (conn_new k) xs in
  ~ In DPanic (c_out c) -> length (c_out c) = length fs /\ c_buf c = [] /\ c_status c = Waiting.
Proof.
  intros Hk Hf Hx. cbv zeta. intros Hnp. destruct (feed_all_drain k xs Hk) as (st & Hd & Hst). rewrite Hx in Hd. unfold drain in Hd.
  destruct (frames_drain fs k Hk Hf _ (Nat.lt_succ_diag_r _) _ _ _ _ Hd Hnp) as (H1 & H2 & H3). rewrite Hst. auto.
Qed.

(* ---- what a step leaves alone ---- *)
Lemma knows_settings k k' h : widthless (peer_ctx (key_of h) (bk_ctx k')) = widthless (peer_ctx (key_of h) (bk_ctx k)) -> knows k' h = knows k h.
Proof. intros H. destruct (widthless_neg _ _ H) as [H1 H2]. unfold knows, reads. cbn [set_asn4 x_labels x_add_path]. now rewrite H1, H2. Qed.
Lemma quiet_step k b k' b' o : bmp_decode k b = (k', b', o) ->
  (forall m, o = DItem m -> event_of m = None) -> forall h, knows k' h = knows k h.
Proof.
  intros Hd Ho h. apply knows_settings. pose proof (bmp_decode_ctx _ _ _ _ _ Hd) as Hc. destruct o as [|m|e|]; try apply Hc.
  destruct Hc as (m' & Hs & ->). specialize (Ho m eq_refl). rewrite <- (Hs (key_of h)). f_equal. f_equal.
  destruct m as [| |[| | | | |]| | |[| | | | |]]; cbn [event_of ctx_update] in *; try discriminate; try reflexivity;
    unfold handle_peer_up; match goal with p : peer_up |- _ => destruct (pu_sent p); try reflexivity; destruct (pu_recv p); try reflexivity; discriminate end.
Qed.
Lemma other_peer_step k b k' b' m e : bmp_decode k b = (k', b', DItem m) -> event_of m = Some e ->
  forall h, ~ event_about e h -> speaks_for_itself h e -> knows k' h = knows k h.
Proof.
  intros Hd He h Hno Hs. apply knows_settings. destruct (bmp_decode_ctx _ _ _ _ _ Hd) as (m' & Hsm & ->).
  rewrite <- (Hsm (key_of h)). f_equal.
  assert (Hup : forall p, event_of (V3Common (CUp p)) = Some e -> peer_ctx (key_of h) (handle_peer_up p m') = peer_ctx (key_of h) m').
  { intros p Hp. cbn [event_of] in Hp. destruct (pu_sent p) as [so| | | |] eqn:Eso; try discriminate.
    destruct (pu_recv p) as [ro| | | |] eqn:Ero; try discriminate. injection Hp as <-.
    rewrite (up_ctx p so ro h m' Eso Ero Hs). cbv zeta. rewrite same_peer_eqb. cbn [event_about] in Hno.
    destruct (same_peer_dec (pu_hdr p) h); [contradiction|reflexivity]. }
  assert (Hdown : forall h0, e = EvDown h0 -> peer_ctx (key_of h) (mrem pkey_eqb (key_of h0) m') = peer_ctx (key_of h) m').
  { intros h0 ->. rewrite peer_ctx_mrem, same_peer_eqb. cbn [event_about] in Hno. destruct (same_peer_dec h0 h); [contradiction|reflexivity]. }
  destruct m as [| |[| | | | |]| | |[| | | | |]]; cbn [event_of ctx_update] in *; try discriminate;
    try (apply Hdown; congruence); try (apply Hup; exact He); injection He as <-; cbn [event_about] in Hno; exfalso; apply Hno, Logic.I.
Qed.

(* ---- AS number width ---- *)
Lemma pdu_width c r c' r' u : bgp_pdu c r = (c', r', Ok (MUpdate u)) -> as_paths_have_width (x_asn4 c) u.
Proof.
  unfold bgp_pdu. intros Hp. apply cmap_err_ok in Hp. unfold parse_bgp, parse_message in Hp.
  apply cbind_ok in Hp as (h & c1 & r1 & H1 & Hp). apply clift_ok in H1 as [-> _].
  destruct (negb _); [discriminate|].
  apply cbind_ok in Hp as ([[l t] sub] & c2 & r2 & H2 & Hp). apply clift_ok in H2 as [-> _].
  destruct (cmap_err BE_Body (parse_body t) c sub) as [[c3 r3] [m|e| |]] eqn:Hb; try discriminate.
  apply cmap_err_ok in Hb. destruct (ris_empty r3); [|discriminate]. inversion Hp; subst. clear Hp.
  destruct t; cbn [parse_body] in Hb.
  2:{ apply cbind_ok in Hb as (u' & c4 & r4 & H4 & Hb). apply cmap_err_ok in H4.
      unfold cret in Hb. inversion Hb; subst. eapply update_width; exact H4. }
  all: try (unfold cret in Hb; inversion Hb; fail).
  all: apply cbind_ok in Hb as (y & c4 & r4 & H4 & Hb); unfold cret in Hb; inversion Hb.
Qed.

Definition cinv {C E A} (S : C -> Prop) (p : cparser C E A) : Prop := forall c r, S c -> S (fst (fst (p c r))).
Lemma ci_ret {C E A} (S : C -> Prop) (x : A) : cinv S (@cret C E A x). Proof. intros c r H. exact H. Qed.
Lemma ci_fail {C E A} (S : C -> Prop) (e : E) : cinv S (@cfail C E A e). Proof. intros c r H. exact H. Qed.
Lemma ci_lift {C E A} (S : C -> Prop) (p : parser E A) : cinv S (clift p).
Proof. intros c r H. unfold clift. destruct (p r). exact H. Qed.
Lemma ci_bind {C E A B} (S : C -> Prop) (p : cparser C E A) (f : A -> cparser C E B) : cinv S p -> (forall x, cinv S (f x)) -> cinv S (cbind p f).
Proof.
  intros Hp Hf c r H. unfold cbind. specialize (Hp c r H). destruct (p c r) as [[c1 r1] [x|e| |]]; cbn [fst snd] in *; auto.
  apply Hf, Hp.
Qed.
Lemma ci_in_sub {C E A} (S : C -> Prop) (g : perr -> E) n (p : cparser C E A) : cinv S p -> cinv S (in_sub g n p).
Proof.
  intros Hp. unfold in_sub. apply ci_bind; [apply ci_lift|]. intros sub c r H. unfold con_sub. specialize (Hp c sub H).
  destruct (p c sub) as [[c1 r1] x]. exact Hp.
Qed.
Lemma ci_many {C E A} (S : C -> Prop) (p : cparser C E (option A)) : cinv S p -> forall fuel, cinv S (cmany fuel p).
Proof.
  intros Hp. induction fuel as [|f IH]; intros c r H; cbn [cmany]; destruct (ris_empty r); try exact H.
  apply (ci_bind S p); [exact Hp| |exact H]. intros o. apply ci_bind; [exact IH|intros; apply ci_ret].
Qed.
Lemma ci_rm_step out w : cinv (fun c : bctx * option reader => x_asn4 (fst c) = w) (rm_step out).
Proof.
  unfold rm_step. apply ci_bind; [apply ci_lift|intros t]. destruct (t =? 4).
  - repeat (apply ci_bind; [apply ci_lift|intros]). intros c r H. exact H.
  - assert (Hq : cinv (fun x => x_asn4 x = w) (parse_rm_tlv out)).
    { unfold parse_rm_tlv. repeat (apply ci_bind; [apply ci_lift|intros]). destruct (_ <? _); [apply ci_fail|]. apply ci_in_sub.
      destruct (_ =? _).
      { apply ci_bind; [apply ci_lift|]. intros cp c r H. cbn [fst snd]. destruct cp; exact H. }
      destruct (_ =? _); [apply ci_bind; [apply ci_lift|intros]; destruct (flag_set _ _); [apply ci_ret|apply ci_fail]|].
      destruct (_ =? _); [apply ci_bind; [apply ci_lift|intros]; destruct (negb _); [apply ci_fail|]; destruct (_ <? _); [apply ci_fail|apply ci_ret]|].
      destruct (_ =? _); apply ci_bind; try apply ci_lift; intros; apply ci_ret. }
    intros [x q] r H. cbn [fst snd] in *. specialize (Hq x r H). destruct (parse_rm_tlv out x r) as [[x' r'] v]. exact Hq.
Qed.
Lemma on_peer_ok {A} h (p : cparser bctx bmp_err A) m r m' r' x : on_peer h p m r = (m', r', Ok x) ->
  exists c', p (set_asn4 (is_asn4 h) (peer_ctx (key_of h) m)) r = (c', r', Ok x).
Proof. unfold on_peer. destruct (p _ r) as [[c' r1] v]. intros H. injection H as _ <- ->. eauto. Qed.
Lemma monitoring_width v m r m' r' x : parse_value v m r = (m', r', Ok x) ->
  match x with V3Monitoring h (MUpdate u) | V4Monitoring h (MUpdate u) _ => as_paths_have_width (is_asn4 h) u | _ => True end.
Proof.
  unfold parse_value. intros H. apply cbind_ok in H as (code & m1 & r1 & H1 & H).
  destruct (code =? 0); [destruct (v =? 3)|destruct (code =? 2); [destruct (v =? 3)|]].
  - unfold parse_monitoring3 in H. apply cbind_ok in H as (h & m2 & r2 & H2 & H).
    apply cbind_ok in H as (u & m3 & r3 & H3 & H). apply on_peer_ok in H3 as [c' H3].
    destruct u as [o|u|n| |rr]; cbn [msg_type] in H; unfold cret, cfail in H; inversion H; subst. apply (pdu_width _ _ _ _ _ H3).
  - unfold parse_monitoring4 in H. apply cbind_ok in H as (h & m2 & r2 & H2 & H). apply on_peer_ok in H as [c' H].
    set (y := set_asn4 _ _) in H. destruct (rm_body h y r2) as [r3 w] eqn:Hb. injection H as _ _ ->.
    unfold rm_body in Hb. pose proof (ci_many _ _ (ci_rm_step (adj_rib_out h) (is_asn4 h)) (S (length (rbuf r2))) (y, None) r2 eq_refl) as Hi.
    unfold cmany_all in Hb. destruct (cmany _ _ (y, None) r2) as [[[x1 pdu] r4] [l|e| |]]; cbn [fst] in Hi; try discriminate.
    destruct pdu as [sub|]; [|discriminate]. destruct (bgp_pdu x1 sub) as [[? ?] [u|e| |]] eqn:Hu; try discriminate.
    destruct u as [o|u|n| |rr]; cbn [msg_type] in Hb; inversion Hb; subst. rewrite <- Hi. apply (pdu_width _ _ _ _ _ Hu).
  - unfold parse_down3 in H. apply cbind_ok in H as (h & m2 & r2 & H2 & H). apply cbind_ok in H as (d & m3 & r3 & H3 & H).
    destruct (check_reason d); unfold cret, cfail in H; inversion H; exact Logic.I.
  - unfold parse_down4 in H. apply cbind_ok in H as (h & m2 & r2 & H2 & H). apply cbind_ok in H as (d & m3 & r3 & H3 & H).
    apply cbind_ok in H as (l & m4 & r4 & H4 & H). destruct (check_reason d); unfold cret, cfail in H; inversion H; exact Logic.I.
  - apply cbind_ok in H as (c & m2 & r2 & H2 & H). destruct (v =? 3); unfold cret in H; inversion H; exact Logic.I.
Qed.
Lemma decode_width k b k' b' x : bmp_decode k b = (k', b', DItem x) ->
  match x with V3Monitoring h (MUpdate u) | V4Monitoring h (MUpdate u) _ => as_paths_have_width (is_asn4 h) u | _ => True end.
Proof.
  unfold bmp_decode. destruct (_ || _); [|discriminate]. destruct b as [|v b0]; [discriminate|].
  destruct (negb _); [discriminate|]. destruct (_ <? 5); [discriminate|]. cbv zeta. destruct (_ <? 5); [discriminate|].
  destruct (_ <? _); [discriminate|]. set (f := rnew _). destruct (parse_bmp (bk_ctx k) f) as [[m r] [y|e| |]] eqn:Hp; try discriminate.
  intros H. injection H as _ _ <-. unfold parse_bmp in Hp.
  apply cbind_ok in Hp as (v' & m1 & r1 & H1 & Hp). destruct (negb _); [discriminate|].
  apply cbind_ok in Hp as (len & m2 & r2 & H2 & Hp). destruct (_ <? 5); [discriminate|]. unfold in_sub in Hp.
  apply cbind_ok in Hp as (sub & m3 & r3 & H3 & Hp). unfold con_sub in Hp.
  match type of Hp with (let (_, _) := ?t in _) = _ => destruct t as [[m4 r4] z] eqn:Hz end. injection Hp as _ _ ->.
  apply cbind_ok in Hz as (w & m5 & r5 & H5 & Hz). apply cbind_ok in Hz as (r6 & m6 & r7 & H6 & Hz).
  destruct (ris_empty r6); unfold cret, cfail in Hz; inversion Hz; subst. eapply monitoring_width; exact H5.
Qed.
