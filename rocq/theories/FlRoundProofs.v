From Verif Require Import Base BaseLemmas AfModel MapLib FlModel FlSpec FlSafeProofs FlDecodeProofs FlTemplateProofs FlValueProofs.

Definition sparses {T A} (p : sparser T A) (m : T) (b : list N) (x : A) (m' : T) : Prop :=
  forall rest off, p m (mkR (b ++ rest) off) = (m', mkR rest (off + blen b), Ok x).

Lemma sparses_lift {T A} (p : parser ferr A) (m : T) b x : parses p b x -> sparses (slift p) m b x m.
Proof. intros H rest off. unfold slift. now rewrite H. Qed.
Lemma sparses_plift {T A} (p : parser perr A) (m : T) b x : parses p b x -> sparses (plift p) m b x m.
Proof. intros H. now apply sparses_lift, parses_map_err. Qed.
Lemma sparses_bind {T A B} (p : sparser T A) (f : A -> sparser T B) m b1 b2 x y m1 m2 :
  sparses p m b1 x m1 -> sparses (f x) m1 b2 y m2 -> sparses (sbind p f) m (b1 ++ b2) y m2.
Proof.
  intros H1 H2 rest off. unfold sbind. rewrite <- app_assoc, H1, H2. f_equal. f_equal. f_equal. rewrite blen_app. lia.
Qed.
Lemma sparses_bind0 {T A B} (p : sparser T A) (f : A -> sparser T B) m b x y m1 m2 :
  sparses p m [] x m1 -> sparses (f x) m1 b y m2 -> sparses (sbind p f) m b y m2.
Proof. intros; change b with ([] ++ b); eapply sparses_bind; eauto. Qed.
Lemma sparses_bind_ret {T A B} (p : sparser T A) (f : A -> sparser T B) m b x y m1 m2 :
  sparses p m b x m1 -> sparses (f x) m1 [] y m2 -> sparses (sbind p f) m b y m2.
Proof. intros; rewrite <- (app_nil_r b); eapply sparses_bind; eauto. Qed.
Lemma sparses_ret {T A} (a : A) (m : T) : sparses (sret a) m [] a m.
Proof. intros rest off. unfold sret; cbn. f_equal. f_equal. f_equal. rewrite blen_nil; lia. Qed.
Lemma sparses_mod {T} (f : T -> T) m : sparses (smod f) m [] tt (f m).
Proof. intros rest off. unfold smod; cbn. f_equal. f_equal. f_equal. rewrite blen_nil; lia. Qed.
(* a peek of the first two octets, then the rest of the parser on them *)
Lemma sparses_peek {T B} (f : N -> sparser T B) m n h b y m2 :
  n = blen h -> sparses (f (be_val h)) m (h ++ b) y m2 -> sparses (sbind (plift (peek_be n)) f) m (h ++ b) y m2.
Proof.
  intros -> H rest off. erewrite sstep; [apply H|]. rewrite <- !app_assoc. now apply peek_app.
Qed.
Lemma sparses_slice {T B} n (k : reader -> sparser T B) m b b2 y m2 :
  n = blen b -> (forall off, sparses (k (mkR b off)) m b2 y m2) ->
  sparses (sbind (plift (take_slice n)) k) m (b ++ b2) y m2.
Proof.
  intros -> H rest off. rewrite <- app_assoc. erewrite sstep by apply take_slice_app. rewrite H.
  f_equal. f_equal. f_equal. rewrite blen_app. lia.
Qed.
Lemma sparses_sub {T A} (p : sparser T A) m b off x m' r' : p m (mkR b off) = (m', r', Ok x) ->
  sparses (son_sub (mkR b off) p) m [] x m'.
Proof. intros H rest o. unfold son_sub. rewrite H. cbn. f_equal. f_equal. f_equal. rewrite blen_nil; lia. Qed.

(* a loop over what was written, item after item *)
Inductive chain {T A} (p : sparser T A) (cond : reader -> bool) : T -> list (A * list N) -> T -> Prop :=
| chain_nil m : chain p cond m [] m
| chain_cons m m1 m2 x b l : sparses p m b x m1 -> (forall rest off, cond (mkR (b ++ rest) off) = true) ->
    chain p cond m1 l m2 -> chain p cond m ((x, b) :: l) m2.
Lemma chain_while {T A} (p : sparser T A) cond : (forall off, cond (mkR [] off) = false) ->
  forall l m m', chain p cond m l m' -> forall n off, (length l <= n)%nat ->
  swhile n cond p m (mkR (concat (map snd l)) off) = (m', mkR [] (off + blen (concat (map snd l))), Ok (map fst l)).
Proof.
  intros Hc l m m' H. induction H as [m|m m1 m2 x b l Hp Hcond _ IH]; intros n off Hn.
  - cbn [map concat]. destruct n; cbn [swhile]; rewrite Hc, blen_nil, N.add_0_r; reflexivity.
  - destruct n as [|n]; [cbn in Hn; lia|]. cbn [map concat swhile fst snd]. rewrite Hcond.
    unfold sbind. rewrite Hp, IH by (cbn in Hn; lia). unfold sret. f_equal. f_equal. f_equal. rewrite blen_app. lia.
Qed.
Lemma chain_while_all {T A} (p : sparser T A) cond l m m' off : (forall off, cond (mkR [] off) = false) ->
  chain p cond m l m' ->
  swhile_all cond p m (mkR (concat (map snd l)) off) = (m', mkR [] (off + blen (concat (map snd l))), Ok (map fst l)).
Proof.
  intros Hc H. unfold swhile_all. apply chain_while; [assumption|assumption|]. cbn [rbuf].
  clear off. induction H as [m|m m1 m2 x b l Hp Hcond _ IH]; [cbn; lia|]. cbn [map concat length snd].
  rewrite app_length. destruct b as [|z b]; [|cbn [length]; lia].
  specialize (Hcond [] 0). rewrite Hc in Hcond. discriminate Hcond.
Qed.

Lemma parses_times {A} (p : parser ferr A) (enc : A -> list N) : forall l, (forall x, In x l -> parses p (enc x) x) ->
  parses (ptimes (length l) p) (flat_map enc l) l.
Proof.
  induction l as [|x l IH]; intros H; cbn [length ptimes flat_map]; [apply parses_ret|].
  eapply parses_bind; [apply H; now left|]. eapply parses_bind_ret; [apply IH; intros; apply H; now right|apply parses_ret].
Qed.
Lemma nsum_app a b : nsum (a ++ b) = nsum a + nsum b.
Proof. induction a as [|x a IH]; cbn [app nsum fold_right]; [reflexivity|]. fold (nsum (a ++ b)). fold (nsum a). lia. Qed.
Lemma nsum_cons x l : nsum (x :: l) = x + nsum l. Proof. reflexivity. Qed.
Lemma blen_flat_map {A} (enc : A -> list N) len : (forall x, blen (enc x) = len x) ->
  forall l, blen (flat_map enc l) = nsum (map len l).
Proof.
  intros H. induction l as [|x l IH]; cbn [flat_map map]; [reflexivity|]. rewrite blen_app, H, IH. reflexivity.
Qed.

Lemma land_top v : v < 32768 -> N.land v 32768 = 0.
Proof.
  intros H. change 32768 with (2 ^ 15). rewrite land_pow2. 
  destruct (N.testbit v 15) eqn:E; [|reflexivity]. exfalso.
  rewrite N.testbit_true in E. change (2 ^ 15) with 32768 in E. rewrite N.div_small in E by assumption. discriminate E.
Qed.
Lemma lor_top v : v < 32768 -> N.lor v 32768 = v + 32768.
Proof.
  intros H. rewrite N.lor_comm. change 32768 with (1 * 2 ^ 15) at 1. rewrite lor_disjoint by exact H. change (1 * 2 ^ 15) with 32768. lia.
Qed.

Lemma nsum_pos l x : In x l -> 0 < x -> 0 < nsum l.
Proof.
  induction l as [|y l IH]; cbn [In]; [contradiction|]. rewrite nsum_cons.
  intros [->|H] Hx; [lia|]. specialize (IH H Hx). lia.
Qed.
Lemma legal_range t len : legal_length t len <-> in_range (length_range t) len = true.
Proof. destruct t; cbn [legal_length length_range in_range]; try tauto; lia. Qed.
Section Round.
Context (iana : N -> option dtype) (vendor : N -> option (N -> option dtype)) (millis_ok : Z -> bool).
Notation spec_ok := (spec_ok iana vendor).

(* ---- templates ---- *)
Lemma legal_classify s : legal_spec iana vendor s <->
  exists c, classify iana vendor (fs_pen s) (fs_id s) = Some c /\ in_range (class_range c) (fs_len s) = true.
Proof.
  unfold legal_spec, classify. destruct (N.eqb_spec (fs_pen s) 0) as [Hp|Hp].
  - destruct (iana (fs_id s)) as [t|].
    + rewrite legal_range. split; [intros H; exists (Known t); auto|intros (c & E & H); now injection E as <-].
    + split; [intros H; contradiction|intros (c & E & _); discriminate E].
  - destruct (vendor (fs_pen s)) as [tbl|].
    + destruct (tbl (fs_id s)) as [t|].
      * rewrite legal_range. split; [intros H; exists (Known t); auto|intros (c & E & H); now injection E as <-].
      * split; [intros _; exists VendorUnknown; auto|auto].
    + split; [intros _; exists Foreign; auto|auto].
Qed.
Lemma spec_round s : spec_ok s -> parses (p_fspec iana vendor) (w_fspec s) s.
Proof.
  destruct s as [pen id len]. unfold FlSpec.spec_ok, p_fspec, w_fspec. cbn [fs_pen fs_id fs_len].
  intros (Hid & Hpen & Hlen & Hleg). apply legal_classify in Hleg as (c & Hc & Hin). cbn [fs_pen fs_id fs_len] in *.
  destruct (N.eqb_spec pen 0) as [->|Hp].
  - eapply parses_bind; [apply parses_map_err, parses_u16; lia|].
    eapply parses_bind; [apply parses_map_err, parses_u16; lia|].
    rewrite land_top by assumption. change (0 =? 0) with true. cbn iota.
    eapply parses_bind0; [apply parses_ret|]. cbn [fst snd]. rewrite Hc, Hin. apply parses_ret.
  - rewrite lor_top by assumption.
    eapply parses_bind; [apply parses_map_err, parses_u16; lia|].
    eapply parses_bind; [apply parses_map_err, parses_u16; lia|].
    assert (Hl : N.land (id + 32768) 32768 = 32768).
    { rewrite <- lor_top by assumption. rewrite N.land_lor_distr_l, land_top by assumption. reflexivity. }
    rewrite Hl. change (32768 =? 0) with false. cbn iota.
    assert (Hl2 : N.land (id + 32768) 32767 = id).
    { change 32767 with (2 ^ 15 - 1). rewrite land_mask. change (2 ^ 15) with 32768.
      replace (id + 32768) with (id + 1 * 32768) by lia. rewrite N.mod_add by lia. now apply N.mod_small. }
    eapply parses_bind_ret.
    + eapply parses_bind_ret; [apply parses_map_err, parses_u32; assumption|apply parses_ret].
    + cbn [fst snd]. rewrite Hl2, Hc, Hin. apply parses_ret.
Qed.
Lemma fspec_size s : blen (w_fspec s) = fspec_len s.
Proof using.
  unfold w_fspec, fspec_len. rewrite !blen_app, !be_enc_blen. destruct (fs_pen s =? 0); rewrite ?be_enc_blen, ?blen_nil; lia.
Qed.
Lemma specs_round l : Forall spec_ok l -> parses (ptimes (length l) (p_fspec iana vendor)) (flat_map w_fspec l) l.
Proof. intros H. apply parses_times. intros x Hx. apply spec_round. rewrite Forall_forall in H. auto. Qed.
Lemma blen_to_nat {A} (l : list A) : N.to_nat (blen l) = length l.
Proof. unfold blen. apply Nat2N.id. Qed.

Lemma trec_round m r : template_ok iana vendor r ->
  sparses (p_trec iana vendor) m (w_trec r) r (tset (tr_id r) (mkT [] (tr_fields r) 0) m).
Proof.
  destruct r as [id fs]. intros (Hid & Hfs & Hn). cbn [tr_id tr_fields] in *. unfold p_trec, w_trec. cbn [tr_id tr_fields].
  apply sparses_peek; [reflexivity|]. rewrite be_val_enc by (change (256 ^ N.of_nat 2) with 65536; lia).
  replace (id <? 256) with false by lia.
  eapply sparses_bind; [apply sparses_plift, parses_u16; lia|]. cbv beta.
  eapply sparses_bind; [apply sparses_plift, parses_u16; unfold as_u16; lia|]. cbv beta.
  unfold as_u16. rewrite N.mod_small by assumption. rewrite blen_to_nat.
  eapply sparses_bind_ret; [apply sparses_lift, specs_round; assumption|]. cbv beta.
  eapply sparses_bind0; [apply sparses_mod|]. apply sparses_ret.
Qed.
Lemma trec_size r : blen (w_trec r) = trec_len r.
Proof using.
  unfold w_trec, trec_len. rewrite !blen_app, !be_enc_blen, (blen_flat_map w_fspec fspec_len) by apply fspec_size. lia.
Qed.
Lemma otrec_round m r : options_ok iana vendor r ->
  sparses (p_otrec iana vendor) m (w_otrec r) r (tset (ot_id r) (mkT (ot_scope r) (ot_fields r) 0) m).
Proof.
  destruct r as [id ss fs]. intros (Hid & Hss & Hfs & Hn). cbn [ot_id ot_scope ot_fields] in *.
  unfold p_otrec, w_otrec. cbn [ot_id ot_scope ot_fields].
  apply sparses_peek; [reflexivity|]. rewrite be_val_enc by (change (256 ^ N.of_nat 2) with 65536; lia).
  replace (id <? 256) with false by lia.
  eapply sparses_bind; [apply sparses_plift, parses_u16; lia|]. cbv beta.
  eapply sparses_bind; [apply sparses_plift, parses_u16; unfold as_u16; lia|]. cbv beta.
  unfold as_u16. rewrite !N.mod_small by lia.
  apply sparses_peek; [reflexivity|]. rewrite be_val_enc by (change (256 ^ N.of_nat 2) with 65536; lia).
  replace (blen ss + blen fs <? blen ss) with false by lia.
  eapply sparses_bind; [apply sparses_plift, parses_u16; lia|]. cbv beta.
  replace (blen ss + blen fs - blen ss) with (blen fs) by lia. rewrite !blen_to_nat.
  eapply sparses_bind; [apply sparses_lift, specs_round; assumption|]. cbv beta.
  eapply sparses_bind_ret; [apply sparses_lift, specs_round; assumption|]. cbv beta.
  eapply sparses_bind0; [apply sparses_mod|]. apply sparses_ret.
Qed.
Lemma otrec_size r : blen (w_otrec r) = otrec_len r.
Proof.
  unfold w_otrec, otrec_len. rewrite !blen_app, !be_enc_blen, !(blen_flat_map w_fspec fspec_len) by apply fspec_size. lia.
Qed.

(* ---- records ---- *)
Notation wfield := (wfield iana vendor).
Notation flen := (flen iana vendor).
Lemma fields_round : forall specs fields lens, lens = map fs_len specs ->
  Forall2 (fits iana vendor millis_ok) specs fields ->
  exists b, wmapm wfield (with_lens fields lens) = Ok b /\
            parses (pmapm (p_fspec_field iana vendor millis_ok) specs) b fields /\
            blen b = nsum (map flen (with_lens fields lens)).
Proof.
  intros specs fields lens -> H. induction H as [|s f specs fields Hf _ (b & Hw & Hp & Hl)].
  - exists []. split; [reflexivity|]. split; [apply parses_ret|reflexivity].
  - cbn [map with_lens wmapm]. apply field_round in Hf as (b1 & Hw1 & Hp1 & Hl1 & Hl1').
    unfold FlModel.wfield at 1. cbn [fst snd]. rewrite Hw1. cbn [rbind]. rewrite Hw. cbn [rbind].
    eexists; split; [reflexivity|]. split.
    + cbn [pmapm]. eapply parses_bind; [exact Hp1|]. eapply parses_bind_ret; [exact Hp|apply parses_ret].
    + rewrite blen_app, nsum_cons, Hl. f_equal. unfold FlModel.flen. cbn [fst snd].
      destruct (N.eqb_spec (fs_len s) 65535) as [E|E]; [exact Hl1|auto].
Qed.
Lemma record_round t x r et : record_fits iana vendor millis_ok x r -> same_lengths et x ->
  t_scope t = fst x -> t_fields t = snd x ->
  forall tt, t_scope tt = fst et -> t_fields tt = snd et ->
  exists b, w_drec iana vendor (Some tt) r = Ok b /\ parses (p_drec iana vendor millis_ok t) b r /\
            blen b = drec_len iana vendor (Some tt) r /\ min_record t <= blen b.
Proof.
  intros [H1 H2] [E1 E2] Ht1 Ht2 tt Hs Hf. destruct r as [rs rf]. cbn [dr_scope dr_fields] in *.
  unfold w_drec, drec_len. cbn [t_scope_lens t_field_lens dr_scope dr_fields]. rewrite Hs, Hf, E1, E2.
  apply fields_round with (lens := map fs_len (fst x)) in H1 as (b1 & Hw1 & Hp1 & Hl1); [|reflexivity].
  apply fields_round with (lens := map fs_len (snd x)) in H2 as (b2 & Hw2 & Hp2 & Hl2); [|reflexivity].
  rewrite Hw1, Hw2. cbn [rbind]. eexists; split; [reflexivity|].
  assert (Hp : parses (p_drec iana vendor millis_ok t) (b1 ++ b2) (mkDR rs rf)).
  { unfold p_drec. rewrite Ht1, Ht2. eapply parses_bind; [exact Hp1|].
    eapply parses_bind_ret; [exact Hp2|apply parses_ret]. }
  split; [exact Hp|]. split; [rewrite blen_app; lia|].
  pose proof (eats_drec iana vendor millis_ok t (mkR (b1 ++ b2) 0)) as He.
  specialize (Hp [] 0). rewrite app_nil_r in Hp. rewrite Hp in He. specialize (He (mkDR rs rf)). cbn [snd fst rbuf] in He.
  specialize (He eq_refl). rewrite blen_nil in He. lia.
Qed.

(* ---- sets ---- *)
Lemma min_record_pos t s : In s (t_scope t ++ t_fields t) -> 0 < least_octets s -> 0 < min_record t.
Proof.
  intros Hi Hs. unfold min_record. apply in_app_or in Hi as [Hi|Hi].
  - pose proof (nsum_pos (map min_spec (t_scope t)) (min_spec s) (in_map _ _ _ Hi) Hs). lia.
  - pose proof (nsum_pos (map min_spec (t_fields t)) (min_spec s) (in_map _ _ _ Hi) Hs). lia.
Qed.
Lemma concat_map_snd {A} (w : A -> list N) (l : list A) : concat (map snd (map (fun x => (x, w x)) l)) = flat_map w l.
Proof. induction l as [|x l IH]; cbn; [reflexivity|now rewrite IH]. Qed.
Lemma map_fst_pair {A} (w : A -> list N) (l : list A) : map fst (map (fun x => (x, w x)) l) = l.
Proof. rewrite map_map. apply map_id. Qed.

(* the body of a set, as its sub-reader parses it *)
Definition body_of (id : N) : reader -> sparser tmap iset := fun sub =>
  if id =? 2 then
    sdo l <- son_sub sub (swhile_all (fun r => negb (ris_empty r)) (p_trec iana vendor));; sret (STemplate l)
  else if id =? 3 then
    sdo l <- son_sub sub (sdo l <- swhile_all (fun r => 3 <? remaining r) (p_otrec iana vendor);;
                          sdo_ slift p_padding;; sret l);;
    sret (SOptions l)
  else
    sdo m <- sget;;
    match tget id m with
    | None => sfail (FE_NoTemplate id)
    | Some t =>
      sdo l <- son_sub sub (swhile_all (fun r => (min_record t <=? remaining r) && (0 <? min_record t))
                              (slift (p_drec iana vendor millis_ok t)));;
      sdo_ smod (tincr id);;
      sret (SData id l)
    end.
Lemma set_frame id b m s m' : 2 <= id < 65536 -> (id = 2 \/ id = 3 \/ 256 <= id) -> 4 + blen b < 65536 ->
  (forall off, sparses (body_of id (mkR b off)) m [] s m') ->
  sparses (p_iset iana vendor millis_ok) m (be_enc 2 id ++ be_enc 2 (4 + blen b) ++ b) s m'.
Proof.
  intros Hid Hk Hb H. unfold p_iset.
  apply sparses_peek; [reflexivity|]. rewrite be_val_enc by (change (256 ^ N.of_nat 2) with 65536; lia).
  replace (negb (id =? 2) && negb (id =? 3) && (id <? 256)) with false by lia.
  eapply sparses_bind; [apply sparses_plift, parses_u16; lia|]. cbv beta.
  apply sparses_peek; [reflexivity|]. rewrite be_val_enc by (change (256 ^ N.of_nat 2) with 65536; lia).
  replace (4 + blen b <? 4) with false by lia.
  eapply sparses_bind; [apply sparses_plift, parses_u16; lia|]. cbv beta.
  rewrite <- (app_nil_r b) at 2. apply sparses_slice; [lia|]. exact H.
Qed.

Lemma view_fold_templates l m i :
  view (fold_left (fun m r => tset (tr_id r) (mkT [] (tr_fields r) 0) m) l m) i =
  after (view m) (map (fun r => (tr_id r, ([], tr_fields r))) l) i.
Proof.
  revert m; induction l as [|r l IH]; intros m; cbn [fold_left map]; [reflexivity|].
  rewrite IH. change ((tr_id r, ([], tr_fields r)) :: map (fun r0 => (tr_id r0, ([], tr_fields r0))) l)
    with ([(tr_id r, (@nil fspec, tr_fields r))] ++ map (fun r0 => (tr_id r0, ([], tr_fields r0))) l).
  rewrite after_app. apply after_ext. intros j. rewrite view_tset, after_one. reflexivity.
Qed.
Lemma view_fold_options l m i :
  view (fold_left (fun m r => tset (ot_id r) (mkT (ot_scope r) (ot_fields r) 0) m) l m) i =
  after (view m) (map (fun r => (ot_id r, (ot_scope r, ot_fields r))) l) i.
Proof.
  revert m; induction l as [|r l IH]; intros m; cbn [fold_left map]; [reflexivity|].
  rewrite IH. change ((ot_id r, (ot_scope r, ot_fields r)) :: map (fun r0 => (ot_id r0, (ot_scope r0, ot_fields r0))) l)
    with ([(ot_id r, (ot_scope r, ot_fields r))] ++ map (fun r0 => (ot_id r0, (ot_scope r0, ot_fields r0))) l).
  rewrite after_app. apply after_ext. intros j. rewrite view_tset, after_one. reflexivity.
Qed.
Lemma templates_chain cond l m : (forall r rest off, template_ok iana vendor r -> cond (mkR (w_trec r ++ rest) off) = true) ->
  Forall (template_ok iana vendor) l ->
  chain (p_trec iana vendor) cond m (map (fun r => (r, w_trec r)) l)
        (fold_left (fun m r => tset (tr_id r) (mkT [] (tr_fields r) 0) m) l m).
Proof.
  intros Hc H. revert m; induction H as [|r l Hr _ IH]; intros m; cbn [map fold_left]; [constructor|].
  econstructor; [now apply trec_round|auto|apply IH].
Qed.
Lemma options_chain cond l m : (forall r rest off, options_ok iana vendor r -> cond (mkR (w_otrec r ++ rest) off) = true) ->
  Forall (options_ok iana vendor) l ->
  chain (p_otrec iana vendor) cond m (map (fun r => (r, w_otrec r)) l)
        (fold_left (fun m r => tset (ot_id r) (mkT (ot_scope r) (ot_fields r) 0) m) l m).
Proof.
  intros Hc H. revert m; induction H as [|r l Hr _ IH]; intros m; cbn [map fold_left]; [constructor|].
  econstructor; [now apply otrec_round|auto|apply IH].
Qed.

Lemma records_round t x et tt l : Forall (record_fits iana vendor millis_ok x) l -> same_lengths et x ->
  t_scope t = fst x -> t_fields t = snd x -> t_scope tt = fst et -> t_fields tt = snd et ->
  (l = [] \/ 0 < min_record t) ->
  exists xs, map fst xs = l /\ wmapm (w_drec iana vendor (Some tt)) l = Ok (concat (map snd xs)) /\
    blen (concat (map snd xs)) = nsum (map (drec_len iana vendor (Some tt)) l) /\
    forall m : tmap, chain (slift (p_drec iana vendor millis_ok t))
             (fun r => (min_record t <=? remaining r) && (0 <? min_record t)) m xs m.
Proof.
  intros H He H1 H2 H3 H4 Hmin. induction H as [|r l Hr Hl IH].
  - exists []. repeat split. intros m. constructor.
  - destruct Hmin as [Hmin|Hmin]; [discriminate Hmin|]. destruct IH as (xs & Hf & Hw & Hb & Hc); [now right|].
    destruct (record_round t x r et Hr He H1 H2 tt H3 H4) as (b & Hw1 & Hp1 & Hl1 & Hm1).
    exists ((r, b) :: xs). cbn [map fst snd concat wmapm]. rewrite Hf, Hw1, Hw. cbn [rbind]. split; [reflexivity|].
    split; [reflexivity|]. split; [rewrite blen_app, nsum_cons; lia|].
    intros m. econstructor; [apply sparses_lift; exact Hp1| |apply Hc].
    intros rest off. unfold remaining. cbn [rbuf]. rewrite blen_app. lia.
Qed.

Lemma w_trec_ne r : exists z b, w_trec r = z :: b.
Proof using. unfold w_trec. cbn [be_enc app]. eauto. Qed.

Lemma set_round em m s : set_ok iana vendor millis_ok (view em) (view m) s ->
  exists b, w_iset iana vendor em s = Ok b /\ blen b = iset_len iana vendor em s /\
  (blen b < 65536 -> exists m', sparses (p_iset iana vendor millis_ok) m b s m' /\
                                (forall i, view m' i = after (view m) (templates_of s) i)).
Proof.
  unfold w_iset, iset_len. destruct s as [l|l|id l]; cbn [set_ok templates_of].
  - intros H. eexists; split; [reflexivity|].
    assert (Hl : blen (flat_map w_trec l) = nsum (map trec_len l)) by (apply blen_flat_map, trec_size).
    rewrite !blen_app, !be_enc_blen. split; [lia|]. intros Hb.
    eexists; split; [|intros i; apply view_fold_templates].
    rewrite <- Hl. unfold as_u16. rewrite N.mod_small by lia.
    apply set_frame; [lia|auto|lia|]. intros off. unfold body_of. change (2 =? 2) with true. cbn iota.
    eapply sparses_bind0; [|apply sparses_ret]. eapply sparses_sub. rewrite <- concat_map_snd at 1.
    erewrite chain_while_all; [rewrite map_fst_pair; reflexivity|reflexivity|]. apply templates_chain; [|assumption].
    intros r rest o _. destruct (w_trec_ne r) as (z & b & ->). reflexivity.
  - intros H. eexists; split; [reflexivity|].
    assert (Hl : blen (flat_map w_otrec l) = nsum (map otrec_len l)) by (apply blen_flat_map, otrec_size).
    rewrite !blen_app, !be_enc_blen. split; [lia|]. intros Hb.
    eexists; split; [|intros i; apply view_fold_options].
    rewrite <- Hl. unfold as_u16. rewrite N.mod_small by lia.
    apply set_frame; [lia|auto|lia|]. intros off. unfold body_of. change (3 =? 2) with false. change (3 =? 3) with true. cbn iota.
    eapply sparses_bind0; [|apply sparses_ret]. eapply sparses_sub. rewrite <- concat_map_snd at 1.
    unfold sbind at 1. erewrite chain_while_all; [rewrite map_fst_pair; reflexivity|reflexivity|]. apply options_chain; [|assumption].
    intros r rest o _. unfold remaining; cbn [rbuf]. rewrite blen_app, otrec_size. unfold otrec_len. lia.
  - intros (Hid & lay & elay & Hv & Hev & Hs & Hl & Hmin).
    unfold view in Hv, Hev. destruct (tget id m) as [t|] eqn:Et; [|discriminate Hv]. destruct (tget id em) as [tt|] eqn:Ett; [|discriminate Hev].
    inversion Hv; subst lay. inversion Hev; subst elay.
    assert (Hmin' : l = [] \/ 0 < min_record t).
    { destruct Hmin as [Hm|(s & Hi & Hs')]; [now left|right]. eapply min_record_pos; eassumption. }
    destruct (records_round t _ _ tt l Hl Hs eq_refl eq_refl eq_refl eq_refl Hmin') as (xs & Hf & Hw & Hb & Hc).
    rewrite Hw. cbn [rbind]. eexists; split; [reflexivity|].
    rewrite !blen_app, !be_enc_blen. split; [lia|]. intros Hb'. rewrite <- Hb.
    unfold as_u16. rewrite N.mod_small by lia. exists (tincr id m). split; [|intros i; rewrite view_tincr; reflexivity].
    apply set_frame; [lia|lia|lia|]. intros off. unfold body_of.
    replace (id =? 2) with false by lia. replace (id =? 3) with false by lia.
    eapply sparses_bind0; [intros rest o; unfold sget; cbn [app]; rewrite blen_nil, N.add_0_r; reflexivity|]. cbv beta. rewrite Et.
    eapply sparses_bind0; [eapply sparses_sub, chain_while_all; [|apply Hc]|].
    + intros o. unfold remaining; cbn [rbuf]. rewrite blen_nil. lia.
    + cbv beta. rewrite Hf. eapply sparses_bind0; [apply sparses_mod|apply sparses_ret].
Qed.

Lemma set_ok_ext enc v v' s : (forall i, v i = v' i) -> set_ok iana vendor millis_ok enc v s -> set_ok iana vendor millis_ok enc v' s.
Proof.
  intros E. destruct s; cbn; auto. intros (Hid & lay & elay & H). split; [exact Hid|]. exists lay, elay. rewrite <- E. exact H.
Qed.
Lemma sets_ok_ext enc l : forall v v', (forall i, v i = v' i) ->
  sets_ok iana vendor millis_ok enc v l -> sets_ok iana vendor millis_ok enc v' l.
Proof.
  induction l as [|s l IH]; intros v v' E; cbn [sets_ok]; [auto|]. intros [H1 H2]. split; [eapply set_ok_ext; eauto|].
  eapply IH; [|exact H2]. intros i. now apply after_ext.
Qed.
Lemma sets_round em : forall l m, sets_ok iana vendor millis_ok (view em) (view m) l ->
  exists bs, wmapm (w_iset iana vendor em) l = Ok bs /\ blen bs = nsum (map (iset_len iana vendor em) l) /\
  (blen bs < 65536 -> exists xs m', map fst xs = l /\ concat (map snd xs) = bs /\
     chain (p_iset iana vendor millis_ok) (fun r => negb (ris_empty r)) m xs m' /\
     (forall i, view m' i = after (view m) (flat_map templates_of l) i)).
Proof.
  induction l as [|s l IH]; intros m; cbn [sets_ok].
  - intros _. exists []. split; [reflexivity|]. split; [reflexivity|]. intros _. exists [], m. repeat split; try constructor.
  - intros [Hs Hl]. destruct (set_round em m s Hs) as (b & Hw & Hb & Hp).
    (* the writer part does not depend on the state, so pick any m with that view *)
    assert (Hany : exists bs, wmapm (w_iset iana vendor em) l = Ok bs /\ blen bs = nsum (map (iset_len iana vendor em) l) /\
      (blen bs < 65536 -> forall m1, (forall i, view m1 i = after (view m) (templates_of s) i) ->
       exists xs m', map fst xs = l /\ concat (map snd xs) = bs /\
         chain (p_iset iana vendor millis_ok) (fun r => negb (ris_empty r)) m1 xs m' /\
         (forall i, view m' i = after (view m1) (flat_map templates_of l) i))).
    { (* a state with the view of m after s *)
      assert (Hex : exists m1, forall i, view m1 i = after (view m) (templates_of s) i).
      { exists (fold_left (fun m e => tset (fst e) (mkT (fst (snd e)) (snd (snd e)) 0) m) (templates_of s) m).
        clear. generalize (templates_of s) as es. intros es. revert m.
        induction es as [|[j [sc fl]] es IH]; intros m i; cbn [fold_left fst snd]; [reflexivity|].
        rewrite IH. change ((j, (sc, fl)) :: es) with ([(j, (sc, fl))] ++ es). rewrite after_app. apply after_ext.
        intros k. rewrite view_tset, after_one. reflexivity. }
      destruct Hex as (m0 & Hm0).
      destruct (IH m0) as (bs & Hw2 & Hb2 & _).
      { eapply sets_ok_ext; [|exact Hl]. intros i. now rewrite Hm0. }
      exists bs. split; [exact Hw2|]. split; [exact Hb2|]. intros Hlt m1 Hm1.
      destruct (IH m1) as (bs' & Hw3 & Hb3 & Hp3).
      { eapply sets_ok_ext; [|exact Hl]. intros i. now rewrite Hm1. }
      rewrite Hw2 in Hw3. inversion Hw3; subst bs'. auto. }
    destruct Hany as (bs & Hw2 & Hb2 & Hp2). cbn [wmapm map]. rewrite Hw, Hw2. cbn [rbind].
    exists (b ++ bs). split; [reflexivity|]. rewrite blen_app, nsum_cons. split; [lia|]. intros Hlt.
    destruct Hp as (m1 & Hp1 & Hv1); [lia|]. destruct (Hp2 ltac:(lia) m1 Hv1) as (xs & m' & Hf & Hc & Hch & Hv).
    exists ((s, b) :: xs), m'. cbn [map fst snd concat]. rewrite Hf, Hc. split; [reflexivity|]. split; [reflexivity|]. split.
    + econstructor; [exact Hp1| |exact Hch]. intros rest off. destruct b as [|z b]; [|reflexivity].
      exfalso. rewrite blen_nil in Hb. unfold iset_len in Hb. lia.
    + intros i. rewrite Hv. cbn [flat_map]. rewrite after_app. apply after_ext. exact Hv1.
Qed.

Lemma view_cached c i : view (c_ipfix c) i = cached c i. Proof. reflexivity. Qed.
Lemma packet_round enc dec p : header_ok p ->
  sets_ok iana vendor millis_ok (cached enc) (cached dec) (ip_sets p) ->
  exists b, encode iana vendor enc (Ipfix p) = Ok b /\
  (blen b < 65536 -> exists dec', decode iana vendor millis_ok dec b = (dec', [], Packet (Ipfix p)) /\
     c_netflow dec' = c_netflow dec /\ forall i, cached dec' i = in_force (cached dec) (ip_sets p) i).
Proof.
  intros (Ht & Hq & Hd) Hs. change (256 ^ 4) with 4294967296 in *.
  destruct (sets_round (c_ipfix enc) (ip_sets p) (c_ipfix dec) Hs) as (bs & Hw & Hb & Hp).
  cbn [encode]. unfold w_ipkt, ipkt_len. rewrite Hw. cbn [rbind]. eexists; split; [reflexivity|].
  rewrite !blen_app, !be_enc_blen. intros Hlt. destruct Hp as (xs & m' & Hf & Hc & Hch & Hv); [lia|].
  rewrite <- Hb. unfold as_u16. rewrite N.mod_small by lia.
  exists (mkC (c_netflow dec) m'). split; [|split; [reflexivity|exact Hv]].
  set (x := be_enc 4 (ip_time p) ++ be_enc 4 (ip_seq p) ++ be_enc 4 (ip_domain p) ++ bs).
  assert (Hx : 16 + blen bs = 4 + blen x) by (subst x; rewrite !blen_app, !be_enc_blen; lia).
  rewrite <- (app_nil_r x).
  rewrite decode_ipfix_eq; [|reflexivity|reflexivity|reflexivity|..];
    rewrite ?be_val_enc by (change (256 ^ N.of_nat 2) with 65536; lia); [|lia|lia].
  assert (Hbody : p_body iana vendor millis_ok (c_ipfix dec) (mkR x 4) = (m', mkR [] (4 + blen x), Ok p)).
  { unfold p_body. subst x.
    erewrite sstep by (apply (parses_u32 (ip_time p)); assumption).
    erewrite sstep by (apply (parses_u32 (ip_seq p)); assumption).
    erewrite sstep by (apply (parses_u32 (ip_domain p)); assumption).
    unfold sbind. rewrite <- Hc. erewrite chain_while_all; [|reflexivity|exact Hch].
    unfold sret. rewrite Hf. rewrite !blen_app, !be_enc_blen. f_equal; [f_equal; f_equal; lia|]. destruct p; reflexivity. }
  rewrite Hbody. reflexivity.
Qed.
End Round.
