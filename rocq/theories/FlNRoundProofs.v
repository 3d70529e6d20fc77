From Verif Require Import Base BaseLemmas AfModel MapLib FlModel FlSpec FlSafeProofs FlDecodeProofs FlTemplateProofs FlValueProofs FlRoundProofs.

Section Round.
Context (iana : N -> option dtype) (vendor : N -> option (N -> option dtype)) (millis_ok : Z -> bool).

Lemma nspec_round s : nspec_ok s -> parses p_nspec (w_nspec s) s.
Proof.
  destruct s as [ie len]. unfold nspec_ok, p_nspec, w_nspec. cbn [ns_ie ns_len]. intros [Hlen Hie].
  assert (Hplain : forall id, id < 32768 -> scope_ie_of 0 id = ie -> in_range (scope_range ie) len = true ->
    parses (do code <- lift read_u16;; do l <- lift read_u16;;
            do pen <- (if N.land code 32768 =? 0 then ret 0 else lift read_u32);;
            let ie := scope_ie_of pen code in
            if in_range (scope_range ie) l then ret (mkNS ie l) else fail (FE_SpecLength pen code l))
      (be_enc 2 id ++ be_enc 2 len ++ []) (mkNS ie len)).
  { intros id Hid Hs Hr. eapply parses_bind; [apply parses_map_err, parses_u16; lia|].
    eapply parses_bind; [apply parses_map_err, parses_u16; lia|].
    rewrite land_top by assumption. change (0 =? 0) with true. cbn iota.
    eapply parses_bind0; [apply parses_ret|]. cbv zeta. rewrite Hs, Hr. apply parses_ret. }
  destruct ie as [| | | | |pen id]; cbn [scope_ie_pen scope_ie_id];
    try (change (0 =? 0) with true; cbn iota; apply Hplain; [lia|reflexivity|cbn [scope_range in_range]; try reflexivity; lia]).
  destruct Hie as [Hp Hid]. destruct (N.eqb_spec pen 0) as [->|Hpen].
  - destruct Hid as [H1 H2]. apply Hplain; [assumption| |reflexivity]. unfold scope_ie_of. change (0 =? 0) with true. cbn iota.
    replace (id =? 1) with false by lia. replace (id =? 2) with false by lia. replace (id =? 3) with false by lia.
    replace (id =? 4) with false by lia. replace (id =? 5) with false by lia. reflexivity.
  - cbn iota in Hid. eapply parses_bind; [apply parses_map_err, parses_u16; lia|].
    eapply parses_bind; [apply parses_map_err, parses_u16; lia|].
    replace (N.land id 32768 =? 0) with false.
    2: { symmetry. apply N.eqb_neq. assert (Hi : N.lor (id - 32768) 32768 = id) by (rewrite lor_top by lia; lia).
         rewrite <- Hi, N.land_lor_distr_l, (land_top (id - 32768)) by lia. discriminate. }
    eapply parses_bind_ret; [apply parses_map_err, parses_u32; exact Hp|]. cbv zeta.
    unfold scope_ie_of. replace (pen =? 0) with false by lia. cbn [scope_range in_range]. apply parses_ret.
Qed.
Lemma nspec_size s : blen (w_nspec s) = nspec_len s.
Proof.
  unfold w_nspec, nspec_len. rewrite !blen_app, !be_enc_blen. destruct (scope_ie_pen (ns_ie s) =? 0); rewrite ?be_enc_blen, ?blen_nil; lia.
Qed.
Lemma ne_of_len (b : list N) n : blen b = 4 + n -> b <> [].
Proof. intros H ->. rewrite blen_nil in H. lia. Qed.

Lemma ntrec_round m r : template_ok iana vendor r ->
  sparses (p_ntrec iana vendor) m (w_trec r) r (nset_ (tr_id r) (mkNT [] (tr_fields r) 0) m).
Proof.
  destruct r as [id fs]. intros (Hid & Hfs & Hn). cbn [tr_id tr_fields] in *. unfold p_ntrec, w_trec. cbn [tr_id tr_fields].
  apply sparses_peek; [reflexivity|]. rewrite be_val_enc by (change (256 ^ N.of_nat 2) with 65536; lia).
  replace (id <? 256) with false by lia.
  eapply sparses_bind; [apply sparses_plift, parses_u16; lia|]. cbv beta.
  eapply sparses_bind; [apply sparses_plift, parses_u16; unfold as_u16; lia|]. cbv beta.
  unfold as_u16. rewrite N.mod_small by assumption. rewrite blen_to_nat.
  eapply sparses_bind_ret; [apply sparses_lift, specs_round; assumption|]. cbv beta.
  eapply sparses_bind0; [apply sparses_mod|]. apply sparses_ret.
Qed.
Lemma notrec_size r : blen (w_notrec r) = notrec_len r.
Proof.
  unfold w_notrec, notrec_len. rewrite !blen_app, !be_enc_blen, (blen_flat_map w_fspec fspec_len) by apply fspec_size.
  rewrite (blen_flat_map w_nspec nspec_len) by apply nspec_size. lia.
Qed.
Lemma notrec_round m r : noptions_ok iana vendor r -> blen (w_notrec r) < 65536 ->
  sparses (p_notrec iana vendor) m (w_notrec r) r (nset_ (no_id r) (mkNT (no_scope r) (no_fields r) 0) m).
Proof.
  rewrite notrec_size. destruct r as [id ss fs]. intros (Hid & Hss & Hfs). unfold notrec_len, p_notrec, w_notrec.
  cbn [no_id no_scope no_fields] in *. intros Hlen.
  assert (H1 : blen (flat_map w_nspec ss) = nsum (map nspec_len ss)) by (apply blen_flat_map, nspec_size).
  assert (H2 : blen (flat_map w_fspec fs) = nsum (map fspec_len fs)) by (apply blen_flat_map, fspec_size).
  apply sparses_peek; [reflexivity|]. rewrite be_val_enc by (change (256 ^ N.of_nat 2) with 65536; lia).
  replace (id <? 256) with false by lia. unfold as_u16. rewrite !N.mod_small by lia.
  eapply sparses_bind; [apply sparses_plift, parses_u16; lia|]. cbv beta.
  eapply sparses_bind; [apply sparses_plift, parses_u16; lia|]. cbv beta.
  eapply sparses_bind; [apply sparses_plift, parses_u16; lia|]. cbv beta.
  apply sparses_slice; [lia|]. intros o1. rewrite <- (app_nil_r (flat_map w_fspec fs)). apply sparses_slice; [lia|]. intros o2.
  eapply sparses_bind0; [apply sparses_lift, parses_on_sub, (parses_many_all _ w_nspec)|].
  { intros x Hx. split; [apply nspec_round; rewrite Forall_forall in Hss; auto|].
    eapply ne_of_len. rewrite nspec_size. unfold nspec_len. reflexivity. }
  eapply sparses_bind0; [apply sparses_lift, parses_on_sub, (parses_many_all _ w_fspec)|].
  { intros x Hx. split; [apply spec_round; rewrite Forall_forall in Hfs; auto|].
    eapply ne_of_len. rewrite fspec_size. unfold fspec_len. reflexivity. }
  eapply sparses_bind0; [apply sparses_mod|]. apply sparses_ret.
Qed.

(* ---- records ---- *)
Lemma scope_round s f : nscope_fits s f ->
  exists b, w_nscope (f, Some (ns_len s)) = Ok b /\ parses (p_nscope s) b f /\ blen b = ns_len s.
Proof.
  intros [Hie H]. unfold p_nscope, w_nscope. cbn [fst snd]. rewrite <- Hie.
  assert (Hnum : forall v (g : N -> nscope), 1 <= ns_len s <= 4 -> v < 256 ^ ns_len s ->
    exists b, w_reduced 4 v (Some (ns_len s)) = Ok b /\
      parses (do v0 <- p_reduced32 (ns_len s);; ret (g v0)) b (g v) /\ blen b = ns_len s).
  { intros v g Hl Hv. unfold w_reduced, p_reduced32. change (N.of_nat 4) with 4. replace (4 <? ns_len s) with false by lia.
    eexists; split; [reflexivity|]. rewrite be_enc_blen, N2Nat.id. split; [|reflexivity].
    assert (Hb : v < 4294967296).
    { assert (256 ^ ns_len s <= 256 ^ 4) by (apply N.pow_le_mono_r; lia). change (256 ^ 4) with 4294967296 in *. lia. }
    eapply parses_bind_ret; [|apply parses_ret].
    eapply parses_bind_ret.
    - apply parses_map_err. rewrite <- (N2Nat.id (ns_len s)) at 1. apply parses_unsigned64; [lia|now rewrite N2Nat.id].
    - unfold as_u32. rewrite N.mod_small by assumption. apply parses_ret. }
  assert (Hraw : forall b (g : list N -> nscope), blen b = ns_len s ->
    exists b', (Ok b : res werr (list N)) = Ok b' /\
      parses (do b0 <- lift (read_bytes (ns_len s));; ret (g b0)) b' (g b) /\ blen b' = ns_len s).
  { intros b g Hb. exists b. split; [reflexivity|]. split; [|assumption].
    eapply parses_bind_ret; [apply parses_map_err, parses_bytes; now symmetry|apply parses_ret]. }
  destruct f; cbn [ie_of_scope].
  - apply (Hnum v NSystem); tauto.
  - apply (Hnum v NInterface); tauto.
  - apply (Hnum v NLineCard); tauto.
  - apply (Hraw b NCache); tauto.
  - apply (Hraw b NTemplate); tauto.
  - apply (Hraw b (NUnknown pen id)); tauto.
Qed.
Lemma scopes_round : forall specs fields lens, lens = map ns_len specs -> Forall2 nscope_fits specs fields ->
  exists b, wmapm w_nscope (with_lens fields lens) = Ok b /\ parses (pmapm p_nscope specs) b fields /\
            blen b = nsum (map ns_len specs).
Proof.
  intros specs fields lens -> H. induction H as [|s f specs fields Hf _ (b & Hw & Hp & Hl)].
  - exists []. split; [reflexivity|]. split; [apply parses_ret|reflexivity].
  - cbn [map with_lens wmapm]. apply scope_round in Hf as (b1 & Hw1 & Hp1 & Hl1). rewrite Hw1, Hw. cbn [rbind].
    eexists; split; [reflexivity|]. split.
    + cbn [pmapm]. eapply parses_bind; [exact Hp1|]. eapply parses_bind_ret; [exact Hp|apply parses_ret].
    + rewrite blen_app, nsum_cons. lia.
Qed.
Lemma plain_fields_round : forall specs fields lens, lens = map fs_len specs ->
  Forall2 (fits iana vendor millis_ok) specs fields -> Forall (fun s => fs_len s < 65535) specs ->
  exists b, wmapm (wfield iana vendor) (with_lens fields lens) = Ok b /\
            parses (pmapm (p_fspec_field iana vendor millis_ok) specs) b fields /\
            blen b = nsum (map fs_len specs).
Proof.
  intros specs fields lens -> H Hn. induction H as [|s f specs fields Hf _ IH].
  - exists []. split; [reflexivity|]. split; [apply parses_ret|reflexivity].
  - inversion Hn as [|? ? Hs Hn']; subst. destruct (IH Hn') as (b & Hw & Hp & Hl).
    cbn [map with_lens wmapm]. apply field_round in Hf as (b1 & Hw1 & Hp1 & _ & Hl1).
    unfold wfield at 1. cbn [fst snd]. rewrite Hw1. cbn [rbind]. rewrite Hw. cbn [rbind].
    eexists; split; [reflexivity|]. split.
    + cbn [pmapm]. eapply parses_bind; [exact Hp1|]. eapply parses_bind_ret; [exact Hp|apply parses_ret].
    + rewrite blen_app, nsum_cons. rewrite Hl1 by lia. lia.
Qed.
Lemma nrecord_round t x et tt r : nrecord_fits iana vendor millis_ok x r -> nsame_lengths et x ->
  Forall (fun s => fs_len s < 65535) (snd x) ->
  nt_scope t = fst x -> nt_fields t = snd x -> nt_scope tt = fst et -> nt_fields tt = snd et ->
  exists b, w_ndrec iana vendor (Some tt) r = Ok b /\ parses (p_ndrec iana vendor millis_ok t) b r /\
            blen b = n_record_len t /\ ndrec_len iana vendor (Some tt) r = n_record_len t.
Proof.
  intros [H1 H2] [E1 E2] Hn Ht1 Ht2 Hs Hf. destruct r as [rs rf]. cbn [nd_scope nd_fields] in *.
  unfold w_ndrec, ndrec_len, n_record_len. cbn [nt_scope_lens nt_field_lens nd_scope nd_fields]. rewrite Hs, Hf, E1, E2, Ht1, Ht2.
  apply scopes_round with (lens := map ns_len (fst x)) in H1 as (b1 & Hw1 & Hp1 & Hl1); [|reflexivity].
  apply plain_fields_round with (lens := map fs_len (snd x)) in H2 as (b2 & Hw2 & Hp2 & Hl2); [|reflexivity|assumption].
  rewrite Hw1, Hw2. cbn [rbind]. eexists; split; [reflexivity|].
  split; [|split; [rewrite blen_app; lia|reflexivity]].
  unfold p_ndrec. rewrite Ht1, Ht2. eapply parses_bind; [exact Hp1|]. eapply parses_bind_ret; [exact Hp2|apply parses_ret].
Qed.

(* ---- sets ---- *)
Definition nbody_of (id : N) : reader -> sparser ntmap nset := fun sub =>
  if id =? 0 then
    sdo l <- son_sub sub (swhile_all (fun r => negb (ris_empty r)) (p_ntrec iana vendor));; sret (NSTemplate l)
  else if id =? 1 then
    sdo l <- son_sub sub (sdo l <- swhile_all (fun r => 3 <? remaining r) (p_notrec iana vendor);;
                          sdo_ slift p_padding;; sret l);;
    sret (NSOptions l)
  else
    sdo m <- sget;;
    match nget id m with
    | None => sfail (FE_NoTemplate id)
    | Some t =>
      let rl := n_record_len t in
      sdo l <- son_sub sub (
        sdo l <- (if rl =? 0 then sret []
                  else swhile_all (fun r => rl <=? remaining r) (p_counted iana vendor millis_ok id t));;
        sdo_ slift p_padding;; sret l);;
      sret (NSData id l)
    end.
Lemma nset_frame id b m s m' : id < 65536 -> (id = 0 \/ id = 1 \/ 256 <= id) -> 4 + blen b < 65536 ->
  (forall off, sparses (nbody_of id (mkR b off)) m [] s m') ->
  sparses (p_nset iana vendor millis_ok) m (be_enc 2 id ++ be_enc 2 (4 + blen b) ++ b) s m'.
Proof.
  intros Hid Hk Hb H. unfold p_nset.
  apply sparses_peek; [reflexivity|]. rewrite be_val_enc by (change (256 ^ N.of_nat 2) with 65536; lia).
  replace (negb (id =? 0) && negb (id =? 1) && (id <? 256)) with false by lia.
  eapply sparses_bind; [apply sparses_plift, parses_u16; lia|]. cbv beta.
  apply sparses_peek; [reflexivity|]. rewrite be_val_enc by (change (256 ^ N.of_nat 2) with 65536; lia).
  replace (4 + blen b <? 4) with false by lia.
  eapply sparses_bind; [apply sparses_plift, parses_u16; lia|]. cbv beta.
  rewrite <- (app_nil_r b) at 2. apply sparses_slice; [lia|]. exact H.
Qed.

Lemma nview_fold_templates l m i :
  nview (fold_left (fun m r => nset_ (tr_id r) (mkNT [] (tr_fields r) 0) m) l m) i =
  after (nview m) (map (fun r => (tr_id r, ([], tr_fields r))) l) i.
Proof.
  revert m; induction l as [|r l IH]; intros m; cbn [fold_left map]; [reflexivity|].
  rewrite IH. change ((tr_id r, ([], tr_fields r)) :: map (fun r0 => (tr_id r0, ([], tr_fields r0))) l)
    with ([(tr_id r, (@nil nspec, tr_fields r))] ++ map (fun r0 => (tr_id r0, ([], tr_fields r0))) l).
  rewrite after_app. apply after_ext. intros j. rewrite nview_set, after_one. reflexivity.
Qed.
Lemma nview_fold_options l m i :
  nview (fold_left (fun m r => nset_ (no_id r) (mkNT (no_scope r) (no_fields r) 0) m) l m) i =
  after (nview m) (map (fun r => (no_id r, (no_scope r, no_fields r))) l) i.
Proof.
  revert m; induction l as [|r l IH]; intros m; cbn [fold_left map]; [reflexivity|].
  rewrite IH. change ((no_id r, (no_scope r, no_fields r)) :: map (fun r0 => (no_id r0, (no_scope r0, no_fields r0))) l)
    with ([(no_id r, (no_scope r, no_fields r))] ++ map (fun r0 => (no_id r0, (no_scope r0, no_fields r0))) l).
  rewrite after_app. apply after_ext. intros j. rewrite nview_set, after_one. reflexivity.
Qed.
Lemma ntemplates_chain cond l m : (forall r rest off, cond (mkR (w_trec r ++ rest) off) = true) ->
  Forall (template_ok iana vendor) l ->
  chain (p_ntrec iana vendor) cond m (map (fun r => (r, w_trec r)) l)
        (fold_left (fun m r => nset_ (tr_id r) (mkNT [] (tr_fields r) 0) m) l m).
Proof.
  intros Hc H. revert m; induction H as [|r l Hr _ IH]; intros m; cbn [map fold_left]; [constructor|].
  econstructor; [now apply ntrec_round|auto|apply IH].
Qed.
Lemma noptions_chain cond l m : (forall r rest off, cond (mkR (w_notrec r ++ rest) off) = true) ->
  Forall (noptions_ok iana vendor) l -> blen (flat_map w_notrec l) < 65536 ->
  chain (p_notrec iana vendor) cond m (map (fun r => (r, w_notrec r)) l)
        (fold_left (fun m r => nset_ (no_id r) (mkNT (no_scope r) (no_fields r) 0) m) l m).
Proof.
  intros Hc H. revert m; induction H as [|r l Hr _ IH]; intros m Hb; cbn [map fold_left]; [constructor|].
  cbn [flat_map] in Hb. rewrite blen_app in Hb.
  econstructor; [apply notrec_round; [assumption|lia]|auto|apply IH; lia].
Qed.
Lemma nrecords_round id t x et tt l : Forall (nrecord_fits iana vendor millis_ok x) l -> nsame_lengths et x ->
  Forall (fun s => fs_len s < 65535) (snd x) ->
  nt_scope t = fst x -> nt_fields t = snd x -> nt_scope tt = fst et -> nt_fields tt = snd et ->
  exists xs, map fst xs = l /\ wmapm (w_ndrec iana vendor (Some tt)) l = Ok (concat (map snd xs)) /\
    blen (concat (map snd xs)) = nsum (map (ndrec_len iana vendor (Some tt)) l) /\
    blen (concat (map snd xs)) = n_record_len t * blen l /\
    forall m, exists m', chain (p_counted iana vendor millis_ok id t) (fun r => n_record_len t <=? remaining r) m xs m' /\
                         forall i, nview m' i = nview m i.
Proof.
  intros H He Hn H1 H2 H3 H4. induction H as [|r l Hr Hl IH].
  - exists []. split; [reflexivity|]. split; [reflexivity|]. split; [reflexivity|]. split; [now rewrite N.mul_0_r|]. intros m. exists m. split; [constructor|reflexivity].
  - destruct IH as (xs & Hf & Hw & Hb & Hb2 & Hc).
    destruct (nrecord_round t x et tt r Hr He Hn H1 H2 H3 H4) as (b & Hw1 & Hp1 & Hl1 & Hm1).
    exists ((r, b) :: xs). cbn [map fst snd concat wmapm]. rewrite Hf, Hw1, Hw. cbn [rbind]. split; [reflexivity|].
    split; [reflexivity|]. split; [rewrite blen_app, nsum_cons; lia|]. split; [rewrite blen_app, blen_cons; lia|].
    intros m. destruct (Hc (nincr id m)) as (m' & Hc' & Hv). exists m'. split.
    + econstructor; [|intros rest off; unfold remaining; cbn [rbuf]; rewrite blen_app; lia|exact Hc'].
      unfold p_counted. eapply sparses_bind_ret; [apply sparses_lift; exact Hp1|]. cbv beta.
      eapply sparses_bind0; [apply sparses_mod|apply sparses_ret].
    + intros i. rewrite Hv. apply nview_incr.
Qed.
Lemma n_record_pos t : (exists s, In s (nt_scope t) /\ 0 < ns_len s) \/ (exists s, In s (nt_fields t) /\ 0 < fs_len s) ->
  0 < n_record_len t.
Proof.
  unfold n_record_len. intros [(s & Hi & Hs)|(s & Hi & Hs)].
  - pose proof (nsum_pos (map ns_len (nt_scope t)) (ns_len s) (in_map _ _ _ Hi) Hs). lia.
  - pose proof (nsum_pos (map fs_len (nt_fields t)) (fs_len s) (in_map _ _ _ Hi) Hs). lia.
Qed.
Lemma p_padding_nil off : p_padding (mkR [] off) = (mkR [] (off + 0), Ok tt).
Proof. reflexivity. Qed.

Lemma nset_round em m s : nset_ok iana vendor millis_ok (nview em) (nview m) s ->
  exists b, w_nset iana vendor em false s = Ok b /\ blen b = nset_len iana vendor em false s /\
  nset_records s + 4 <= blen b /\ 0 < nset_records s /\ nset_takes s <= nset_records s /\
  (single s -> nset_takes s = nset_records s) /\
  (blen b < 65536 -> exists m', sparses (p_nset iana vendor millis_ok) m b s m' /\
                                (forall i, nview m' i = after (nview m) (ntemplates_of s) i)).
Proof.
  unfold w_nset, nset_len, nset_size, nset_padding. destruct s as [l|l|id l]; cbn [nset_ok ntemplates_of nset_records nset_takes single].
  - intros [Hne H]. eexists; split; [reflexivity|]. change (repeat 0 (N.to_nat 0)) with (@nil N). rewrite app_nil_r.
    assert (Hl : blen (flat_map w_trec l) = nsum (map trec_len l)) by (apply blen_flat_map, trec_size).
    assert (Hk : blen l <= nsum (map trec_len l)).
    { clear. induction l as [|r l IH]; cbn [map]; [rewrite blen_nil; lia|]. rewrite blen_cons, nsum_cons. unfold trec_len at 1. lia. }
    assert (Hpos : 0 < blen l) by (destruct l; [congruence|rewrite blen_cons; lia]).
    rewrite !blen_app, !be_enc_blen. split; [lia|]. split; [lia|]. split; [lia|]. split; [lia|].
    split; [intros (r & ->); reflexivity|]. intros Hb.
    eexists; split; [|intros i; apply nview_fold_templates].
    rewrite <- Hl, N.add_0_r. unfold as_u16. rewrite N.mod_small by lia.
    apply nset_frame; [lia|auto|lia|]. intros off. unfold nbody_of. change (0 =? 0) with true. cbn iota.
    eapply sparses_bind0; [|apply sparses_ret]. eapply sparses_sub. rewrite <- concat_map_snd at 1.
    erewrite chain_while_all; [rewrite map_fst_pair; reflexivity|reflexivity|]. apply ntemplates_chain; [|assumption].
    intros r rest o. destruct (w_trec_ne r) as (z & b & ->). reflexivity.
  - intros [Hne H]. eexists; split; [reflexivity|]. change (repeat 0 (N.to_nat 0)) with (@nil N). rewrite app_nil_r.
    assert (Hl : blen (flat_map w_notrec l) = nsum (map notrec_len l)) by (apply blen_flat_map, notrec_size).
    assert (Hk : blen l <= nsum (map notrec_len l)).
    { clear. induction l as [|r l IH]; cbn [map]; [rewrite blen_nil; lia|]. rewrite blen_cons, nsum_cons. unfold notrec_len at 1. lia. }
    assert (Hpos : 0 < blen l) by (destruct l; [congruence|rewrite blen_cons; lia]).
    rewrite !blen_app, !be_enc_blen. split; [lia|]. split; [lia|]. split; [lia|]. split; [lia|].
    split; [intros (r & ->); reflexivity|]. intros Hb.
    eexists; split; [|intros i; apply nview_fold_options].
    rewrite <- Hl, N.add_0_r. unfold as_u16. rewrite N.mod_small by lia.
    apply nset_frame; [lia|auto|lia|]. intros off. unfold nbody_of. change (1 =? 0) with false. change (1 =? 1) with true. cbn iota.
    eapply sparses_bind0; [|apply sparses_ret]. eapply sparses_sub. rewrite <- concat_map_snd at 1.
    unfold sbind at 1. erewrite chain_while_all; [rewrite map_fst_pair; reflexivity|reflexivity|]. apply noptions_chain; [|assumption|lia].
    intros r rest o. unfold remaining; cbn [rbuf]. rewrite blen_app, notrec_size. unfold notrec_len. lia.
  - intros (Hid & Hne & lay & elay & Hv & Hev & Hs & Hl & Hn & Hmin).
    unfold nview in Hv, Hev. destruct (nget id m) as [t|] eqn:Et; [|discriminate Hv]. destruct (nget id em) as [tt|] eqn:Ett; [|discriminate Hev].
    inversion Hv; subst lay. inversion Hev; subst elay. cbn [fst snd] in *.
    assert (Hpos : 0 < n_record_len t) by (now apply n_record_pos).
    destruct (nrecords_round id t _ _ tt l Hl Hs Hn eq_refl eq_refl eq_refl eq_refl) as (xs & Hf & Hw & Hb & Hb2 & Hc).
    rewrite Hw. cbn [rbind]. eexists; split; [reflexivity|]. change (repeat 0 (N.to_nat 0)) with (@nil N). rewrite app_nil_r.
    assert (Hpos2 : 0 < blen l) by (destruct l; [congruence|rewrite blen_cons; lia]).
    assert (Hk : blen l <= n_record_len t * blen l) by nia.
    rewrite !blen_app, !be_enc_blen. split; [lia|]. split; [lia|]. split; [lia|]. split; [lia|].
    split; [reflexivity|]. intros Hb'. rewrite <- Hb, N.add_0_r.
    unfold as_u16. rewrite N.mod_small by lia. destruct (Hc m) as (m' & Hch & Hv').
    exists m'. split; [|exact Hv'].
    apply nset_frame; [lia|lia|lia|]. intros off. unfold nbody_of.
    replace (id =? 0) with false by lia. replace (id =? 1) with false by lia.
    eapply sparses_bind0; [intros rest o; unfold sget; cbn [app]; rewrite blen_nil, N.add_0_r; reflexivity|]. cbv beta. rewrite Et.
    cbv zeta. replace (n_record_len t =? 0) with false by lia.
    eapply sparses_bind0; [eapply sparses_sub; unfold sbind at 1; erewrite chain_while_all; [|intros o; unfold remaining; cbn [rbuf]; rewrite blen_nil; lia|apply Hch]|].
    + unfold sbind, slift. rewrite p_padding_nil. reflexivity.
    + cbv beta. rewrite Hf. apply sparses_ret.
Qed.

Lemma nset_ok_ext enc v v' s : (forall i, v i = v' i) -> nset_ok iana vendor millis_ok enc v s -> nset_ok iana vendor millis_ok enc v' s.
Proof.
  intros E. destruct s; cbn; auto. intros (Hid & Hne & lay & elay & H). split; [exact Hid|]. split; [exact Hne|].
  exists lay, elay. rewrite <- E. exact H.
Qed.
Lemma nsets_ok_ext enc l : forall v v', (forall i, v i = v' i) ->
  nsets_ok iana vendor millis_ok enc v l -> nsets_ok iana vendor millis_ok enc v' l.
Proof.
  induction l as [|s l IH]; intros v v' E; cbn [nsets_ok]; [auto|]. intros [H1 H2]. split; [eapply nset_ok_ext; eauto|].
  eapply IH; [|exact H2]. intros i. now apply after_ext.
Qed.
Lemma nview_exists (v : N -> option nlayout) m es : (forall i, v i = after (nview m) es i) -> exists m1, forall i, nview m1 i = v i.
Proof.
  intros Hv. exists (fold_left (fun m e => nset_ (fst e) (mkNT (fst (snd e)) (snd (snd e)) 0) m) es m).
  intros i. rewrite Hv. clear. revert m.
  induction es as [|[j [sc fl]] es IH]; intros m; cbn [fold_left fst snd]; [reflexivity|].
  rewrite IH. change ((j, (sc, fl)) :: es) with ([(j, (sc, fl))] ++ es). rewrite after_app. apply after_ext.
  intros k. rewrite nview_set, after_one. reflexivity.
Qed.
Definition reads_back (em : ntmap) (l : list nset) (bs : list N) (m : ntmap) : Prop :=
  forall rest fuel count i off, (length l <= fuel)%nat ->
  (blen rest < 4 /\ nsum (map nset_records l) <= i) \/ (Forall single l /\ i = nsum (map nset_records l)) ->
  exists m', p_nsets iana vendor millis_ok fuel count i m (mkR (bs ++ rest) off) = (m', mkR rest (off + blen bs), Ok l) /\
             (forall j, nview m' j = after (nview m) (flat_map ntemplates_of l) j).
Lemma nsets_round em : forall l m, nsets_ok iana vendor millis_ok (nview em) (nview m) l ->
  exists bs, wmapm (w_nset iana vendor em false) l = Ok bs /\ blen bs = nsum (map (nset_len iana vendor em false) l) /\
  nsum (map nset_records l) + 4 * blen l <= blen bs /\ (blen bs < 65536 -> reads_back em l bs m).
Proof.
  induction l as [|s l IH]; intros m; cbn [nsets_ok].
  - intros _. exists []. split; [reflexivity|]. split; [reflexivity|]. split; [vm_compute; discriminate|].
    intros _ rest fuel count i off _ Hc. exists m. split; [|reflexivity]. cbn [app map nsum fold_right] in *.
    assert (E : (0 <? i) && (3 <? remaining (mkR rest off)) = false).
    { unfold remaining; cbn [rbuf]. destruct Hc as [[Hr _]|[_ ->]]; lia. }
    destruct fuel; cbn [p_nsets]; rewrite E, blen_nil, N.add_0_r; reflexivity.
  - intros [Hs Hl]. destruct (nset_round em m s Hs) as (b & Hw & Hb & Hk & Hpos & Htk & Hsg & Hp).
    destruct (nview_exists _ m (ntemplates_of s) (fun i => eq_refl)) as (m0 & Hm0).
    destruct (IH m0) as (bs & Hw2 & Hb2 & Hk2 & _).
    { eapply nsets_ok_ext; [|exact Hl]. intros i. now rewrite Hm0. }
    cbn [wmapm map]. rewrite Hw, Hw2. cbn [rbind].
    exists (b ++ bs). split; [reflexivity|]. rewrite blen_app, !nsum_cons, blen_cons. split; [lia|]. split; [lia|]. intros Hlt.
    destruct Hp as (m1 & Hp1 & Hv1); [lia|].
    destruct (IH m1) as (bs' & Hw3 & _ & _ & Hrb).
    { eapply nsets_ok_ext; [|exact Hl]. intros i. now rewrite Hv1. }
    rewrite Hw2 in Hw3. inversion Hw3; subst bs'. specialize (Hrb ltac:(lia)).
    intros rest fuel count i off Hfuel Hc. cbn [map] in Hc. rewrite nsum_cons in Hc.
    destruct fuel as [|fuel]; [cbn in Hfuel; lia|]. cbn [p_nsets].
    assert (E : (0 <? i) && (3 <? remaining (mkR ((b ++ bs) ++ rest) off)) = true).
    { unfold remaining; cbn [rbuf]. rewrite !blen_app. destruct Hc as [[_ Hr]|[_ ->]]; lia. }
    rewrite E. unfold sbind. rewrite <- app_assoc, Hp1.
    replace (i <? nset_takes s) with false by (destruct Hc as [[_ Hr]|[_ ->]]; lia).
    destruct (Hrb rest fuel count (i - nset_takes s) (off + blen b)) as (m' & Hr & Hv').
    { cbn in Hfuel. lia. }
    { destruct Hc as [[H1 H2]|[H1 H2]].
      - left. split; [exact H1|]. lia.
      - right. inversion H1 as [|? ? Hs1 Hs2]; subst. split; [exact Hs2|]. rewrite (Hsg Hs1). lia. }
    rewrite Hr. unfold sret. exists m'. split; [f_equal; f_equal; f_equal; rewrite blen_app; lia|].
    intros j. rewrite Hv'. cbn [flat_map]. rewrite after_app. apply after_ext. exact Hv1.
Qed.

Lemma npacket_round enc dec p : nheader_ok p ->
  nsets_ok iana vendor millis_ok (ncached enc) (ncached dec) (np_sets p) ->
  exists b, encode iana vendor enc (NetFlow p) = Ok b /\
  (blen b < 65536 -> forall rest, blen rest < 4 \/ Forall single (np_sets p) ->
     exists dec', decode iana vendor millis_ok dec (b ++ rest) = (dec', rest, Packet (NetFlow p)) /\
     c_ipfix dec' = c_ipfix dec /\ forall i, ncached dec' i = nin_force (ncached dec) (np_sets p) i).
Proof.
  intros (Hu & Ht & Hq & Hd) Hs. change (256 ^ 4) with 4294967296 in *.
  destruct (nsets_round (c_netflow enc) (np_sets p) (c_netflow dec) Hs) as (bs & Hw & Hb & Hk & Hp).
  cbn [encode]. unfold w_npkt. rewrite Hw. cbn [rbind]. eexists; split; [reflexivity|].
  rewrite !blen_app, !be_enc_blen. intros Hlt rest Hrest. specialize (Hp ltac:(lia)).
  set (count := nsum (map nset_records (np_sets p))) in *.
  unfold as_u16. rewrite N.mod_small by lia. rewrite <- !app_assoc.
  set (buf := be_enc 2 9 ++ _).
  assert (Hblen : blen buf = 20 + blen bs + blen rest) by (subst buf; rewrite !blen_app, !be_enc_blen; lia).
  assert (Hver : version_of buf = 9) by reflexivity.
  assert (Hdecl : declared buf = count).
  { subst buf. cbn [be_enc app declared]. lia. }
  rewrite decode_long by (rewrite ?Hblen, ?Hdecl; lia). rewrite Hver. change (9 =? 10) with false. change (9 =? 9) with true. cbn iota.
  unfold decode_netflow.
  assert (Hpk : exists m', p_npkt iana vendor millis_ok (c_netflow dec) (rnew buf) = (m', mkR rest (20 + blen bs), Ok p) /\
                           forall i, nview m' i = after (nview (c_netflow dec)) (flat_map ntemplates_of (np_sets p)) i).
  { unfold p_npkt, rnew. subst buf.
    erewrite sstep by (apply (peek_app (be_enc 2 9) 2); reflexivity).
    rewrite be_val_enc by (vm_compute; reflexivity). change (9 =? 9) with true. cbn [negb].
    erewrite sstep by (apply (parses_u16 9); lia).
    erewrite sstep by (apply (parses_u16 count); lia).
    erewrite sstep by (apply (parses_u32 (np_uptime p)); assumption).
    erewrite sstep by (apply (parses_u32 (np_time p)); assumption).
    erewrite sstep by (apply (parses_u32 (np_seq p)); assumption).
    erewrite sstep by (apply (parses_u32 (np_source p)); assumption).
    unfold sbind. cbn [rbuf]. rewrite !be_enc_blen.
    destruct (Hp rest (S (length (bs ++ rest))) count count (0 + N.of_nat 2 + N.of_nat 2 + N.of_nat 4 + N.of_nat 4 + N.of_nat 4 + N.of_nat 4))
      as (m' & Hr & Hv).
    { rewrite app_length. unfold blen in Hk. lia. }
    { destruct Hrest as [Hr|Hr]; [left; split; [assumption|subst count; lia]|right; split; [assumption|reflexivity]]. }
    exists m'. split; [|exact Hv]. rewrite Hr. unfold sret. destruct p. f_equal.  }
  destruct Hpk as (m' & Hpk & Hv). rewrite Hpk. cbn [roff].
  exists (mkC m' (c_ipfix dec)). split; [|split; [reflexivity|exact Hv]].
  f_equal. f_equal. subst buf. rewrite !app_assoc. apply drop_app_exact. rewrite !blen_app, !be_enc_blen. lia.
Qed.
End Round.
