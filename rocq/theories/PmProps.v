(* BMP messages as pmacct records. *)
From Verif Require Import Base BaseLemmas AfModel BgpNlriModel BgpNlriSpec BgpAttrModel BgpAttrSpec BgpAttrProofs
  BgpMsgModel BmpModel PmModel PmSpec PmProofs.
From Verif Require NcModel EcModel.
From Coq Require Import String.
Local Notation dec := NcModel.dec.

Section Props.
Variable ext_text : list N -> text.
Variable label_index : list N -> option N.
Variable debug_info : info -> text.
Local Notation convert := (try_from_bmp_request ext_text label_index debug_info).
Local Notation gathered_of u := (fold_left (gather ext_text label_index) (u_attrs u) no_attrs).

(* ---- what all records of one message share ---- *)
Lemma route_common c h u ms : convert_route_monitoring ext_text label_index c h (MUpdate u) = Ok ms ->
  exists t, ph_time h = Some t /\
  Forall (fun m => exists r, m = PRoute r /\ rr_attrs r = with_path (gathered_of u) /\ rr_peer r = peer_of h /\
                             rr_env r = env_of c (fmt_ts t)) ms.
Proof.
  unfold convert_route_monitoring, peer_header_ts. destruct (ph_time h) as [t|]; [|discriminate]. cbn [rbind].
  intros E. exists t. split; [reflexivity|].
  assert (B : forall log afi safi p r nh pid l,
    exists x, build (with_path (gathered_of u)) (peer_of h) (env_of c (fmt_ts t)) log afi safi p r nh pid l = PRoute x /\
    rr_attrs x = with_path (gathered_of u) /\ rr_peer x = peer_of h /\ rr_env x = env_of c (fmt_ts t)).
  { intros. eexists. split; [reflexivity|]. auto. }
  destruct (end_of_rib u); injection E as <-; [repeat constructor; apply B|].
  repeat (apply Forall_app; split).
  - apply Forall_map, Forall_forall. intros x _. apply B.
  - apply Forall_map, Forall_forall. intros x _. apply B.
  - destruct (g_reach _) as [m|]; [|constructor].
    destruct m as [t' nh xs|t' nh v|a s v]; cbn [reach_records]; [|repeat constructor; apply B|repeat constructor; apply B].
    destruct t'; try (repeat constructor; apply B); apply Forall_flat_map, Forall_forall; intros x _;
      destruct x; cbn; repeat constructor; apply B.
  - destruct (g_unreach _) as [m|]; [|constructor].
    destruct m as [t' xs|t' v|a s v]; cbn [unreach_records]; [|repeat constructor; apply B|repeat constructor; apply B].
    destruct t'; try (repeat constructor; apply B); apply Forall_flat_map, Forall_forall; intros x _;
      destruct x; cbn; repeat constructor; apply B.
Qed.
Lemma monitors_convert c m h u : monitors m h u ->
  convert c m = convert_route_monitoring ext_text label_index c h (MUpdate u).
Proof. intros [->|[l ->]]; reflexivity. Qed.

(* ---- C200: routes ---- *)
Lemma next_hop_gathered u nh : next_hop_is u nh -> option_map ipv4_addr (g_next_hop (gathered_of u)) = nh.
Proof.
  intros [[Ha ->]|[ip [Hs ->]]].
  - rewrite (fold_absent ext_text label_index g_next_hop 3 u no_attrs (keep_next_hop _ _) Ha). reflexivity.
  - rewrite (fold_sole ext_text label_index g_next_hop (ANextHop ip) (Some ip) u no_attrs (keep_next_hop _ _)); [reflexivity| |exact Hs].
    intros g a E. unfold gather. rewrite E. reflexivity.
Qed.
Lemma flat_absent {B} (f : attr_value -> list B) c u :
  (forall v, code_of v <> c -> f v = []) -> absent c u -> flat_map f (values u) = [].
Proof.
  intros H. unfold absent. induction 1 as [|v l Hv Hl IH]; [reflexivity|]. cbn. rewrite H, IH; auto.
Qed.
Lemma flat_sole {B} (f : attr_value -> list B) v u :
  (forall w, code_of w <> code_of v -> f w = []) -> sole v u -> flat_map f (values u) = f v.
Proof.
  intros H (a & b & E & F). rewrite E. apply Forall_app in F. destruct F as [Fa Fb].
  assert (Z : forall l, Forall (fun w => code_of w <> code_of v) l -> flat_map f l = []).
  { induction 1 as [|w l Hw Hl IH]; [reflexivity|]. cbn. rewrite H, IH; auto. }
  rewrite flat_map_app. cbn [flat_map]. rewrite (Z a Fa), (Z b Fb), app_nil_r. reflexivity.
Qed.
Lemma sole_in v u : sole v u -> In v (values u).
Proof. intros (a & b & E & _). rewrite E. apply in_or_app. right. left. reflexivity. Qed.
Lemma reach_gathered c h u t : prefix_update u ->
  Forall2 states
    (match g_reach (gathered_of u) with Some mr => reach_records (with_path (gathered_of u)) (peer_of h) (env_of c t) (rd_and_origin (ph_rd h) OBmp) mr | None => [] end)
    (flat_map (reach_facts (ph_rd h)) (values u)).
Proof.
  intros (Hr & _ & Hf). rewrite Forall_forall in Hf.
  assert (K : forall v, code_of v <> 14 -> reach_facts (ph_rd h) v = []) by (intros []; cbn; try reflexivity; congruence).
  destruct Hr as [Ha|(m & Hs)].
  - rewrite (fold_absent ext_text label_index g_reach 14 u no_attrs (keep_reach _ _) Ha), (flat_absent _ 14); auto. constructor.
  - rewrite (flat_sole (reach_facts (ph_rd h)) (AMpReach m) u K Hs). specialize (Hf _ (sole_in _ _ Hs)).
    rewrite (fold_sole ext_text label_index g_reach (AMpReach m) (Some m) u no_attrs (keep_reach _ _)); [| |exact Hs].
    2:{ intros g a E. unfold gather. rewrite E. reflexivity. }
    destruct m as [t' nh xs|?|?]; try contradiction. destruct Hf as [Hf1 Hf2].
    apply (family_states (with_path (gathered_of u)) (peer_of h) (env_of c t) (ph_rd h) LUpdate t'); auto.
Qed.
Lemma unreach_gathered c h u t : prefix_update u ->
  Forall2 states
    (match g_unreach (gathered_of u) with Some mu => unreach_records (with_path (gathered_of u)) (peer_of h) (env_of c t) (rd_and_origin (ph_rd h) OBmp) mu | None => [] end)
    (flat_map (unreach_facts (ph_rd h)) (values u)).
Proof.
  intros (_ & Hr & Hf). rewrite Forall_forall in Hf.
  assert (K : forall v, code_of v <> 15 -> unreach_facts (ph_rd h) v = []) by (intros []; cbn; try reflexivity; congruence).
  destruct Hr as [Ha|(m & Hs)].
  - rewrite (fold_absent ext_text label_index g_unreach 15 u no_attrs (keep_unreach _ _) Ha), (flat_absent _ 15); auto. constructor.
  - rewrite (flat_sole (unreach_facts (ph_rd h)) (AMpUnreach m) u K Hs). specialize (Hf _ (sole_in _ _ Hs)).
    rewrite (fold_sole ext_text label_index g_unreach (AMpUnreach m) (Some m) u no_attrs (keep_unreach _ _)); [| |exact Hs].
    2:{ intros g a E. unfold gather. rewrite E. reflexivity. }
    destruct m as [t' xs|?|?]; try contradiction. destruct Hf as [Hf1 Hf2].
    apply (family_states (with_path (gathered_of u)) (peer_of h) (env_of c t) (ph_rd h) LWithdraw t'); auto.
Qed.
(* an End-of-RIB result leaves no place for a route *)
Lemma eor_no_routes u t : end_of_rib u = Some t -> ~ has_routes u.
Proof.
  unfold end_of_rib. destruct (u_nlri u) eqn:En; [|discriminate]. destruct (u_withdrawn u) eqn:Ew; [|discriminate].
  intros H [Hr|[Hr|Hr]]; [congruence|congruence|].
  destruct (u_attrs u) as [|a l] eqn:Ea.
  { unfold values in Hr. rewrite Ea in Hr. inversion Hr. }
  apply eor_some in H. destruct H as (x & v & y & E & Fx & Fy & Hv). unfold values in Hr. rewrite Ea, E, map_app in Hr.
  cbn [map] in Hr. rewrite Exists_app, Exists_cons in Hr.
  assert (Z : forall l, mp_free l -> Exists (fun v => match v with
                   | AMpReach (MrKnown _ _ xs) | AMpUnreach (MuKnown _ xs) => xs <> []
                   | AMpReach (MrOpaque _ _ v) | AMpReach (MrUnknown _ _ v)
                   | AMpUnreach (MuOpaque _ v) | AMpUnreach (MuUnknown _ _ v) => v <> []
                   | _ => False
                   end) (map pa_val l) -> False).
  { intros l0 F X. unfold mp_free in F. rewrite Forall_forall in F. rewrite Exists_exists in X. destruct X as (w & Hw & X).
    apply in_map_iff in Hw. destruct Hw as (b & <- & Hb). specialize (F b Hb). destruct (pa_val b); try contradiction. }
  destruct Hr as [Hr|[Hr|Hr]]; [exact (Z _ Fx Hr)| |exact (Z _ Fy Hr)].
  destruct Hv as [Hv|Hv]; rewrite Hv in Hr; congruence.
Qed.
Lemma facts_routes d nh u : prefix_update u -> routes_of d nh u <> [] -> has_routes u.
Proof.
  intros (_ & _ & _) H. unfold routes_of in H. unfold has_routes.
  destruct (u_nlri u) eqn:En; [|left; discriminate]. destruct (u_withdrawn u) eqn:Ew; [|right; left; discriminate].
  right. right. cbn [map app] in H.
  destruct (Exists_dec (fun v => match v with
                   | AMpReach (MrKnown _ _ xs) | AMpUnreach (MuKnown _ xs) => xs <> []
                   | AMpReach (MrOpaque _ _ v) | AMpReach (MrUnknown _ _ v)
                   | AMpUnreach (MuOpaque _ v) | AMpUnreach (MuUnknown _ _ v) => v <> []
                   | _ => False
                   end) (values u)) as [Y|Nn]; [| exact Y|].
  - intros v. destruct v as [ | | | | | | | | | | | | | |m|m| | | | |]; try (right; tauto).
    + destruct m as [? ? [|]|? ? [|]|? ? [|]]; try (right; tauto); left; discriminate.
    + destruct m as [? [|]|? [|]|? ? [|]]; try (right; tauto); left; discriminate.
  - exfalso. apply H. rewrite <- Forall_Exists_neg in Nn. revert Nn. generalize (values u). clear. intros l F.
    assert (flat_map (reach_facts d) l = [] /\ flat_map (unreach_facts d) l = []) as [-> ->]; [|reflexivity].
    induction F as [|v l Hv F [IH1 IH2]]; [split; reflexivity|]. cbn [flat_map]. rewrite IH1, IH2, !app_nil_r.
    destruct v as [ | | | | | | | | | | | | | |m|m| | | | |]; try (split; reflexivity).
    + destruct m as [? ? [|]|? ? [|]|? ? [|]]; try (split; reflexivity). exfalso. apply Hv. discriminate.
    + destruct m as [? [|]|? [|]|? ? [|]]; try (split; reflexivity). exfalso. apply Hv. discriminate.
Qed.

(* each route of an UPDATE is one record, in order, with its own prefix, path
   identifier, family, distinguisher, next hop and label *)
Theorem C200_one_record_per_route : forall c m h u t nh,
  monitors m h u -> ph_time h = Some t -> prefix_update u -> next_hop_is u nh -> has_routes u ->
  exists ms, convert c m = Ok ms /\ Forall2 states ms (routes_of (ph_rd h) nh u).
Proof.
  intros c m h u t nh Hm Ht Hp Hn Hr. rewrite (monitors_convert c m h u Hm).
  unfold convert_route_monitoring, peer_header_ts. rewrite Ht. cbn [rbind].
  destruct (end_of_rib u) as [f|] eqn:Ee; [exfalso; exact (eor_no_routes u f Ee Hr)|].
  eexists. split; [reflexivity|]. unfold routes_of. rewrite (next_hop_gathered u nh Hn).
  apply Forall2_app; [apply Forall2_map_same; intros x; apply body_states|].
  apply Forall2_app; [apply Forall2_map_same; intros x; apply body_states|].
  apply Forall2_app; [apply reach_gathered, Hp|apply unreach_gathered, Hp].
Qed.

(* ---- C201: attributes ---- *)
Lemma fold_sole_at {B} (pi : gathered -> B) v (x : B) u g :
  (forall g a, code_of (pa_val a) <> code_of v -> pi (gather ext_text label_index g a) = pi g) ->
  (forall g' a, pi g' = pi g -> pa_val a = v -> pi (gather ext_text label_index g' a) = x) ->
  sole v u -> pi (fold_left (gather ext_text label_index) (u_attrs u) g) = x.
Proof.
  intros H Hv (a & b & E & F). unfold values in E.
  apply map_eq_app in E. destruct E as (xs & ys & Ex & Ea & Eb).
  destruct ys as [|y ys]; [discriminate|]. cbn [map] in Eb. injection Eb as Ey Eys. subst a b.
  apply Forall_app in F. destruct F as [F1 F2].
  rewrite Ex, fold_left_app. cbn [fold_left]. rewrite (fold_keep _ _ pi (code_of v)); [|exact H|exact F2].
  apply Hv; [|exact Ey]. apply (fold_keep _ _ pi (code_of v)); [exact H|exact F1].
Qed.
Lemma shown u v : sole v u -> attr_shown ext_text label_index (with_path (gathered_of u)) v.
Proof.
  intros Hs. destruct v as [o| | | |x|x| | |cs|cs| |cs| | | | |x|x| |x| ]; cbn [attr_shown with_path af_origin af_med af_local_pref af_comms af_ecomms af_lcomms af_otc af_aigp af_psid]; try exact I.
  - refine (fold_sole ext_text label_index (fun g => af_origin (g_fields g)) (AOrigin o) _ u no_attrs (keep_origin _ _) _ Hs).
    intros g a E. unfold gather. rewrite E. reflexivity.
  - refine (fold_sole ext_text label_index (fun g => af_med (g_fields g)) (AMed x) _ u no_attrs (keep_med _ _) _ Hs).
    intros g a E. unfold gather. rewrite E. reflexivity.
  - refine (fold_sole ext_text label_index (fun g => af_local_pref (g_fields g)) (ALocalPref x) _ u no_attrs (keep_lp _ _) _ Hs).
    intros g a E. unfold gather. rewrite E. reflexivity.
  - refine (fold_sole ext_text label_index (fun g => af_comms (g_fields g)) (ACommunities cs) _ u no_attrs (keep_comms _ _) _ Hs).
    intros g a E. unfold gather. rewrite E. cbn. unfold fmt_comms. rewrite join_spaced. reflexivity.
  - refine (fold_sole ext_text label_index (fun g => af_ecomms (g_fields g)) (AExtComm cs) _ u no_attrs (keep_ecomms _ _) _ Hs).
    intros g a E. unfold gather. rewrite E. cbn. rewrite join_spaced. reflexivity.
  - refine (fold_sole ext_text label_index (fun g => af_lcomms (g_fields g)) (ALargeComm cs) _ u no_attrs (keep_lcomms _ _) _ Hs).
    intros g a E. unfold gather. rewrite E. cbn. unfold fmt_lcomms. rewrite join_spaced. f_equal. f_equal.
    apply map_ext. intros [[p q] r]. reflexivity.
  - refine (fold_sole ext_text label_index (fun g => af_otc (g_fields g)) (AOtc x) _ u no_attrs (keep_otc _ _) _ Hs).
    intros g a E. unfold gather. rewrite E. reflexivity.
  - intros Hx. refine (fold_sole ext_text label_index (fun g => af_aigp (g_fields g)) (AAigp x) _ u no_attrs (keep_aigp _ _) _ Hs).
    intros g a E. unfold gather. rewrite E. cbn. unfold u64_to_i64_clamp, i64_max. f_equal.
    change (2 ^ 63) with 9223372036854775808 in Hx. replace (x <=? 9223372036854775807) with true by (symmetry; apply N.leb_le; lia). reflexivity.
  - refine (fold_sole_at (fun g => af_psid (g_fields g)) (APrefixSid x) _ u no_attrs (keep_psid _ _) _ Hs).
    intros g a E0 E. unfold gather. rewrite E. destruct (label_index x); [reflexivity|exact E0].
Qed.
(* every record of an UPDATE shows each attribute that occurs once, and no
   value for one that does not occur *)
Theorem C201_attributes_shown : forall c m h u ms r,
  monitors m h u -> convert c m = Ok ms -> In (PRoute r) ms ->
  (forall v, sole v u -> attr_shown ext_text label_index (rr_attrs r) v) /\
  (forall code, absent code u -> attr_missing (rr_attrs r) code).
Proof.
  intros c m h u ms r Hm H Hi. rewrite (monitors_convert c m h u Hm) in H. apply route_common in H.
  destruct H as (t & _ & F). rewrite Forall_forall in F. destruct (F _ Hi) as (x & E & Ex & _). injection E as <-. rewrite Ex.
  split; [intros v; apply shown|].
  intros code Ha. unfold attr_missing. cbn [with_path af_origin af_med af_local_pref af_comms af_ecomms af_lcomms af_otc af_aigp af_psid].
  repeat split; intros ->.
  - apply (fold_absent ext_text label_index (fun g => af_origin (g_fields g)) 1 u no_attrs (keep_origin _ _) Ha).
  - apply (fold_absent ext_text label_index (fun g => af_med (g_fields g)) 4 u no_attrs (keep_med _ _) Ha).
  - apply (fold_absent ext_text label_index (fun g => af_local_pref (g_fields g)) 5 u no_attrs (keep_lp _ _) Ha).
  - apply (fold_absent ext_text label_index (fun g => af_comms (g_fields g)) 8 u no_attrs (keep_comms _ _) Ha).
  - apply (fold_absent ext_text label_index (fun g => af_ecomms (g_fields g)) 16 u no_attrs (keep_ecomms _ _) Ha).
  - apply (fold_absent ext_text label_index (fun g => af_lcomms (g_fields g)) 32 u no_attrs (keep_lcomms _ _) Ha).
  - apply (fold_absent ext_text label_index (fun g => af_otc (g_fields g)) 35 u no_attrs (keep_otc _ _) Ha).
  - apply (fold_absent ext_text label_index (fun g => af_aigp (g_fields g)) 26 u no_attrs (keep_aigp _ _) Ha).
  - apply (fold_absent ext_text label_index (fun g => af_psid (g_fields g)) 40 u no_attrs (keep_psid _ _) Ha).
Qed.

(* ---- C202: End-of-RIB ---- *)
(* the marker of a family the decoder knows is one record that names it *)
Theorem C202_marker_reported : forall c m h u t afi safi,
  monitors m h u -> ph_time h = Some t -> end_of_rib_marker u afi safi ->
  (forall v, In v (values u) -> match v with AMpUnreach (MuUnknown _ _ _) => False | _ => True end) ->
  exists r, convert c m = Ok [PRoute r] /\ rr_log r = LEndOfRib /\ rr_afi r = afi /\ rr_safi r = safi /\
  rr_prefix r = None /\ rr_nexthop r = None.
Proof.
  intros c m h u t afi safi Hm Ht ((En & Ew) & Hk) Hv. rewrite (monitors_convert c m h u Hm).
  unfold convert_route_monitoring, peer_header_ts. rewrite Ht. cbn [rbind]. unfold end_of_rib. rewrite En, Ew.
  destruct Hk as [(-> & -> & ->)|(v & E & Hemp)]; [eexists; split; [reflexivity|]; auto|].
  unfold values in *. destruct (u_attrs u) as [|a [|b l]]; try discriminate E. cbn [map] in E. injection E as E.
  specialize (Hv v ltac:(cbn; auto)). rewrite <- E in Hv, Hemp. cbn [eor_loop].
  destruct (pa_val a) as [ | | | | | | | | | | | | | | |m'| | | | |]; try contradiction.
  change (1 <? 0 + 1) with false. cbn iota.
  destruct m' as [f [|x xs]|f [|x xs]|? ? ?]; cbn [empty_unreach] in Hemp; try contradiction; destruct Hemp as [-> ->];
    (eexists; split; [reflexivity|]; auto 10).
Qed.
(* a record that says End-of-RIB comes alone, from an UPDATE without routes *)
Theorem C202_only_without_routes : forall c m h u ms r,
  monitors m h u -> convert c m = Ok ms -> In (PRoute r) ms -> rr_log r = LEndOfRib ->
  ms = [PRoute r] /\ ~ has_routes u.
Proof.
  intros c m h u ms r Hm H Hi Hl. rewrite (monitors_convert c m h u Hm) in H. revert H.
  unfold convert_route_monitoring, peer_header_ts. destruct (ph_time h) as [t|]; [|discriminate]. cbn [rbind].
  destruct (end_of_rib u) as [f|] eqn:Ee; intros H; injection H as <-.
  - destruct Hi as [Hi|[]]. rewrite Hi. split; [reflexivity|]. apply (eor_no_routes u f Ee).
  - exfalso. rewrite !in_app_iff in Hi. destruct Hi as [Hi|[Hi|[Hi|Hi]]].
    + apply in_map_iff in Hi. destruct Hi as (x & E & _). injection E as <-. discriminate Hl.
    + apply in_map_iff in Hi. destruct Hi as (x & E & _). injection E as <-. discriminate Hl.
    + destruct (g_reach _) as [m'|]; [|contradiction]. destruct m' as [f nh xs|f nh v|a s v]; cbn [reach_records] in Hi.
      * destruct f; try (destruct Hi as [E|[]]; injection E as <-; discriminate Hl);
          apply in_flat_map in Hi; destruct Hi as (x & _ & Hi); destruct x; try contradiction;
          destruct Hi as [E|[]]; injection E as <-; discriminate Hl.
      * destruct Hi as [E|[]]. injection E as <-. discriminate Hl.
      * destruct Hi as [E|[]]. injection E as <-. discriminate Hl.
    + destruct (g_unreach _) as [m'|]; [|contradiction]. destruct m' as [f xs|f v|a s v]; cbn [unreach_records] in Hi.
      * destruct f; try (destruct Hi as [E|[]]; injection E as <-; discriminate Hl);
          apply in_flat_map in Hi; destruct Hi as (x & _ & Hi); destruct x; try contradiction;
          destruct Hi as [E|[]]; injection E as <-; discriminate Hl.
      * destruct Hi as [E|[]]. injection E as <-. discriminate Hl.
      * destruct Hi as [E|[]]. injection E as <-. discriminate Hl.
Qed.

(* ---- C203: the AS path ---- *)
Lemma path_shown u : af_path (with_path (gathered_of u)) =
  merge_as_path (g_as_path (gathered_of u)) (g_as4_path (gathered_of u)).
Proof. reflexivity. Qed.
Lemma as_path_gathered u four ss : sole (AAsPath four ss) u -> g_as_path (gathered_of u) = Some ss.
Proof.
  intros Hs. refine (fold_sole ext_text label_index g_as_path (AAsPath four ss) _ u no_attrs (keep_as_path _ _) _ Hs).
  intros g a E. unfold gather. rewrite E. reflexivity.
Qed.
Lemma as4_path_gathered u ss : sole (AAs4Path ss) u -> g_as4_path (gathered_of u) = Some ss.
Proof.
  intros Hs. refine (fold_sole ext_text label_index g_as4_path (AAs4Path ss) _ u no_attrs (keep_as4_path _ _) _ Hs).
  intros g a E. unfold gather. rewrite E. reflexivity.
Qed.
(* without AS4_PATH the record shows the AS_PATH, hop by hop *)
Theorem C203_as_path_shown : forall c m h u ms r four ss,
  monitors m h u -> convert c m = Ok ms -> In (PRoute r) ms ->
  sole (AAsPath four ss) u -> absent 17 u ->
  af_path (rr_attrs r) = Some (path_text (hops ss)).
Proof.
  intros c m h u ms r four ss Hm H Hi Hs Ha. rewrite (monitors_convert c m h u Hm) in H. apply route_common in H.
  destruct H as (t & _ & F). rewrite Forall_forall in F. destruct (F _ Hi) as (x & E & Ex & _). injection E as <-. rewrite Ex.
  rewrite path_shown, (as_path_gathered u four ss Hs).
  rewrite (fold_absent ext_text label_index g_as4_path 17 u no_attrs (keep_as4_path _ _) Ha). cbn [merge_as_path g_as4_path no_attrs].
  rewrite fmt_path_text. reflexivity.
Qed.
(* a two-octet speaker saw the path behind [pre] as AS_PATH and passed it on
   as AS4_PATH: the record shows the whole path with four-octet numbers *)
Theorem C203_path_reconstructed : forall c m h u ms r ap a4 pre,
  monitors m h u -> convert c m = Ok ms -> In (PRoute r) ms ->
  sole (AAsPath false ap) u -> sole (AAs4Path a4) u -> hops ap = pre ++ map old_view (hops a4) ->
  af_path (rr_attrs r) = Some (path_text (pre ++ hops a4)).
Proof.
  intros c m h u ms r ap a4 pre Hm H Hi Hs H4 Hh. rewrite (monitors_convert c m h u Hm) in H. apply route_common in H.
  destruct H as (t & _ & F). rewrite Forall_forall in F. destruct (F _ Hi) as (x & E & Ex & _). injection E as <-. rewrite Ex.
  rewrite path_shown, (as_path_gathered u _ _ Hs), (as4_path_gathered u _ H4). apply merge_text, Hh.
Qed.
(* an AS4_PATH longer than the AS_PATH is ignored *)
Theorem C203_longer_as4_path_ignored : forall c m h u ms r four ap a4,
  monitors m h u -> convert c m = Ok ms -> In (PRoute r) ms ->
  sole (AAsPath four ap) u -> sole (AAs4Path a4) u -> (List.length (hops ap) < List.length (hops a4))%nat ->
  af_path (rr_attrs r) = Some (path_text (hops ap)).
Proof.
  intros c m h u ms r four ap a4 Hm H Hi Hs H4 Hh. rewrite (monitors_convert c m h u Hm) in H. apply route_common in H.
  destruct H as (t & _ & F). rewrite Forall_forall in F. destruct (F _ Hi) as (x & E & Ex & _). injection E as <-. rewrite Ex.
  rewrite path_shown, (as_path_gathered u _ _ Hs), (as4_path_gathered u _ H4). cbn [merge_as_path].
  rewrite !count_hops. replace (blen (hops ap) <? blen (hops a4)) with true by (symmetry; apply N.ltb_lt; unfold blen; lia).
  rewrite fmt_path_text. reflexivity.
Qed.
(* the text names one path *)
Theorem C203_text_names_one_path : forall l l', path_text l = path_text l' -> l = l'.
Proof. exact path_text_inj. Qed.

(* ---- C204: the peer and its RIB ---- *)
(* every record of a message about a peer carries the peer's fields and the
   RIB the header's type and flags octets name *)
Theorem C204_peer_and_rib : forall c m h ms x type flags rest r',
  convert c m = Ok ms -> header_of m = Some h -> In x ms ->
  parse_ptype (mkR (type :: flags :: rest) 0) = (r', Ok (ph_type h)) ->
  exists p e, peer_part x = Some (p, e) /\ pf_rib p = rib_named type flags /\ pf_type p = type /\
  pf_asn p = ph_as h /\ pf_id p = ph_id h /\
  (forall a, ph_addr h = Some a -> pf_ip p = a) /\ en_router e = cn_ip c /\ en_port e = cn_port c /\
  en_arrival e = cn_arrival c /\ (forall t, ph_time h = Some t -> en_time e = fmt_ts t).
Proof.
  intros c m h ms x type flags rest r' H Hh Hi Hp. apply ptype_rib in Hp. destruct Hp as [Hp1 Hp2].
  assert (D : forall p e ts, ph_time h = Some ts -> p = peer_of h -> e = env_of c (fmt_ts ts) ->
    pf_rib p = rib_named type flags /\ pf_type p = type /\ pf_asn p = ph_as h /\ pf_id p = ph_id h /\
    (forall a, ph_addr h = Some a -> pf_ip p = a) /\ en_router e = cn_ip c /\ en_port e = cn_port c /\
    en_arrival e = cn_arrival c /\ (forall t, ph_time h = Some t -> en_time e = fmt_ts t)).
  { intros p e ts Ht -> ->. cbn. rewrite Hp1, Hp2. repeat split; auto.
    - intros a Ha. rewrite Ha. reflexivity.
    - intros t Ht'. rewrite Ht in Ht'. injection Ht' as ->. reflexivity. }
  assert (RM : forall b, convert_route_monitoring ext_text label_index c h b = Ok ms ->
    exists p e, peer_part x = Some (p, e) /\ exists ts, ph_time h = Some ts /\ p = peer_of h /\ e = env_of c (fmt_ts ts)).
  { intros [o|u|n| |rr] E; try (injection E as <-; contradiction). apply route_common in E. destruct E as (t & Ht & F).
    rewrite Forall_forall in F. destruct (F _ Hi) as (r & -> & _ & E1 & E2). exists (rr_peer r), (rr_env r).
    split; [reflexivity|]. exists t. auto. }
  assert (DN : forall d, one (convert_peer_down c h d) = Ok ms ->
    exists p e, peer_part x = Some (p, e) /\ exists ts, ph_time h = Some ts /\ p = peer_of h /\ e = env_of c (fmt_ts ts)).
  { intros d E. unfold one, convert_peer_down, peer_header_ts in E. destruct (ph_time h) as [t|]; [|discriminate]. cbn [rbind] in E.
    injection E as <-. destruct Hi as [<-|[]]. cbn [peer_part]. eexists. eexists. split; [reflexivity|]. exists t. auto. }
  assert (ST : forall l, convert_statistics_report c h l = Ok ms ->
    exists p e, peer_part x = Some (p, e) /\ exists ts, ph_time h = Some ts /\ p = peer_of h /\ e = env_of c (fmt_ts ts)).
  { intros l E. unfold convert_statistics_report, peer_header_ts in E. destruct (ph_time h) as [t|]; [|discriminate]. cbn [rbind] in E.
    injection E as <-. apply in_map_iff in Hi. destruct Hi as (s & <- & _). cbn [peer_part stat_of]. eexists. eexists.
    split; [reflexivity|]. exists t. auto. }
  assert (UP : forall p, pu_hdr p = h -> one (convert_peer_up debug_info c p) = Ok ms ->
    exists p e, peer_part x = Some (p, e) /\ exists ts, ph_time h = Some ts /\ p = peer_of h /\ e = env_of c (fmt_ts ts)).
  { intros p Ep E. unfold one, convert_peer_up, peer_header_ts in E. rewrite Ep in E. destruct (ph_time h) as [t|]; [|discriminate]. cbn [rbind] in E.
    injection E as <-. destruct Hi as [<-|[]]. cbn [peer_part].
    assert (K : forall l r, ur_peer (fold_left (up_info debug_info) l r) = ur_peer r /\ ur_env (fold_left (up_info debug_info) l r) = ur_env r).
    { induction l as [|i l IH]; intros r; [auto|]. cbn [fold_left]. destruct (IH (up_info debug_info r i)) as [-> ->].
      unfold up_info. destruct (fst i) as [|[[|[]|]|[|[]|]|]]; auto. }
    destruct (K (pu_info p) (mkUR (env_of c (fmt_ts t)) (peer_of h) (fst (rd_and_origin (ph_rd h) OBmp))
      (snd (rd_and_origin (ph_rd h) OBmp)) (port_or_zero (pu_lport p)) (port_or_zero (pu_rport p)) (addr_or_zero (pu_addr p)) None None None None)) as [K1 K2].
    eexists. eexists. split; [reflexivity|]. exists t. split; [reflexivity|]. rewrite K1, K2. auto. }
  assert (G : exists p e, peer_part x = Some (p, e) /\ exists ts, ph_time h = Some ts /\ p = peer_of h /\ e = env_of c (fmt_ts ts)).
  { destruct m as [h' b|h' d|[h' l|p|l|l|h' l|y v]|h' b l|h' d l|[h' l'|p|l'|l'|h' l'|y v]]; cbn [header_of] in Hh; try discriminate Hh;
      injection Hh as Eh; cbn [try_from_bmp_request convert_common] in H; try discriminate H; try subst h'; eauto. }
  destruct G as (p & e & E & ts & Ht & E1 & E2). exists p, e. split; [exact E|]. apply (D p e ts); auto.
Qed.

(* ---- C205: statistics ---- *)
(* every counter is one record, in order, with its type, value and family *)
Theorem C205_one_record_per_counter : forall c m h l t,
  reports m h l -> ph_time h = Some t ->
  Forall (fun s => exists v, counted s = Some v /\ i64_range v) l ->
  exists ms, convert c m = Ok ms /\
  map as_stat ms = map (fun s => match counted s with
                                 | Some v => Some (fst s, v, option_map at_afi (family_counted s), option_map at_safi (family_counted s))
                                 | None => None
                                 end) l.
Proof.
  intros c m h l t Hm Ht F. exists (map (stat_of c (fmt_ts t) h) l). split.
  - destruct Hm as [->| ->]; cbn; unfold convert_statistics_report, peer_header_ts; rewrite Ht; reflexivity.
  - rewrite map_map. apply map_ext_in. intros s Hs. rewrite Forall_forall in F. destruct (F s Hs) as (v & Hc & Hr).
    rewrite Hc. destruct s as [code sv]. unfold counted in Hc. unfold i64_range in Hr. change (2 ^ 63) with 9223372036854775808 in Hr.
    cbn [snd] in Hc. destruct sv as [x|x|f x|x]; try discriminate Hc; injection Hc as ->; cbn;
      unfold u64_to_i64_clamp, i64_max; replace (v <=? 9223372036854775807) with true by (symmetry; apply N.leb_le; lia); reflexivity.
Qed.
(* a counter too large for the record's signed field is the largest value *)
Theorem C205_large_counter_clamped : forall c ts h code v, ~ i64_range v ->
  as_stat (stat_of c ts h (code, S64 v)) = Some (code, 9223372036854775807, None, None).
Proof.
  intros c ts h code v H. unfold i64_range in H. change (2 ^ 63) with 9223372036854775808 in H. cbn.
  unfold u64_to_i64_clamp, i64_max. replace (v <=? 9223372036854775807) with false by (symmetry; apply N.leb_gt; lia). reflexivity.
Qed.

(* ---- C206: information ---- *)
Lemma last_snoc {A} (l : list A) x : last_of (l ++ [x]) = Some x.
Proof. unfold last_of. rewrite rev_unit. reflexivity. Qed.
Lemma infos_snoc code l i : infos_of code (l ++ [i]) = infos_of code l ++ (if fst i =? code then [snd i] else []).
Proof. unfold infos_of. rewrite filter_app, map_app. cbn. destruct (fst i =? code); reflexivity. Qed.
Lemma init_fields l e :
  let r := fold_left (init_info debug_info) l (mkIR e None None None None) in
  ir_env r = e /\ ir_string r = last_of (infos_of 0 l) /\ ir_sysdescr r = last_of (infos_of 1 l) /\
  ir_sysname r = last_of (infos_of 2 l).
Proof.
  cbv zeta. induction l as [|i l IH] using rev_ind; [repeat split|].
  rewrite fold_left_app. cbn [fold_left]. destruct IH as (E0 & E1 & E2 & E3). rewrite !infos_snoc.
  destruct i as [code v]. unfold init_info. cbn [fst snd].
  destruct (N.eqb_spec code 0) as [->|N0]; [cbn; rewrite !app_nil_r, last_snoc; auto|].
  destruct (N.eqb_spec code 1) as [->|N1]; [cbn; rewrite !app_nil_r, last_snoc; auto|].
  destruct (N.eqb_spec code 2) as [->|N2]; [cbn; rewrite !app_nil_r, last_snoc; auto|].
  rewrite !app_nil_r. destruct code as [|[[]|[]|]]; try congruence; cbn; auto.
Qed.
Lemma up_fields l r0 : ur_string r0 = None -> ur_vrf r0 = None -> ur_admin r0 = None ->
  let r := fold_left (up_info debug_info) l r0 in
  ur_local_port r = ur_local_port r0 /\ ur_remote_port r = ur_remote_port r0 /\ ur_local_ip r = ur_local_ip r0 /\
  ur_string r = last_of (infos_of 0 l) /\ ur_vrf r = last_of (infos_of 3 l) /\ ur_admin r = last_of (infos_of 4 l).
Proof.
  intros H0 H3 H4. cbv zeta. induction l as [|i l IH] using rev_ind; [repeat split; assumption|].
  rewrite fold_left_app. cbn [fold_left]. destruct IH as (Ea & Eb & Ec & E1 & E2 & E3). rewrite !infos_snoc.
  destruct i as [code v]. unfold up_info. cbn [fst snd].
  destruct (N.eqb_spec code 0) as [->|N0]; [cbn; rewrite !app_nil_r, last_snoc; auto 10|].
  destruct (N.eqb_spec code 3) as [->|N1]; [cbn; rewrite !app_nil_r, last_snoc; auto 10|].
  destruct (N.eqb_spec code 4) as [->|N2]; [cbn; rewrite !app_nil_r, last_snoc; auto 10|].
  rewrite !app_nil_r. destruct code as [|[[|[]|]|[|[]|]|]]; try congruence; cbn; auto 10.
Qed.
Definition initiation (m : bmp_msg) (l : list info) : Prop := m = V3Common (CInit l) \/ m = V4Common (CInit l).
(* of the TLVs of each named type the last is shown; with at most one of a
   type nothing of it is lost *)
Theorem C206_initiation_information_partial : forall c m l, initiation m l ->
  exists r, convert c m = Ok [PInit r] /\
  ir_string r = last_of (infos_of 0 l) /\ ir_sysdescr r = last_of (infos_of 1 l) /\ ir_sysname r = last_of (infos_of 2 l).
Proof.
  intros c m l Hm. destruct (init_fields l (env_of c (cn_arrival c))) as (_ & E1 & E2 & E3).
  destruct Hm as [->| ->]; (eexists; split; [reflexivity|auto]).
Qed.
Theorem C206_peer_up_information_partial : forall c m p t,
  m = V3Common (CUp p) \/ m = V4Common (CUp p) -> ph_time (pu_hdr p) = Some t ->
  exists r, convert c m = Ok [PUp r] /\
  ur_string r = last_of (infos_of 0 (pu_info p)) /\ ur_vrf r = last_of (infos_of 3 (pu_info p)) /\
  ur_admin r = last_of (infos_of 4 (pu_info p)) /\
  (forall v, pu_lport p = Some v -> ur_local_port r = v) /\ (forall v, pu_rport p = Some v -> ur_remote_port r = v) /\
  (forall v, pu_addr p = Some v -> ur_local_ip r = v).
Proof.
  intros c m p t Hm Ht.
  destruct (up_fields (pu_info p) (mkUR (env_of c (fmt_ts t)) (peer_of (pu_hdr p)) (fst (rd_and_origin (ph_rd (pu_hdr p)) OBmp))
      (snd (rd_and_origin (ph_rd (pu_hdr p)) OBmp)) (port_or_zero (pu_lport p)) (port_or_zero (pu_rport p)) (addr_or_zero (pu_addr p))
      None None None None) eq_refl eq_refl eq_refl) as (Ea & Eb & Ec & E1 & E2 & E3).
  assert (E : convert c m = Ok [PUp (fold_left (up_info debug_info) (pu_info p) (mkUR (env_of c (fmt_ts t)) (peer_of (pu_hdr p)) (fst (rd_and_origin (ph_rd (pu_hdr p)) OBmp))
      (snd (rd_and_origin (ph_rd (pu_hdr p)) OBmp)) (port_or_zero (pu_lport p)) (port_or_zero (pu_rport p)) (addr_or_zero (pu_addr p))
      None None None None))]).
  { destruct Hm as [->| ->]; cbn [try_from_bmp_request convert_common]; unfold convert_peer_up, peer_header_ts; rewrite Ht; reflexivity. }
  eexists. split; [exact E|]. rewrite E1, E2, E3, Ea, Eb, Ec. repeat split; intros v Hv; cbn; rewrite Hv; reflexivity.
Qed.
(* the items of the other types are shown together *)
Lemma others_snoc codes l i : others_of codes (l ++ [i]) = others_of codes l ++ (if existsb (N.eqb (fst i)) codes then [] else [i]).
Proof. unfold others_of. rewrite filter_app. cbn. destruct (existsb _ codes); reflexivity. Qed.
Lemma reserved_snoc (l : list info) i : (forall i, debug_info i <> []) ->
  add_reserved (if_any (map debug_info l)) (debug_info i) = if_any (map debug_info (l ++ [i])).
Proof.
  intros Hd. rewrite map_app. destruct l as [|x l]; [cbn; rewrite app_nil_r; reflexivity|].
  unfold if_any at 2. cbn [map app]. change (debug_info x :: map debug_info l ++ [debug_info i]) with ((debug_info x :: map debug_info l) ++ [debug_info i]).
  rewrite spaced_app by discriminate. cbn [spaced flat_map if_any add_reserved map]. rewrite app_nil_r.
  destruct (debug_info x) eqn:E; [exfalso; exact (Hd x E)|]. reflexivity.
Qed.
Lemma init_reserved l e : (forall i, debug_info i <> []) ->
  ir_reserved (fold_left (init_info debug_info) l (mkIR e None None None None)) = if_any (map debug_info (others_of [0; 1; 2] l)).
Proof.
  intros Hd. induction l as [|i l IH] using rev_ind; [reflexivity|].
  rewrite fold_left_app. cbn [fold_left]. rewrite others_snoc.
  destruct i as [code v]. unfold init_info. cbn [fst snd].
  destruct (N.eqb_spec code 0) as [->|N0]; [cbn; rewrite app_nil_r; exact IH|].
  destruct (N.eqb_spec code 1) as [->|N1]; [cbn; rewrite app_nil_r; exact IH|].
  destruct (N.eqb_spec code 2) as [->|N2]; [cbn; rewrite app_nil_r; exact IH|].
  replace (existsb (N.eqb code) [0; 1; 2]) with false.
  2:{ cbn. apply N.eqb_neq in N0, N1, N2. rewrite N0, N1, N2. reflexivity. }
  rewrite <- (reserved_snoc _ _ Hd), <- IH. destruct code as [|[[]|[]|]]; try congruence; reflexivity.
Qed.
Lemma up_reserved l r0 : (forall i, debug_info i <> []) -> ur_reserved r0 = None ->
  ur_reserved (fold_left (up_info debug_info) l r0) = if_any (map debug_info (others_of [0; 3; 4] l)).
Proof.
  intros Hd H0. induction l as [|i l IH] using rev_ind; [exact H0|].
  rewrite fold_left_app. cbn [fold_left]. rewrite others_snoc.
  destruct i as [code v]. unfold up_info. cbn [fst snd].
  destruct (N.eqb_spec code 0) as [->|N0]; [cbn; rewrite app_nil_r; exact IH|].
  destruct (N.eqb_spec code 3) as [->|N1]; [cbn; rewrite app_nil_r; exact IH|].
  destruct (N.eqb_spec code 4) as [->|N2]; [cbn; rewrite app_nil_r; exact IH|].
  replace (existsb (N.eqb code) [0; 3; 4]) with false.
  2:{ cbn. apply N.eqb_neq in N0, N1, N2. rewrite N0, N1, N2. reflexivity. }
  rewrite <- (reserved_snoc _ _ Hd), <- IH. destruct code as [|[[|[]|]|[|[]|]|]]; try congruence; reflexivity.
Qed.
Theorem C206_other_items : forall c m, (forall i, debug_info i <> []) ->
  (forall l, initiation m l -> exists r, convert c m = Ok [PInit r] /\ ir_reserved r = if_any (map debug_info (others_of [0; 1; 2] l))) /\
  (forall p t, m = V3Common (CUp p) \/ m = V4Common (CUp p) -> ph_time (pu_hdr p) = Some t ->
    exists r, convert c m = Ok [PUp r] /\ ur_reserved r = if_any (map debug_info (others_of [0; 3; 4] (pu_info p)))).
Proof.
  intros c m Hd. split.
  - intros l [->| ->]; (eexists; split; [reflexivity|apply (init_reserved _ _ Hd)]).
  - intros p t Hm Ht. assert (E : exists r0, ur_reserved r0 = None /\ convert c m = Ok [PUp (fold_left (up_info debug_info) (pu_info p) r0)]).
    { destruct Hm as [->| ->]; cbn [try_from_bmp_request convert_common]; unfold convert_peer_up, peer_header_ts; rewrite Ht;
        (eexists; split; [|reflexivity]); reflexivity. }
    destruct E as (r0 & H0 & E). eexists. split; [exact E|]. apply (up_reserved _ _ Hd H0).
Qed.
(* a Termination shows its string and its reason, the last if there are several *)
Theorem C206_termination : forall c m l, m = V3Common (CTerm l) \/ m = V4Common (CTerm l) ->
  exists r, convert c m = Ok [PTerm r] /\ tr_string r = last_of (term_strings l) /\ tr_reason r = last_of (term_reasons l).
Proof.
  intros c m l Hm.
  assert (G : forall l e, let r := fold_left term_info_step l (mkTR e None None) in
    tr_string r = last_of (term_strings l) /\ tr_reason r = last_of (term_reasons l)).
  { clear. intros l e. cbv zeta. induction l as [|i l IH] using rev_ind; [split; reflexivity|].
    destruct IH as [E1 E2].
    unfold term_strings, term_reasons. rewrite fold_left_app, !flat_map_app. cbn [fold_left].
    destruct i; cbn; rewrite ?app_nil_r, ?last_snoc; auto. }
  destruct Hm as [->| ->]; (eexists; split; [reflexivity|apply G]).
Qed.
(* a Peer Down shows its reason, and the FSM event of reason 2 *)
Theorem C206_peer_down : forall c m h d t, m = V3Down h d \/ (exists tlvs, m = V4Down h d tlvs) -> ph_time h = Some t ->
  exists r, convert c m = Ok [PDown r] /\ down_named d (dr_reason r) /\
  dr_loc_code r = match d with DLocalFsm e => Some e | _ => None end.
Proof.
  intros c m h d t Hm Ht.
  assert (E : convert c m = one (convert_peer_down c h d)) by (destruct Hm as [->|[tlvs ->]]; reflexivity).
  unfold one, convert_peer_down, peer_header_ts in E. rewrite Ht in E. cbn [rbind] in E. eexists. split; [exact E|].
  cbn. split; [|reflexivity]. destruct d as [| | | | | |[]]; reflexivity.
Qed.
(* the NOTIFICATION that closed the session is not shown *)
Theorem C206_notification_refuted : forall c h n1 n2, convert c (V3Down h (DRemotePdu n1)) = convert c (V3Down h (DRemotePdu n2)).
Proof. reflexivity. Qed.
(* RFC 7854, 4.4: several strings are reported in their order; the record has
   only the last *)
Theorem C206_repeated_string_refuted : forall s1 s2 c, exists r,
  convert c (V3Common (CInit [(0, s1); (0, s2)])) = Ok [PInit r] /\ ir_string r = Some s2 /\
  ir_sysdescr r = None /\ ir_sysname r = None /\ ir_reserved r = None.
Proof. intros. eexists. split; [reflexivity|]. auto. Qed.
(* an experimental item of a Termination message is dropped *)
Theorem C206_termination_item_refuted : forall x v c, exists r r0,
  convert c (V3Common (CTerm [TiExp x v])) = Ok [PTerm r] /\ convert c (V3Common (CTerm [])) = Ok [PTerm r0] /\ r = r0.
Proof. intros. do 2 eexists. split; [reflexivity|]. split; reflexivity. Qed.

(* ---- C207: which messages are converted ---- *)
Theorem C207_converted_or_refused : forall c m,
  (convertible m /\ exists ms, convert c m = Ok ms) \/
  (exists h, convertible m /\ header_of m = Some h /\ ph_time h = None /\ convert c m = Err MissingTimestamp) \/
  (~ convertible m /\ exists name, convert c m = Err (UnsupportedMessageType name)).
Proof.
  intros c m.
  assert (RM : forall h b, (exists ms, convert_route_monitoring ext_text label_index c h b = Ok ms) \/
    (ph_time h = None /\ convert_route_monitoring ext_text label_index c h b = Err MissingTimestamp)).
  { intros h b. unfold convert_route_monitoring, peer_header_ts. destruct b; try (left; eexists; reflexivity).
    destruct (ph_time h); [left|right; auto]. cbn [rbind]. destruct (end_of_rib u); eexists; reflexivity. }
  assert (DN : forall h d, (exists ms, one (convert_peer_down c h d) = Ok ms) \/
    (ph_time h = None /\ one (convert_peer_down c h d) = Err MissingTimestamp)).
  { intros h d. unfold one, convert_peer_down, peer_header_ts. destruct (ph_time h); [left; eexists; reflexivity|right; auto]. }
  assert (CM : forall x, match x with CMirror _ _ | CExp _ _ => True | _ => False end \/
    (exists ms, convert_common debug_info c x = Ok ms) \/
    (exists h, header_of (V3Common x) = Some h /\ ph_time h = None /\ convert_common debug_info c x = Err MissingTimestamp)).
  { intros x. destruct x as [h l|p|l|l|h l|y v]; cbn [convert_common header_of].
    - right. unfold convert_statistics_report, peer_header_ts. destruct (ph_time h) eqn:E; [left; eexists; reflexivity|right; exists h; auto].
    - right. unfold one, convert_peer_up, peer_header_ts. destruct (ph_time (pu_hdr p)) eqn:E; [left; eexists; reflexivity|right; exists (pu_hdr p); auto].
    - right. left. eexists. reflexivity.
    - right. left. eexists. reflexivity.
    - auto.
    - auto. }
  destruct m as [h b|h d|x|h b l|h d l|x]; cbn [try_from_bmp_request convertible].
  - destruct (RM h b) as [H|[H1 H2]]; [left|right; left; exists h]; auto.
  - destruct (DN h d) as [H|[H1 H2]]; [left|right; left; exists h]; auto.
  - destruct (CM x) as [H|[H|(h & H1 & H2 & H3)]].
    + right. right. destruct x; try contradiction; (split; [tauto|eexists; reflexivity]).
    + left. destruct x; try (split; [exact I|exact H]); destruct H as [ms H]; discriminate H.
    + right. left. exists h. destruct x; cbn in H3; try discriminate H3; auto.
  - destruct (RM h b) as [H|[H1 H2]]; [left|right; left; exists h]; auto.
  - destruct (DN h d) as [H|[H1 H2]]; [left|right; left; exists h]; auto.
  - destruct (CM x) as [H|[H|(h & H1 & H2 & H3)]].
    + right. right. destruct x; try contradiction; (split; [tauto|eexists; reflexivity]).
    + left. destruct x; try (split; [exact I|exact H]); destruct H as [ms H]; discriminate H.
    + right. left. exists h. destruct x; cbn in H3; try discriminate H3; auto.
Qed.
(* RFC 7854, 4.2: a zero timestamp says that the time is unavailable; all
   routes of such a peer are refused *)
Theorem C207_no_timestamp_refuted : forall c u, exists b h r,
  parse_header (rnew b) = (r, Ok h) /\ convert c (V3Monitoring h (MUpdate u)) = Err MissingTimestamp.
Proof.
  intros c u. exists (repeat 0 42), (mkPH (PInst Global false false false false) None None 0 0 None). eexists.
  split; [lazy; reflexivity|reflexivity].
Qed.
(* a Route Monitoring message around another BGP message gives no record and
   no error *)
Theorem C207_other_message_refuted : forall c h, convert c (V3Monitoring h MKeepAlive) = Ok [].
Proof. reflexivity. Qed.
(* the records have a sequence number: it is the same in all of them *)
Theorem C207_sequence_refuted : forall c c' m m' ms ms' x x',
  convert c m = Ok ms -> convert c' m' = Ok ms' -> In x ms -> In x' ms' ->
  en_seq (env_part x) = en_seq (env_part x').
Proof.
  assert (Z : forall c m ms x, convert c m = Ok ms -> In x ms -> en_seq (env_part x) = 0).
  { intros c m ms x H Hi.
    assert (RM : forall h b, convert_route_monitoring ext_text label_index c h b = Ok ms -> en_seq (env_part x) = 0).
    { intros h [o|u|n| |rr] E; try (injection E as <-; contradiction). apply route_common in E. destruct E as (t & _ & F).
      rewrite Forall_forall in F. destruct (F _ Hi) as (r & -> & _ & _ & E2). cbn. rewrite E2. reflexivity. }
    assert (DN : forall h d, one (convert_peer_down c h d) = Ok ms -> en_seq (env_part x) = 0).
    { intros h d E. unfold one, convert_peer_down, peer_header_ts in E. destruct (ph_time h); [|discriminate]. injection E as <-.
      destruct Hi as [<-|[]]. reflexivity. }
    assert (CM : forall y, convert_common debug_info c y = Ok ms -> en_seq (env_part x) = 0).
    { intros [h l|p|l|l|h l|y v] E; cbn [convert_common] in E; try discriminate E.
      - unfold convert_statistics_report, peer_header_ts in E. destruct (ph_time h); [|discriminate]. injection E as <-.
        apply in_map_iff in Hi. destruct Hi as (s & <- & _). reflexivity.
      - unfold one, convert_peer_up, peer_header_ts in E. destruct (ph_time (pu_hdr p)); [|discriminate]. injection E as <-.
        destruct Hi as [<-|[]]. cbn [env_part].
        assert (K : forall l r, ur_env (fold_left (up_info debug_info) l r) = ur_env r).
        { induction l as [|i l IH]; intros r; [auto|]. cbn [fold_left]. rewrite IH.
          unfold up_info. destruct (fst i) as [|[[|[]|]|[|[]|]|]]; auto. }
        rewrite K. reflexivity.
      - injection E as <-. destruct Hi as [<-|[]]. cbn [env_part convert_initiation].
        destruct (init_fields l (env_of c (cn_arrival c))) as (-> & _). reflexivity.
      - injection E as <-. destruct Hi as [<-|[]]. cbn [env_part convert_termination].
        assert (K : forall l r, tr_env (fold_left term_info_step l r) = tr_env r).
        { induction l0 as [|i l0 IH]; intros r; [auto|]. cbn [fold_left]. rewrite IH. destruct i; reflexivity. }
        rewrite K. reflexivity. }
    destruct m as [h b|h d|y|h b l|h d l|y]; cbn [try_from_bmp_request] in H; eauto. }
  intros. rewrite (Z c m ms x), (Z c' m' ms' x'); auto.
Qed.
(* the time of a header, except in a leap second, as seconds and six digits *)
Theorem C207_time_text : forall s n, n < 1000000000 -> reads_as (fmt_ts (s, n)) s (n / 1000).
Proof. exact fmt_ts_reads. Qed.
(* a header may have more than 10^6 microseconds in the last second of a
   minute; its text has seven digits after the point, so that it reads as an
   earlier moment: 59.15 s for 60.5 s *)
Theorem C207_leap_second_refuted : exists secs micros t, time_of secs micros = Some (Some t) /\
  fmt_ts t = EcModel.txt "59.1500000" /\ ~ exists s m, reads_as (fmt_ts t) s m.
Proof.
  exists 59, 1500000, (59, 1500000000). split; [reflexivity|]. split; [reflexivity|].
  intros (s & m & frac & E & L & _ & _).
  change (fmt_ts (59, 1500000000)) with (dec 59 ++ 46 :: [49; 53; 48; 48; 48; 48; 48]) in E.
  apply dec_cancel in E; [|reflexivity|reflexivity]. destruct E as [_ E]. injection E as <-. discriminate L.
Qed.

(* ---- C200-C205: what is not as expected ---- *)
(* the distinguisher's text names one distinguisher *)
Theorem C200_distinguisher_text : forall r r', rd_notation r = rd_notation r' -> r = r'.
Proof. exact rd_notation_inj. Qed.
(* EVPN, route target membership, BGP-LS and unknown families: one record
   without a prefix, whatever the routes *)
Theorem C200_other_families_refuted : forall c h t nh xs ys, ph_time h = Some t ->
  let up l := V3Monitoring h (MUpdate (mkUpdate [] [mkPattr true false false false (AMpReach (MrKnown L2VpnBgpEvpn nh l))] [])) in
  convert c (up xs) = convert c (up ys) /\
  exists r, convert c (up xs) = Ok [PRoute r] /\ rr_prefix r = None /\ rr_nexthop r = None.
Proof.
  intros c h t nh xs ys Ht up. unfold up. cbn [try_from_bmp_request]. unfold convert_route_monitoring, peer_header_ts. rewrite Ht.
  split; [reflexivity|]. eexists. split; [reflexivity|]. auto.
Qed.
(* only the first label of a stack is shown *)
Theorem C200_label_stack_refuted : exists l1 l2 l3, l2 <> l3 /\ label_shape l1 /\ label_shape l2 /\ label_shape l3 /\
  forall c h t nh pid n, ph_time h = Some t ->
  let up ls := V3Monitoring h (MUpdate (mkUpdate [] [mkPattr true false false false
                 (AMpReach (MrKnown Ipv4NlriMplsLabels nh [NLabelled pid ls n]))] [])) in
  convert c (up [l1; l2]) = convert c (up [l1; l3]).
Proof.
  assert (S : forall a b c, a < 256 -> b < 256 -> c < 256 -> label_shape [a; b; c]).
  { intros a b c. exists a, b, c. auto. }
  exists [0; 1; 0], [0; 2; 1], [0; 3; 1]. split; [discriminate|]. do 3 (split; [apply S; lia|]).
  intros c h t nh pid n Ht up. unfold up. cbn [try_from_bmp_request]. unfold convert_route_monitoring, peer_header_ts. rewrite Ht.
  reflexivity.
Qed.
(* a withdrawal in an UPDATE that also announces shows the attributes of the
   announced route *)
Theorem C201_withdrawal_attributes_refuted : forall c h t p q ip v, ph_time h = Some t ->
  exists r r', convert c (V3Monitoring h (MUpdate (mkUpdate [(None, p)]
      [mkPattr false true false false (ANextHop ip); mkPattr true false false false (AMed v)] [(None, q)]))) = Ok [PRoute r; PRoute r'] /\
  rr_log r = LWithdraw /\ rr_prefix r = Some p /\ af_med (rr_attrs r) = Some v.
Proof.
  intros c h t p q ip v Ht. do 2 eexists. split.
  - cbn [try_from_bmp_request]. unfold convert_route_monitoring, peer_header_ts. rewrite Ht. reflexivity.
  - auto.
Qed.
(* RFC 7606, 3 (g): of an attribute that occurs twice the first counts; the
   record shows the last *)
Theorem C201_repeated_attribute_refuted : forall c h t p v w, ph_time h = Some t ->
  exists r, convert c (V3Monitoring h (MUpdate (mkUpdate []
      [mkPattr true false false false (AMed v); mkPattr true false false false (AMed w)] [(None, p)]))) = Ok [PRoute r] /\
  af_med (rr_attrs r) = Some w.
Proof.
  intros c h t p v w Ht. eexists. split.
  - cbn [try_from_bmp_request]. unfold convert_route_monitoring, peer_header_ts. rewrite Ht. reflexivity.
  - reflexivity.
Qed.
(* an AIGP metric of 2^63 or more is not shown *)
Theorem C201_large_aigp_refuted : forall c h t p v, ph_time h = Some t -> ~ i64_range v ->
  exists r, convert c (V3Monitoring h (MUpdate (mkUpdate [] [mkPattr true false false false (AAigp v)] [(None, p)]))) = Ok [PRoute r] /\
  af_aigp (rr_attrs r) = Some 9223372036854775807.
Proof.
  intros c h t p v Ht Hv. eexists. split.
  - cbn [try_from_bmp_request]. unfold convert_route_monitoring, peer_header_ts. rewrite Ht. reflexivity.
  - cbn. unfold u64_to_i64_clamp, i64_max. unfold i64_range in Hv. change (2 ^ 63) with 9223372036854775808 in Hv.
    replace (v <=? 9223372036854775807) with false by (symmetry; apply N.leb_gt; lia). reflexivity.
Qed.
(* the marker of a family without a decoder is a withdrawal of no prefix *)
Theorem C202_unknown_family_refuted : forall c h t afi safi, ph_time h = Some t ->
  let u := mkUpdate [] [mkPattr true false false false (AMpUnreach (MuUnknown afi safi []))] [] in
  end_of_rib_marker u afi safi /\
  exists r, convert c (V3Monitoring h (MUpdate u)) = Ok [PRoute r] /\ rr_log r = LWithdraw /\ rr_prefix r = None.
Proof.
  intros c h t afi safi Ht u. split.
  - split; [split; reflexivity|]. right. eexists. split; [reflexivity|]. cbn. auto.
  - eexists. split.
    + cbn [try_from_bmp_request]. unfold convert_route_monitoring, peer_header_ts. rewrite Ht. reflexivity.
    + auto.
Qed.
(* other attributes beside the empty MP_UNREACH do not matter *)
Theorem C202_not_a_marker_refuted : forall c h t o, ph_time h = Some t ->
  let u := mkUpdate [] [mkPattr false true false false (AOrigin o); mkPattr true false false false (AMpUnreach (MuKnown Ipv6Unicast []))] [] in
  ~ end_of_rib_marker u 2 1 /\
  exists r, convert c (V3Monitoring h (MUpdate u)) = Ok [PRoute r] /\ rr_log r = LEndOfRib.
Proof.
  intros c h t o Ht u. split.
  - intros (_ & [(E & _)|(v & E & _)]); discriminate E.
  - eexists. split.
    + cbn [try_from_bmp_request]. unfold convert_route_monitoring, peer_header_ts. rewrite Ht. reflexivity.
    + reflexivity.
Qed.
(* RFC 6793, 4.1 and 4.2.3: an AS4_PATH beside a four-octet AS_PATH is
   discarded, and so is one beside an AGGREGATOR that is not AS_TRANS; here it
   replaces the end of the AS_PATH *)
Theorem C203_four_octet_path_refuted : forall c h t p, ph_time h = Some t ->
  exists r, convert c (V3Monitoring h (MUpdate (mkUpdate []
      [mkPattr false true false false (AAsPath true [(2, [65001; 200000])]); mkPattr true true false false (AAs4Path [(2, [70000])])]
      [(None, p)]))) = Ok [PRoute r] /\
  af_path (rr_attrs r) = Some (path_text [As 65001; As 70000]).
Proof.
  intros c h t p Ht. eexists. split.
  - cbn [try_from_bmp_request]. unfold convert_route_monitoring, peer_header_ts. rewrite Ht. reflexivity.
  - lazy. reflexivity.
Qed.
Theorem C203_aggregator_refuted : forall c h t p ip, ph_time h = Some t ->
  exists r, convert c (V3Monitoring h (MUpdate (mkUpdate []
      [mkPattr false true false false (AAsPath false [(2, [65001; 65002])]); mkPattr true true false false (AAggregator false 65003 ip);
       mkPattr true true false false (AAs4Path [(2, [70000])])]
      [(None, p)]))) = Ok [PRoute r] /\
  af_path (rr_attrs r) = Some (path_text [As 65001; As 70000]).
Proof.
  intros c h t p ip Ht. eexists. split.
  - cbn [try_from_bmp_request]. unfold convert_route_monitoring, peer_header_ts. rewrite Ht. reflexivity.
  - lazy. reflexivity.
Qed.
(* a counter of a type without a decoder is reported as zero *)
Theorem C205_unknown_counter_refuted : forall c ts h code v,
  as_stat (stat_of c ts h (code, SRaw v)) = Some (code, 0, None, None).
Proof. reflexivity. Qed.

(* ---- C208: AS_PATH segments ---- *)
(* sets and sequences are read as they were sent *)
Theorem C208_sets_and_sequences_partial : forall four ss v,
  Forall (segment_fits four) ss ->
  v = flat_map (fun s => fst s :: blen (snd s) :: flat_map (be_enc (if four then 4 else 2)) (snd s)) ss -> blen v < 256 ->
  parses (parse_as_path false four) (blen v :: v) (AAsPath four ss).
Proof.
  intros four ss v H -> Hb.
  assert (E : flat_map (enc_segment (wid four)) ss =
              flat_map (fun s => fst s :: blen (snd s) :: flat_map (be_enc (if four then 4 else 2)) (snd s)) ss).
  { revert H. clear. induction 1 as [|s ss (Hs1 & Hs2 & _) _ IH]; [reflexivity|]. cbn [flat_map]. rewrite IH. f_equal.
    destruct s as [ty asns]. unfold enc_segment, as_u8. rewrite N.mod_small by lia. destruct four; reflexivity. }
  rewrite <- E in *. set (v := flat_map (enc_segment (wid four)) ss) in *.
  replace (blen v :: v) with (enc_length false (blen v) ++ v).
  2:{ unfold enc_length, as_u8. cbn [orb]. rewrite N.add_0_r. replace (255 <? blen v) with false by (symmetry; apply N.ltb_ge; lia).
      rewrite N.mod_small by exact Hb. reflexivity. }
  unfold parse_as_path. apply p_in_slice; [exact Hb|reflexivity|].
  eapply parses_end_bind'; [|apply parses_ret]. apply p_segments, H.
Qed.
(* RFC 5065: a confederation segment (types 3, 4) makes the AS_PATH malformed *)
Theorem C208_confederation_refuted : forall asn4 labels ap flags code ty rest v off,
  In code [2; 17] -> In ty [3; 4] -> v = ty :: rest -> flag_set 16 flags = false ->
  snd (parse_attr asn4 labels ap (mkR (flags :: code :: blen v :: v) off)) = Err (AE_Attr KAsPath None).
Proof.
  intros asn4 labels ap flags code ty rest v off Hc Ht Hv Hf.
  assert (S : forall w o, snd (many_all (parse_segment w) (mkR v o)) = Err (AE_Attr KAsPath None)).
  { intros w o. rewrite Hv. unfold many_all. cbn [rbuf Datatypes.length many]. unfold parse_segment at 1.
    unfold bind, ard, pmap_err, read_u8. cbn [rbuf roff map_err].
    destruct Ht as [<-|[<-|[]]]; reflexivity. }
  assert (B : forall o, read_bytes (blen v) (mkR v o) = (mkR [] (o + blen v), Ok v)).
  { intros o. rewrite <- (app_nil_r v) at 2. apply (parses_bytes v (blen v) eq_refl [] o). }
  assert (P : forall w (f : list segment -> attr_value) o, snd (in_slice KAsPath false (do ss <- many_all (parse_segment w);; ret (f ss)) (mkR (blen v :: v) o))
              = Err (AE_Attr KAsPath None)).
  { intros w f o. unfold in_slice, ard, pmap_err, bind, read_len, read_u8, take_slice. cbn [rbuf roff map_err].
    rewrite B. cbn [map_err roff]. unfold on_sub. specialize (S w (o + 1)).
    destruct (many_all (parse_segment w) (mkR v (o + 1))) as [r' x]. cbn [snd] in S. subst x. reflexivity. }
  unfold parse_attr. unfold bind at 1 2, pmap_err, read_u8. cbn [rbuf roff map_err]. rewrite Hf.
  unfold bind. destruct Hc as [<-|[<-|[]]].
  - change (BgpAttrModel.parse_value asn4 labels ap 2 false) with (parse_as_path false asn4).
    specialize (P (asn_width asn4) (AAsPath asn4) (off + 1 + 1)). unfold parse_as_path.
    destruct (in_slice _ _ _ _) as [r' x]. cbn [snd] in P. subst x. reflexivity.
  - change (BgpAttrModel.parse_value asn4 labels ap 17 false) with (parse_as4_path false).
    specialize (P 4 AAs4Path (off + 1 + 1)). unfold parse_as4_path.
    destruct (in_slice _ _ _ _) as [r' x]. cbn [snd] in P. subst x. reflexivity.
Qed.
End Props.
Print Assumptions C200_one_record_per_route.
Print Assumptions C201_attributes_shown.
Print Assumptions C202_marker_reported.
Print Assumptions C202_only_without_routes.
Print Assumptions C203_as_path_shown.
Print Assumptions C203_path_reconstructed.
Print Assumptions C203_longer_as4_path_ignored.
Print Assumptions C203_text_names_one_path.
Print Assumptions C204_peer_and_rib.
Print Assumptions C205_one_record_per_counter.
Print Assumptions C205_large_counter_clamped.
Print Assumptions C206_initiation_information_partial.
Print Assumptions C206_peer_up_information_partial.
Print Assumptions C206_other_items.
Print Assumptions C206_termination.
Print Assumptions C206_peer_down.
Print Assumptions C206_notification_refuted.
Print Assumptions C206_repeated_string_refuted.
Print Assumptions C206_termination_item_refuted.
Print Assumptions C207_converted_or_refused.
Print Assumptions C207_no_timestamp_refuted.
Print Assumptions C207_other_message_refuted.
Print Assumptions C207_sequence_refuted.
Print Assumptions C207_time_text.
Print Assumptions C207_leap_second_refuted.
Print Assumptions C200_distinguisher_text.
Print Assumptions C200_other_families_refuted.
Print Assumptions C200_label_stack_refuted.
Print Assumptions C201_withdrawal_attributes_refuted.
Print Assumptions C201_repeated_attribute_refuted.
Print Assumptions C201_large_aigp_refuted.
Print Assumptions C202_unknown_family_refuted.
Print Assumptions C202_not_a_marker_refuted.
Print Assumptions C203_four_octet_path_refuted.
Print Assumptions C203_aggregator_refuted.
Print Assumptions C205_unknown_counter_refuted.
Print Assumptions C208_sets_and_sequences_partial.
Print Assumptions C208_confederation_refuted.

(* ---- examples ---- *)
Definition ex_header : peer_header :=
  mkPH (PInst RdInst false true false false) (Some (RdAs2 65000 7)) (Some (B4 167772161)) 65001 167772161 (Some (1700000000, 5000)).
Definition ex_conn : conn := mkConn (B4 3232235777) 5000 (EcModel.txt "1700000001.000000").
Definition ex_vpn : attr_value :=
  AMpReach (MrKnown Ipv4MplsLabeledVpn (NhLabeled (RdAs2 0 0) (V4 [10; 0; 0; 2]))
    [NVpn (Some 9) (RdIp 167772163 5) [[0; 6; 65]] ([172; 16; 0; 0], 12)]).
Definition ex_update : update_msg :=
  mkUpdate [(None, ([10; 0; 0; 0], 8))]
    [mkPattr false true false false (AOrigin 2); mkPattr false true false false (AAsPath false [(2, [65010; 23456]); (1, [1; 2])]);
     mkPattr true true false false (AAs4Path [(2, [200000]); (1, [1; 2])]); mkPattr false true false false (ANextHop 167772162);
     mkPattr true false false false ex_vpn]
    [(None, ([192; 168; 0; 0], 16))].
Definition ex_message : bmp_msg := V3Monitoring ex_header (MUpdate ex_update).
Local Notation run := (try_from_bmp_request (fun b => b) (fun _ => None) (fun i => snd i)).

Lemma ex_shape : prefix_update ex_update.
Proof.
  split; [right; eexists; exists [AOrigin 2; AAsPath false [(2, [65010; 23456]); (1, [1; 2])]; AAs4Path [(2, [200000]); (1, [1; 2])]; ANextHop 167772162], []; split; [reflexivity|]|split].
  - repeat constructor; discriminate.
  - left. unfold absent. repeat constructor; discriminate.
  - change (values ex_update) with [AOrigin 2; AAsPath false [(2, [65010; 23456]); (1, [1; 2])]; AAs4Path [(2, [200000]); (1, [1; 2])]; ANextHop 167772162; ex_vpn].
    apply Forall_cons; [exact I|]. apply Forall_cons; [exact I|]. apply Forall_cons; [exact I|].
    apply Forall_cons; [exact I|]. apply Forall_cons; [|constructor]. split.
    + unfold prefix_family. cbn. tauto.
    + apply Forall_cons; [|constructor]. split; [cbn; tauto|]. apply Forall_cons; [|constructor].
      exists 0, 6, 65. repeat split.
Qed.
Lemma ex_next_hop : next_hop_is ex_update (Some (V4 [10; 0; 0; 2])).
Proof.
  right. exists 167772162. split; [|reflexivity].
  eexists [AOrigin 2; AAsPath false [(2, [65010; 23456]); (1, [1; 2])]; AAs4Path [(2, [200000]); (1, [1; 2])]], [ex_vpn].
  split; [reflexivity|]. repeat constructor; discriminate.
Qed.
Example C200_nonvacuous : monitors ex_message ex_header ex_update /\ has_routes ex_update /\ prefix_update ex_update /\
  next_hop_is ex_update (Some (V4 [10; 0; 0; 2])) /\
  routes_of (ph_rd ex_header) (Some (V4 [10; 0; 0; 2])) ex_update =
    [mkFact LWithdraw 1 1 ([10; 0; 0; 0], 8) (Some (RdAs2 65000 7, OBmp)) None None None;
     mkFact LUpdate 1 1 ([192; 168; 0; 0], 16) (Some (RdAs2 65000 7, OBmp)) (Some (V4 [10; 0; 0; 2])) None None;
     mkFact LUpdate 1 128 ([172; 16; 0; 0], 12) (Some (RdIp 167772163 5, OBgp)) (Some (V4 [10; 0; 0; 2])) (Some 9) (Some 100)] /\
  exists ms, run ex_conn ex_message = Ok ms /\ Datatypes.length ms = 3%nat.
Proof.
  split; [left; reflexivity|]. split; [left; discriminate|]. split; [exact ex_shape|]. split; [exact ex_next_hop|].
  split; [lazy; reflexivity|]. eexists. split; [reflexivity|]. reflexivity.
Qed.
Example C201_nonvacuous : sole (AOrigin 2) ex_update /\ absent 4 ex_update /\
  exists r ms, run ex_conn ex_message = Ok (PRoute r :: ms) /\ af_origin (rr_attrs r) = Some 2 /\ af_med (rr_attrs r) = None.
Proof.
  split; [eexists [], _; split; [reflexivity|]; repeat constructor; discriminate|].
  split; [repeat constructor; discriminate|]. do 2 eexists. split; [reflexivity|]. split; reflexivity.
Qed.
Example C202_nonvacuous :
  let u := mkUpdate [] [mkPattr true false false false (AMpUnreach (MuKnown Ipv6MplsLabeledVpn []))] [] in
  end_of_rib_marker u 2 128 /\
  exists r, run ex_conn (V3Monitoring ex_header (MUpdate u)) = Ok [PRoute r] /\ rr_log r = LEndOfRib /\ rr_safi r = 128.
Proof.
  intros u. split; [split; [split; reflexivity|]; right; eexists; split; [reflexivity|]; cbn; auto|].
  eexists. split; [reflexivity|]. split; reflexivity.
Qed.
Example C203_nonvacuous :
  sole (AAsPath false [(2, [65010; 23456]); (1, [1; 2])]) ex_update /\ sole (AAs4Path [(2, [200000]); (1, [1; 2])]) ex_update /\
  hops [(2, [65010; 23456]); (1, [1; 2])] = [As 65010] ++ map old_view (hops [(2, [200000]); (1, [1; 2])]) /\
  path_text ([As 65010] ++ hops [(2, [200000]); (1, [1; 2])]) = EcModel.txt "65010 200000 {1 2}".
Proof.
  split; [eexists [_], _; split; [reflexivity|]; repeat constructor; discriminate|].
  split; [eexists [_; _], _; split; [reflexivity|]; repeat constructor; discriminate|].
  split; lazy; reflexivity.
Qed.
Example C204_nonvacuous : exists r', parse_ptype (mkR [1; 64; 0] 0) = (r', Ok (ph_type ex_header)) /\
  header_of ex_message = Some ex_header /\ rib_named 1 64 = mkRib AdjRibInPost 0 (Some 1) None (Some 1) None.
Proof. eexists. split; [lazy; reflexivity|]. split; reflexivity. Qed.
Example C205_nonvacuous : exists ms,
  run ex_conn (V4Common (CStats ex_header [(0, S32 7); (7, S64 12); (9, SAf Ipv6Unicast 5)])) = Ok ms /\
  map as_stat ms = [Some (0, 7, None, None); Some (7, 12, None, None); Some (9, 5, Some 2, Some 1)].
Proof. eexists. split; [reflexivity|]. lazy. reflexivity. Qed.
Example C206_nonvacuous : exists r,
  run ex_conn (V3Common (CInit [(1, [65]); (2, [66; 67]); (3, [68])])) = Ok [PInit r] /\
  ir_sysdescr r = Some [65] /\ ir_sysname r = Some [66; 67] /\ ir_string r = None /\ ir_reserved r = Some [68].
Proof. eexists. split; [reflexivity|]. repeat split. Qed.
Example C206_down_nonvacuous : exists r r2,
  run ex_conn (V4Down ex_header (DLocalFsm 9) []) = Ok [PDown r] /\ dr_reason r = 2 /\ dr_loc_code r = Some 9 /\
  run ex_conn (V3Common (CTerm [TiString [65]; TiReason 1])) = Ok [PTerm r2] /\ tr_string r2 = Some [65] /\ tr_reason r2 = Some 1.
Proof. do 2 eexists. split; [reflexivity|]. repeat split. Qed.
Example C207_nonvacuous : convertible ex_message /\ fmt_ts (1700000000, 5000) = EcModel.txt "1700000000.000005" /\
  run ex_conn (V3Common (CMirror ex_header [])) = Err (UnsupportedMessageType (EcModel.txt "RouteMirroring")).
Proof. split; [exact I|]. split; lazy; reflexivity. Qed.
Example C208_nonvacuous : segment_fits true (2, [65001; 70000]) /\
  snd (parse_as_path false true (mkR [10; 2; 2; 0; 0; 253; 233; 0; 1; 17; 112] 0)) = Ok (AAsPath true [(2, [65001; 70000])]).
Proof.
  split; [|lazy; reflexivity]. unfold segment_fits, asn_fits, u32, blen. cbn. repeat constructor; lia.
Qed.
