(* Lemmas for PmProps. *)
From Verif Require Import Base BaseLemmas AfModel BgpNlriModel BgpAttrModel BgpMsgModel BmpModel PmModel PmSpec.
From Verif Require NcModel NcProofs.
Local Notation dec := NcModel.dec.

(* ---- the attribute loop ---- *)
Section Gather.
Variable ext_text : list N -> text.
Variable label_index : list N -> option N.
Local Notation gather := (gather ext_text label_index).

Lemma fold_keep {B} (pi : gathered -> B) c :
  (forall g a, code_of (pa_val a) <> c -> pi (gather g a) = pi g) ->
  forall xs g, Forall (fun v => code_of v <> c) (map pa_val xs) -> pi (fold_left gather xs g) = pi g.
Proof.
  intros H. induction xs as [|a r IH]; intros g F; [reflexivity|]. cbn [map fold_left] in *.
  inversion F; subst. rewrite IH, H; auto.
Qed.
Lemma fold_sole {B} (pi : gathered -> B) v (x : B) u g :
  (forall g a, code_of (pa_val a) <> code_of v -> pi (gather g a) = pi g) ->
  (forall g a, pa_val a = v -> pi (gather g a) = x) ->
  sole v u -> pi (fold_left gather (u_attrs u) g) = x.
Proof.
  intros H Hv (a & b & E & F). unfold values in E.
  apply map_eq_app in E. destruct E as (xs & ys & Ex & Ea & Eb).
  destruct ys as [|y ys]; [discriminate|]. cbn [map] in Eb. injection Eb as Ey Eys. subst a b.
  apply Forall_app in F. destruct F as [_ F2].
  rewrite Ex, fold_left_app. cbn [fold_left]. rewrite (fold_keep pi (code_of v)); [|exact H|exact F2].
  apply Hv, Ey.
Qed.
Lemma fold_absent {B} (pi : gathered -> B) c u g :
  (forall g a, code_of (pa_val a) <> c -> pi (gather g a) = pi g) ->
  absent c u -> pi (fold_left gather (u_attrs u) g) = pi g.
Proof. intros H F. apply (fold_keep pi c H). exact F. Qed.

Ltac keep := intros g a H; unfold PmModel.gather; destruct (pa_val a) as [| | | | | | | | | | | | | | | | | | |v|]; cbn [code_of] in H; try reflexivity; try congruence;
  try (destruct (label_index v); try reflexivity; congruence).
Lemma keep_origin g a : code_of (pa_val a) <> 1 -> af_origin (g_fields (gather g a)) = af_origin (g_fields g).
Proof. revert g a; keep. Qed.
Lemma keep_lp g a : code_of (pa_val a) <> 5 -> af_local_pref (g_fields (gather g a)) = af_local_pref (g_fields g).
Proof. revert g a; keep. Qed.
Lemma keep_med g a : code_of (pa_val a) <> 4 -> af_med (g_fields (gather g a)) = af_med (g_fields g).
Proof. revert g a; keep. Qed.
Lemma keep_comms g a : code_of (pa_val a) <> 8 -> af_comms (g_fields (gather g a)) = af_comms (g_fields g).
Proof. revert g a; keep. Qed.
Lemma keep_ecomms g a : code_of (pa_val a) <> 16 -> af_ecomms (g_fields (gather g a)) = af_ecomms (g_fields g).
Proof. revert g a; keep. Qed.
Lemma keep_lcomms g a : code_of (pa_val a) <> 32 -> af_lcomms (g_fields (gather g a)) = af_lcomms (g_fields g).
Proof. revert g a; keep. Qed.
Lemma keep_aigp g a : code_of (pa_val a) <> 26 -> af_aigp (g_fields (gather g a)) = af_aigp (g_fields g).
Proof. revert g a; keep. Qed.
Lemma keep_otc g a : code_of (pa_val a) <> 35 -> af_otc (g_fields (gather g a)) = af_otc (g_fields g).
Proof. revert g a; keep. Qed.
Lemma keep_psid g a : code_of (pa_val a) <> 40 -> af_psid (g_fields (gather g a)) = af_psid (g_fields g).
Proof. revert g a; keep. Qed.
Lemma keep_as_path g a : code_of (pa_val a) <> 2 -> g_as_path (gather g a) = g_as_path g.
Proof. revert g a; keep. Qed.
Lemma keep_as4_path g a : code_of (pa_val a) <> 17 -> g_as4_path (gather g a) = g_as4_path g.
Proof. revert g a; keep. Qed.
Lemma keep_next_hop g a : code_of (pa_val a) <> 3 -> g_next_hop (gather g a) = g_next_hop g.
Proof. revert g a; keep. Qed.
Lemma keep_reach g a : code_of (pa_val a) <> 14 -> g_reach (gather g a) = g_reach g.
Proof. revert g a; keep. Qed.
Lemma keep_unreach g a : code_of (pa_val a) <> 15 -> g_unreach (gather g a) = g_unreach g.
Proof. revert g a; keep. Qed.

(* ---- End-of-RIB ---- *)
Definition mp_free (xs : list pattr) : Prop :=
  Forall (fun a => match pa_val a with AMpReach _ | AMpUnreach _ => False | _ => True end) xs.
Lemma eor_free xs : forall cur n, mp_free xs -> eor_loop cur n xs = cur.
Proof.
  induction xs as [|a r IH]; intros cur n H; [reflexivity|]. inversion H as [|? ? Ha Hr]; subst. cbn [eor_loop].
  destruct (pa_val a); try contradiction; apply IH, Hr.
Qed.
Lemma eor_reach xs : forall cur n m, In (AMpReach m) (map pa_val xs) -> eor_loop cur n xs = None.
Proof.
  induction xs as [|a r IH]; intros cur n m H; [contradiction|]. cbn [eor_loop map In] in *.
  destruct H as [H|H]; [rewrite H; reflexivity|].
  destruct (pa_val a); try reflexivity; try (eapply IH, H).
  destruct (1 <? n + 1); [reflexivity|]. eapply IH, H.
Qed.
(* a result has one source: an empty MP_UNREACH *)
Lemma eor_one xs : forall cur t, eor_loop cur 1 xs = Some t -> mp_free xs /\ cur = Some t.
Proof.
  induction xs as [|a r IH]; intros cur t H; [split; [constructor|exact H]|]. cbn [eor_loop] in H.
  destruct (pa_val a) eqn:E; try discriminate H;
    try (apply IH in H; destruct H as [F Hc]; split; [constructor; [rewrite E; exact I|exact F]|exact Hc]).
Qed.
Lemma eor_some xs : forall t, eor_loop None 0 xs = Some t ->
  exists a x b, xs = a ++ x :: b /\ mp_free a /\ mp_free b /\
  (pa_val x = AMpUnreach (MuKnown t []) \/ pa_val x = AMpUnreach (MuOpaque t [])).
Proof.
  induction xs as [|a r IH]; intros t H; [discriminate|]. cbn [eor_loop] in H.
  destruct (pa_val a) eqn:E; try discriminate H;
    try (apply IH in H; destruct H as (l & x & b & -> & Hl & Hb & Hx); exists (a :: l), x, b;
         split; [reflexivity|]; split; [constructor; [rewrite E; exact I|exact Hl]|auto]).
  change (1 <? 0 + 1) with false in H. cbn iota in H. change (0 + 1) with 1 in H. apply eor_one in H. destruct H as [F Hc].
  exists [], a, r. split; [reflexivity|]. split; [constructor|]. split; [exact F|].
  destruct m as [t' [|? ?]|t' [|? ?]|? ? ?]; inversion Hc; subst; rewrite E; auto.
Qed.
End Gather.

(* ---- distinguishers and labels ---- *)
Lemma show_dotted v : show_ipv4 v = dotted v.
Proof.
  unfold show_ipv4, dotted. change 16777216 with (256 * (256 * 256)). change 65536 with (256 * 256).
  rewrite <- !N.div_div by lia. reflexivity.
Qed.
Lemma rd_text_notation r : rd_text r = rd_notation r.
Proof. destruct r; try reflexivity. cbn [rd_text rd_notation]. rewrite show_dotted. reflexivity. Qed.
Lemma rd_origin_states r o :
  fst (rd_and_origin r o) = option_map (fun p => rd_notation (fst p)) (with_origin o r) /\
  snd (rd_and_origin r o) = option_map snd (with_origin o r).
Proof. destruct r; cbn; [rewrite rd_text_notation|]; auto. Qed.
Lemma label_value l : label_shape l -> mpls_label_value l = label_of l.
Proof.
  intros (a & b & c & -> & Ha & Hb & Hc). unfold mpls_label_value, label_of. cbn [nth].
  rewrite !N.shiftl_mul_pow2, N.shiftr_div_pow2. change (2 ^ 12) with (4096). change (2 ^ 4) with 16.
  replace (b * 16) with (b * 2 ^ 4) by reflexivity. replace (a * 4096) with (a * 2 ^ 12) by reflexivity.
  rewrite lor_disjoint by (change (2 ^ 4) with 16; change (2 ^ 12) with 4096; lia).
  replace (a * 2 ^ 12 + b * 2 ^ 4) with ((a * 256 + b) * 2 ^ 4)
    by (change (2 ^ 4) with 16; change (2 ^ 12) with 4096; lia).
  rewrite lor_disjoint.
  - change (2 ^ 4) with 16. replace (a * 65536 + b * 256 + c) with (c + (a * 4096 + b * 16) * 16) by lia.
    rewrite N.div_add by lia. lia.
  - change (2 ^ 4) with 16. apply N.div_lt_upper_bound; lia.
Qed.
Lemma top_label_states ls : Forall label_shape ls -> top_label ls = option_map dec (first_label ls).
Proof. intros H. destruct ls as [|l r]; [reflexivity|]. inversion H; subst. cbn. rewrite label_value; auto. Qed.

(* ---- records and facts ---- *)
Section Build.
Variable attrs : attr_fields.
Variable peer : peer_fields.
Variable e : env.
Variable prd : option rd.
Local Notation P := (rd_and_origin prd OBmp).

Lemma body_states log nh x : states (body_record attrs peer e P log nh x) (body_fact prd log nh x).
Proof.
  destruct (rd_origin_states prd OBmp) as [E1 E2]. cbn. rewrite E1, E2. repeat split.
Qed.
Lemma Forall2_map_same {A B C} (R : B -> C -> Prop) (f : A -> B) (g : A -> C) l :
  (forall x, R (f x) (g x)) -> Forall2 R (map f l) (map g l).
Proof. intros H. induction l; constructor; auto. Qed.
Lemma Forall2_flat {A B C} (R : B -> C -> Prop) (f : A -> list B) (g : A -> list C) (Q : A -> Prop) l :
  (forall x, Q x -> Forall2 R (f x) (g x)) -> Forall Q l -> Forall2 R (flat_map f l) (flat_map g l).
Proof. intros H. induction 1; cbn; [constructor|]. apply Forall2_app; auto. Qed.

Lemma family_states log t nh xs : prefix_family t -> Forall (route_shape t) xs ->
  Forall2 states
    (let go f := flat_map (f log (at_afi t) (at_safi t) nh) xs in
     match t with
     | Ipv4Unicast | Ipv4Multicast | Ipv6Unicast | Ipv6Multicast => go (plain_record attrs peer e P)
     | Ipv4NlriMplsLabels | Ipv6NlriMplsLabels => go (labelled_record attrs peer e P)
     | Ipv4MplsLabeledVpn | Ipv6MplsLabeledVpn => go (vpn_record attrs peer e)
     | _ => placeholder attrs peer e P log (at_afi t) (at_safi t)
     end)
    (flat_map (mp_fact prd log t nh) xs).
Proof.
  intros Ht Hx. cbv zeta. destruct (rd_origin_states prd OBmp) as [E1 E2].
  assert (plain : In t [Ipv4Unicast; Ipv4Multicast; Ipv6Unicast; Ipv6Multicast] ->
    Forall2 states (flat_map (plain_record attrs peer e P log (at_afi t) (at_safi t) nh) xs)
                   (flat_map (mp_fact prd log t nh) xs)).
  { intros Hin. eapply Forall2_flat; [|exact Hx]. intros x Hs. destruct x as [pid n|pid ls n|pid d ls n|?|?]; cbn [route_shape] in Hs; try contradiction.
    - repeat constructor; cbn; rewrite ?E1, ?E2; reflexivity.
    - exfalso. destruct Hs as [Hs _]. cbn in Hs, Hin. intuition congruence.
    - exfalso. destruct Hs as [Hs _]. cbn in Hs, Hin. intuition congruence. }
  assert (lab : In t [Ipv4NlriMplsLabels; Ipv6NlriMplsLabels] ->
    Forall2 states (flat_map (labelled_record attrs peer e P log (at_afi t) (at_safi t) nh) xs)
                   (flat_map (mp_fact prd log t nh) xs)).
  { intros Hin. eapply Forall2_flat; [|exact Hx]. intros x Hs. destruct x as [pid n|pid ls n|pid d ls n|?|?]; cbn [route_shape] in Hs; try contradiction.
    - exfalso. cbn in Hs, Hin. intuition congruence.
    - destruct Hs as [_ Hl]. repeat constructor; cbn; rewrite ?E1, ?E2; try reflexivity. apply top_label_states, Hl.
    - exfalso. destruct Hs as [Hs _]. cbn in Hs, Hin. intuition congruence. }
  assert (vpn : In t [Ipv4MplsLabeledVpn; Ipv6MplsLabeledVpn] ->
    Forall2 states (flat_map (vpn_record attrs peer e log (at_afi t) (at_safi t) nh) xs)
                   (flat_map (mp_fact prd log t nh) xs)).
  { intros Hin. eapply Forall2_flat; [|exact Hx]. intros x Hs. destruct x as [pid n|pid ls n|pid d ls n|?|?]; cbn [route_shape] in Hs; try contradiction.
    - exfalso. cbn in Hs, Hin. intuition congruence.
    - exfalso. destruct Hs as [Hs _]. cbn in Hs, Hin. intuition congruence.
    - destruct Hs as [_ Hl]. constructor; [|constructor]. cbn. rewrite rd_text_notation, top_label_states by exact Hl. repeat split. }
  unfold prefix_family in Ht. cbn [In] in Ht.
  destruct t; try (apply plain; cbn; tauto); try (apply lab; cbn; tauto); try (apply vpn; cbn; tauto);
    exfalso; intuition congruence.
Qed.
End Build.

(* ---- texts ---- *)
Lemma join_spaced l : join space l = spaced l.
Proof.
  induction l as [|x [|y r] IH]; [reflexivity|cbn; rewrite app_nil_r; reflexivity|].
  change (join space (x :: y :: r)) with (x ++ space :: join space (y :: r)). rewrite IH. cbn [spaced flat_map].
  reflexivity.
Qed.
Lemma spaced_app l r : l <> [] -> r <> [] -> spaced (l ++ r) = spaced l ++ 32 :: spaced r.
Proof.
  destruct l as [|x l]; [congruence|]. destruct r as [|y r]; [congruence|]. intros _ _. cbn [spaced app].
  rewrite flat_map_app. cbn [flat_map]. rewrite <- app_assoc. reflexivity.
Qed.
Definition full (l : list (list N)) : Prop := Forall (fun x => x <> []) l.
Lemma spaced_nil l : full l -> spaced l = [] -> l = [].
Proof. destruct l as [|x r]; [auto|]. intros H E. inversion H; subst. cbn in E. apply app_eq_nil in E. tauto. Qed.
Lemma spaced_concat lls : Forall full lls ->
  spaced (filter nonempty (map spaced lls)) = spaced (concat lls).
Proof.
  induction 1 as [|l lls Hl H IH]; [reflexivity|]. cbn [map filter concat].
  destruct l as [|x l]; [exact IH|].
  replace (nonempty (spaced (x :: l))) with true.
  2:{ destruct (spaced (x :: l)) eqn:E; [|reflexivity]. apply spaced_nil in E; [discriminate|exact Hl]. }
  destruct (filter nonempty (map spaced lls)) as [|f F] eqn:EF.
  - cbn [spaced] in IH. assert (concat lls = []) as ->.
    { apply spaced_nil; [|symmetry; exact IH]. unfold full. apply Forall_concat, H. }
    rewrite app_nil_r. cbn. rewrite app_nil_r. reflexivity.
  - rewrite spaced_app; [|discriminate|].
    2:{ intros E. rewrite E in IH. cbn [spaced] in IH. apply app_eq_nil in IH. destruct IH as [-> _].
        assert (In ([] : list N) (filter nonempty (map spaced lls))) as Hin by (rewrite EF; left; reflexivity).
        apply filter_In in Hin. destruct Hin as [_ Hin]. discriminate. }
    rewrite <- IH. cbn [spaced flat_map app]. reflexivity.
Qed.
Lemma hop_text_full l : full (map hop_text l).
Proof.
  unfold full. apply Forall_map, Forall_forall. intros h _. destruct h; cbn; [|discriminate].
  destruct (NcProofs.dec_nonempty n) as (b & r & -> & _). discriminate.
Qed.
Definition chunk_text (l : list hop) : text := spaced (map hop_text l).
Lemma asns_text_hops l : asns_text l = chunk_text (map As l).
Proof. unfold asns_text, chunk_text. rewrite join_spaced, map_map. reflexivity. Qed.
Lemma segment_text_hops s : segment_text s = chunk_text (segment_hops s).
Proof.
  unfold segment_text, segment_hops. destruct (fst s =? 1); [|apply asns_text_hops].
  unfold chunk_text, asns_text. cbn [map spaced flat_map hop_text app]. rewrite join_spaced, app_nil_r. reflexivity.
Qed.
Lemma chunks_text lls : join space (filter nonempty (map chunk_text lls)) = path_text (concat lls).
Proof.
  rewrite join_spaced. unfold path_text. rewrite concat_map, <- spaced_concat.
  - rewrite map_map. reflexivity.
  - apply Forall_map, Forall_forall. intros l _. apply hop_text_full.
Qed.
Lemma fmt_path_text ss : fmt_path ss = path_text (hops ss).
Proof.
  unfold fmt_path, hops. rewrite flat_map_concat_map, <- chunks_text, map_map. f_equal. f_equal.
  apply map_ext, segment_text_hops.
Qed.
Lemma count_hops ss : count_asns ss = blen (hops ss).
Proof.
  induction ss as [|s r IH]; [reflexivity|]. cbn [count_asns hops flat_map]. unfold hops in IH. rewrite IH.
  unfold count_segment, segment_hops. destruct (fst s =? 1); rewrite blen_app; [reflexivity|].
  unfold blen. rewrite map_length. reflexivity.
Qed.
Lemma prefix_chunks ss : forall n, exists lls,
  prefix_parts n ss = map chunk_text lls /\ concat lls = firstn (N.to_nat n) (hops ss).
Proof.
  induction ss as [|s r IH]; intros n; cbn [prefix_parts].
  - exists []. cbn. rewrite firstn_nil. auto.
  - destruct (n =? 0) eqn:E0.
    { apply N.eqb_eq in E0. subst. exists []. auto. }
    apply N.eqb_neq in E0. change (hops (s :: r)) with (segment_hops s ++ hops r).
    destruct (fst s =? 1) eqn:E1.
    + destruct (IH (n - 1)) as (lls & E & F). exists (segment_hops s :: lls). cbn [map concat].
      rewrite segment_text_hops, E, F. split; [reflexivity|]. unfold segment_hops. rewrite E1. cbn [app].
      replace (N.to_nat n) with (S (N.to_nat (n - 1))) by lia. reflexivity.
    + set (k := N.min n (blen (snd s))). destruct (IH (n - k)) as (lls & E & F).
      assert (Hk : firstn (N.to_nat n) (segment_hops s ++ hops r) = map As (take k (snd s)) ++ firstn (N.to_nat (n - k)) (hops r)).
      { unfold segment_hops. rewrite E1, firstn_app, map_length, firstn_map. unfold take. f_equal.
        - f_equal. subst k. unfold blen. destruct (N.le_gt_cases n (N.of_nat (length (snd s)))).
          + rewrite N.min_l by lia. reflexivity.
          + rewrite N.min_r by lia. rewrite !firstn_all2 by lia. reflexivity.
        - f_equal. subst k. unfold blen. lia. }
      rewrite Hk, asns_text_hops. destruct (take k (snd s)) as [|x l] eqn:ET.
      * exists lls. cbn. auto.
      * exists (map As (x :: l) :: lls). cbn [map concat]. rewrite <- F. split; [|reflexivity].
        replace (nonempty (chunk_text (As x :: map As l))) with true; [cbn [app]; rewrite E; reflexivity|].
        unfold chunk_text. cbn [map hop_text spaced]. destruct (NcProofs.dec_nonempty x) as (b & t & -> & _). reflexivity.
Qed.
Lemma fmt_prefix_text ss n : fmt_path_prefix ss n = path_text (firstn (N.to_nat n) (hops ss)).
Proof. unfold fmt_path_prefix. destruct (prefix_chunks ss n) as (lls & -> & <-). apply chunks_text. Qed.
Lemma path_text_nil l : path_text l = [] -> l = [].
Proof. intros H. apply spaced_nil in H; [|apply hop_text_full]. destruct l; [reflexivity|discriminate]. Qed.
Lemma path_text_app a b : a <> [] -> b <> [] -> path_text (a ++ b) = path_text a ++ 32 :: path_text b.
Proof. intros Ha Hb. unfold path_text. rewrite map_app. apply spaced_app; destruct a, b; cbn; congruence. Qed.
Lemma merge_text ap a4 pre : hops ap = pre ++ map old_view (hops a4) ->
  merge_as_path (Some ap) (Some a4) = Some (path_text (pre ++ hops a4)).
Proof.
  intros H. cbn [merge_as_path]. rewrite !count_hops, H, blen_app.
  replace (blen (map old_view (hops a4))) with (blen (hops a4)) by (unfold blen; rewrite map_length; reflexivity).
  replace (blen pre + blen (hops a4) <? blen (hops a4)) with false by (symmetry; apply N.ltb_ge; lia).
  replace (blen pre + blen (hops a4) - blen (hops a4)) with (blen pre) by lia.
  rewrite fmt_prefix_text, H, fmt_path_text. unfold blen. rewrite Nat2N.id, firstn_app, Nat.sub_diag, firstn_all. cbn [firstn].
  rewrite app_nil_r.
  destruct (path_text pre) as [|p ps] eqn:Ep.
  - apply path_text_nil in Ep. subst. reflexivity.
  - destruct (path_text (hops a4)) as [|t ts] eqn:Et.
    + apply path_text_nil in Et. rewrite Et, app_nil_r, Ep. reflexivity.
    + rewrite path_text_app, Ep, Et; [reflexivity| |].
      * intros ->. discriminate.
      * intros E. rewrite E in Et. discriminate.
Qed.

(* ---- texts tell values apart ---- *)
Definition stops (r : list N) : Prop := match r with [] => True | x :: _ => NcModel.digit x = false end.
Lemma digits_cancel a : forall b r r', forallb NcModel.digit a = true -> forallb NcModel.digit b = true ->
  stops r -> stops r' -> a ++ r = b ++ r' -> a = b /\ r = r'.
Proof.
  induction a as [|x a IH]; intros b r r' Ha Hb Hr Hr' E; destruct b as [|y b]; cbn [app] in E.
  - auto.
  - subst r. cbn in Hr, Hb. rewrite Hr in Hb. discriminate.
  - subst r'. cbn in Hr', Ha. rewrite Hr' in Ha. discriminate.
  - cbn in Ha, Hb. apply andb_prop in Ha, Hb. injection E as -> E.
    destruct (IH b r r') as [-> ->]; tauto.
Qed.
Lemma dec_inj a b : dec a = dec b -> a = b.
Proof. intros H. rewrite <- (NcProofs.dec_val_dec a), H. apply NcProofs.dec_val_dec. Qed.
Lemma dec_cancel a b r r' : stops r -> stops r' -> dec a ++ r = dec b ++ r' -> a = b /\ r = r'.
Proof.
  intros Hr Hr' E. destruct (digits_cancel (dec a) (dec b) r r') as [D ->]; auto using NcProofs.dec_digits.
  split; [apply dec_inj, D|reflexivity].
Qed.
Lemma set_tail l : forall l' r r',
  flat_map (fun y => 32 :: y) (map dec l) ++ 125 :: r = flat_map (fun y => 32 :: y) (map dec l') ++ 125 :: r' ->
  l = l' /\ r = r'.
Proof.
  assert (S : forall l r, stops (flat_map (fun y => 32 :: y) (map dec l) ++ 125 :: r)).
  { intros [|x l0] r; reflexivity. }
  induction l as [|x l IH]; intros [|y l'] r r' E; cbn in E; try discriminate.
  - injection E as ->. auto.
  - rewrite <- !app_assoc in E. injection E as E. apply dec_cancel in E; [|apply S|apply S]. destruct E as [-> E].
    apply IH in E. destruct E as [-> ->]. auto.
Qed.
Lemma set_cancel l l' r r' :
  spaced (map dec l) ++ 125 :: r = spaced (map dec l') ++ 125 :: r' -> l = l' /\ r = r'.
Proof.
  assert (S : forall l r, stops (flat_map (fun y => 32 :: y) (map dec l) ++ 125 :: r)).
  { intros [|x l0] r0; reflexivity. }
  destruct l as [|x l]; destruct l' as [|y l']; cbn [map spaced]; intros E; cbn [app] in E.
  - injection E as ->. auto.
  - exfalso. rewrite <- app_assoc in E. destruct (NcProofs.dec_nonempty y) as (b & t & Hb & Hd). rewrite Hb in E. cbn in E.
    injection E as <- _. discriminate.
  - exfalso. rewrite <- app_assoc in E. destruct (NcProofs.dec_nonempty x) as (b & t & Hb & Hd). rewrite Hb in E. cbn in E.
    injection E as -> _. discriminate.
  - rewrite <- !app_assoc in E. apply dec_cancel in E; [|apply S|apply S]. destruct E as [-> E].
    apply set_tail in E. destruct E as [-> ->]. auto.
Qed.
Lemma hop_cancel h h' r r' : stops r -> stops r' -> hop_text h ++ r = hop_text h' ++ r' -> h = h' /\ r = r'.
Proof.
  intros Hr Hr' E. destruct h as [n|l], h' as [n'|l']; cbn [hop_text] in E.
  - apply dec_cancel in E; auto. destruct E as [-> ->]. auto.
  - exfalso. destruct (NcProofs.dec_nonempty n) as (b & t & Hb & Hd). rewrite Hb in E. cbn in E. injection E as -> _. discriminate.
  - exfalso. destruct (NcProofs.dec_nonempty n') as (b & t & Hb & Hd). rewrite Hb in E. cbn in E. injection E as <- _. discriminate.
  - cbn [app] in E. rewrite <- !app_assoc in E. cbn [app] in E. injection E as E. apply set_cancel in E. destruct E as [-> ->]. auto.
Qed.
Lemma hops_tail l : forall l', flat_map (fun y => 32 :: y) (map hop_text l) = flat_map (fun y => 32 :: y) (map hop_text l') -> l = l'.
Proof.
  assert (S : forall l, stops (flat_map (fun y => 32 :: y) (map hop_text l))).
  { intros [|x l0]; reflexivity. }
  induction l as [|x l IH]; intros [|y l'] E; cbn in E; try discriminate; [reflexivity|].
  injection E as E. apply hop_cancel in E; [|apply S|apply S]. destruct E as [-> E]. f_equal. apply IH, E.
Qed.
Lemma path_text_inj l l' : path_text l = path_text l' -> l = l'.
Proof.
  assert (S : forall l, stops (flat_map (fun y => 32 :: y) (map hop_text l))).
  { intros [|x l0]; reflexivity. }
  destruct l as [|x l]; destruct l' as [|y l']; intros E.
  - reflexivity.
  - symmetry in E. apply path_text_nil in E. discriminate.
  - apply path_text_nil in E. discriminate.
  - unfold path_text in E. cbn [map spaced] in E. apply hop_cancel in E; [|apply S|apply S]. destruct E as [-> E].
    f_equal. apply hops_tail, E.
Qed.
Lemma ipv4_cancel a b r r' : stops r -> stops r' -> show_ipv4 a ++ r = show_ipv4 b ++ r' -> a = b /\ r = r'.
Proof.
  intros Hr Hr' E. unfold show_ipv4 in E. rewrite <- !app_assoc in E. cbn [app] in E.
  apply dec_cancel in E; [|reflexivity|reflexivity]. destruct E as [E1 E]. injection E as E.
  rewrite <- !app_assoc in E. cbn [app] in E.
  apply dec_cancel in E; [|reflexivity|reflexivity]. destruct E as [E2 E]. injection E as E.
  rewrite <- !app_assoc in E. cbn [app] in E.
  apply dec_cancel in E; [|reflexivity|reflexivity]. destruct E as [E3 E]. injection E as E.
  apply dec_cancel in E; [|exact Hr|exact Hr']. destruct E as [E4 E].
  split; [|exact E].
  assert (D : forall v, v = ((v / 16777216 * 256 + v / 65536 mod 256) * 256 + v / 256 mod 256) * 256 + v mod 256).
  { intros v. change 16777216 with (256 * (256 * 256)). change 65536 with (256 * 256).
    rewrite <- !N.div_div by lia.
    pose proof (N.div_mod v 256 ltac:(lia)). pose proof (N.div_mod (v / 256) 256 ltac:(lia)).
    pose proof (N.div_mod (v / 256 / 256) 256 ltac:(lia)). lia. }
  rewrite (D a), (D b), E1, E2, E3, E4. reflexivity.
Qed.
Lemma rd_notation_inj r r' : rd_notation r = rd_notation r' -> r = r'.
Proof.
  destruct r as [a n|a n|a n|], r' as [a' n'|a' n'|a' n'|]; cbn [rd_notation]; intros E; try discriminate E.
  - injection E as E. apply dec_cancel in E; [|reflexivity|reflexivity]. destruct E as [-> E]. injection E as E.
    apply dec_inj in E. subst. reflexivity.
  - injection E as E. rewrite <- !show_dotted in E. apply ipv4_cancel in E; [|reflexivity|reflexivity]. destruct E as [-> E]. injection E as E.
    apply dec_inj in E. subst. reflexivity.
  - injection E as E. apply dec_cancel in E; [|reflexivity|reflexivity]. destruct E as [-> E]. injection E as E.
    apply dec_inj in E. subst. reflexivity.
  - reflexivity.
Qed.

(* ---- times ---- *)
Lemma dec_len_below n d : n < 10 ^ (d + 1) -> blen (dec n) <= d + 1.
Proof. intros H. apply NcProofs.dec_fuel_len, H. Qed.
Lemma val_zeros k l : NcModel.dec_val (repeat 48 k ++ l) = NcModel.dec_val l.
Proof.
  unfold NcModel.dec_val. rewrite fold_left_app. f_equal. induction k as [|k IH]; [reflexivity|exact IH].
Qed.
Lemma fmt_ts_reads s n : n < 1000000000 -> reads_as (fmt_ts (s, n)) s (n / 1000).
Proof.
  intros H. unfold reads_as, fmt_ts. cbn [fst snd]. exists (pad6 (n / 1000)). split; [reflexivity|]. unfold pad6.
  assert (L : (List.length (dec (n / 1000)) <= 6)%nat).
  { assert (n / 1000 < 1000000) as Hn by (apply N.div_lt_upper_bound; lia).
    pose proof (dec_len_below (n / 1000) 5 Hn) as B. unfold blen in B. lia. }
  split; [|split].
  - rewrite app_length, repeat_length. lia.
  - rewrite forallb_app, NcProofs.dec_digits, andb_true_r. apply forallb_forall. intros x Hx. apply repeat_spec in Hx. subst. reflexivity.
  - rewrite val_zeros. apply NcProofs.dec_val_dec.
Qed.

(* ---- flags ---- *)
Lemma flag_bit k flags : flag_set (2 ^ k) flags = N.testbit flags k.
Proof.
  unfold flag_set. destruct (N.testbit flags k) eqn:Hb.
  - apply N.eqb_eq, N.bits_inj. intros i. rewrite N.land_spec, N.pow2_bits_eqb.
    destruct (N.eqb_spec k i) as [<-|]; [now rewrite Hb|apply andb_false_r].
  - apply N.eqb_neq. intros H. apply (f_equal (fun x => N.testbit x k)) in H.
    rewrite N.land_spec, N.pow2_bits_true, Hb in H. discriminate.
Qed.
Lemma ptype_rib type flags rest off r' p : parse_ptype (mkR (type :: flags :: rest) off) = (r', Ok p) ->
  rib_type_and_flags p = rib_named type flags /\ ptype_code p = type.
Proof.
  unfold parse_ptype. cbv beta iota delta [brd pmap_err bind read_u8 rbuf roff map_err fst snd]. intros H.
  destruct (xp_of 251 type) as [x|] eqn:X.
  - cbv beta iota delta [ret] in H. injection H as <- <-. cbn [rib_type_and_flags ptype_code].
    unfold xp_of in X. unfold rib_named.
    assert (T : type = 251 + xp_num x).
    { destruct (N.eqb_spec type 251); [injection X as <-; cbn; lia|].
      destruct (N.eqb_spec type (251 + 1)); [injection X as <-; cbn; lia|].
      destruct (N.eqb_spec type (251 + 2)); [injection X as <-; cbn; lia|].
      destruct (N.eqb_spec type (251 + 3)); [injection X as <-; cbn; lia|]. discriminate. }
    replace (type =? 3) with false by (symmetry; apply N.eqb_neq; lia).
    replace (type <? 3) with false by (symmetry; apply N.ltb_ge; lia). auto.
  - destruct (4 <=? type) eqn:L; [discriminate H|]. apply N.leb_gt in L.
    change 128 with (2 ^ 7) in H. change 64 with (2 ^ 6) in H. change 32 with (2 ^ 5) in H. change 16 with (2 ^ 4) in H.
    rewrite !flag_bit in H. unfold rib_named.
    destruct (N.eqb_spec type 3) as [->|N3].
    + injection H as <- <-. destruct (N.testbit flags 7); auto.
    + injection H as <- <-. replace (type <? 3) with true by (symmetry; apply N.ltb_lt; lia).
      split; [destruct (N.testbit flags 4), (N.testbit flags 6); reflexivity|].
      destruct (N.eqb_spec type 0) as [->|]; [reflexivity|]. destruct (N.eqb_spec type 1) as [->|]; [reflexivity|]. cbn. lia.
Qed.
