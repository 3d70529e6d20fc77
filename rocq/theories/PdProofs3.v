(* Proofs about the four protocol handlers of the capture decoding tool. *)
From Verif Require Import Base BaseLemmas MapLib FramingModel FramingProofs BgpCapModel BgpFrameModel BgpFrameProofs BgpNlriModel BgpAttrModel
  BgpMsgModel BgpMsgSpec BgpMsgProofs BmpModel BmpSpec BmpFrameProofs BmpStreamProofs PdModel PdHandlers PdSpec PdProofs PdProofs2.
From Verif Require UdpNotifModel UdpNotifSpec UdpNotifProofs UdpReasmProofs FlModel FlSpec FlDecodeProofs FlProps.

(* ---- a handler whose decoder never panics never panics ---- *)
Section Safe.
Context {C M E L : Type} (h : handler C M E L) (J : C -> Prop).
Hypothesis J0 : J (h_init h).
Hypothesis J1 : forall s b s' b' o, J s -> h_decode h s b = (s', b', o) -> J s' /\ o <> DPanic.
Hypothesis P : progresses h.
Lemma loop_returns f : forall k s b, J s -> (length b <= f)%nat ->
  match decode_loop h f k s b with (s', _, _, e) => J s' /\ e = Returned end.
Proof.
  induction f as [|f IH]; intros k s b Hj Hl; destruct b as [|x b]; cbn [decode_loop]; auto; [cbn in Hl; lia|].
  destruct (h_decode h s (x :: b)) as [[s' b'] o] eqn:Hd. destruct (J1 _ _ _ _ _ Hj Hd) as [Hj' Ho]. destruct o as [|m|e|]; [auto| | |congruence].
  - apply P in Hd. specialize (IH k s' b' Hj' ltac:(lia)). destruct (decode_loop h f k s' b') as [[[s2 b2] os] r]. exact IH.
  - specialize (IH k s' [] Hj' ltac:(cbn; lia)). destruct (decode_loop h f k s' []) as [[[s2 b2] os] r]. exact IH.
Qed.
Lemma all_returns l : forall ps, (forall k cb, mget key_eqb k ps = Some cb -> J (fst cb)) -> snd (handle_all h ps l) = Returned.
Proof.
  induction l as [|p l IH]; intros ps Hp; [reflexivity|]. cbn [handle_all].
  assert (Hh : match handle h ps p with (ps', _, e) => e = Returned /\ forall k cb, mget key_eqb k ps' = Some cb -> J (fst cb) end).
  { unfold handle. destruct (transport_eqb _ _ && _); [|auto].
    destruct (match mget key_eqb (p_key p) ps with Some cb => cb | None => _ end) as [s b] eqn:Hm. unfold decode_buffer.
    assert (Hj : J s). { destruct (mget key_eqb (p_key p) ps) as [cb|] eqn:Hg; [|inversion Hm; subst; exact J0]. specialize (Hp _ _ Hg). subst cb. exact Hp. }
    pose proof (loop_returns (length (b ++ p_data p)) (p_key p) s (b ++ p_data p) Hj (le_n _)) as HL.
    destruct (decode_loop h _ (p_key p) s (b ++ p_data p)) as [[[s' b'] os] e]. destruct HL as [Hj' ->]. split; [reflexivity|].
    intros k cb. rewrite mget_mset by apply key_eqb_spec. destruct (key_eqb k (p_key p)); [intros H; injection H as <-; exact Hj'|apply Hp]. }
  destruct (handle h ps p) as [[ps' r] e]. destruct Hh as [-> Hh]. specialize (IH ps' Hh). destruct (handle_all h ps' l) as [rs e]. exact IH.
Qed.
End Safe.

(* ---- BGP ---- *)
Lemma bgp_progresses ports : progresses (bgp_handler ports).
Proof. intros s b s' b' m H. exact (decode_item_progress bgp_ops parse_body asn4_of _ _ _ _ _ H). Qed.
Lemma bgp_returns ports l : snd (handle_all (bgp_handler ports) [] l) = Returned.
Proof.
  apply (all_returns (bgp_handler ports) (fun k => x_labels (k_ctx k) = [])).
  - reflexivity.
  - intros s b s' b' o Hj Hd. destruct (decode_bgp_labels s b s' b' o) as [H1 H2]; [|exact Hd|split; [congruence|exact H2]].
    rewrite Hj. intros t. cbn. unfold limit_of. cbn. lia.
  - apply bgp_progresses.
  - cbn. discriminate.
Qed.
Lemma bgp_no_panic k xs : x_labels (k_ctx k) = [] -> forall b o, ~ In DPanic o -> ~ In DPanic (c_out (feed_all decode_bgp (mkConn k b o Waiting) xs)).
Proof.
  assert (Hh : forall xs s b o st, st <> Waiting -> c_out (feed_all decode_bgp (mkConn s b o st) xs) = o).
  { induction xs0 as [|x xs0 IH]; intros s b o st Hs; [reflexivity|]. cbn [feed_all fold_left]. unfold feed at 2. cbn [c_status c_st c_buf c_out].
    destruct st; [congruence| |]; apply IH; discriminate. }
  assert (Hdr : forall f k b s b' os st, x_labels (k_ctx k) = [] -> drain_fuel decode_bgp f k b = (s, b', os, st) -> x_labels (k_ctx s) = [] /\ ~ In DPanic os).
  { induction f as [|f IH]; intros k0 b s b' os st Hk; cbn [drain_fuel]; [intros H; inversion H; subst; auto|].
    destruct (decode_bgp k0 b) as [[k1 b1] o] eqn:Hd. destruct (decode_bgp_labels k0 b k1 b1 o) as [H1 H2]; [|exact Hd|].
    { rewrite Hk. intros t. cbn. unfold limit_of. cbn. lia. }
    rewrite Hk in H1. destruct o as [|m|e|]; cbn [is_none halts].
    - intros H; inversion H; subst; auto.
    - destruct (drain_fuel decode_bgp f k1 b1) as [[[s2 b2] os2] st2] eqn:H0. intros H; inversion H; subst. destruct (IH _ _ _ _ _ _ H1 H0) as [I1 I2].
      split; [exact I1|]. intros [H3|H3]; [discriminate|auto].
    - intros H; inversion H; subst. split; [exact H1|]. intros [H3|[]]. discriminate.
    - congruence. }
  revert k. induction xs as [|x xs IH]; intros k Hk b o Ho; [exact Ho|]. cbn [feed_all fold_left]. unfold feed at 2. cbn [c_status c_st c_buf c_out].
  unfold drain. destruct (drain_fuel decode_bgp _ k (b ++ x)) as [[[s1 b1] os] st] eqn:Hd. destruct (Hdr _ _ _ _ _ _ _ Hk Hd) as [H1 H2].
  fold (feed_all decode_bgp (mkConn s1 b1 (o ++ os) st) xs).
  assert (H3 : ~ In DPanic (o ++ os)) by (rewrite in_app_iff; tauto).
  destruct st; [apply IH; assumption|rewrite Hh; [exact H3|discriminate]|rewrite Hh; [exact H3|discriminate]].
Qed.
Lemma bgp_stream_feed ports k xs : wanted (bgp_handler ports) (mkP k TCP []) ->
  until_error (outcomes (fst (handle_all (bgp_handler ports) [] (flow_of TCP k xs)))) =
  as_outcomes k (c_out (feed_all decode_bgp (conn_new bgp_fresh) xs)).
Proof.
  intros Hw. pose proof (stream_outcomes (bgp_handler ports) k xs Hw) as [Ho _]. cbn [h_proto bgp_handler] in Ho. rewrite Ho.
  assert (HP : ~ In DPanic (c_out (feed_all decode_bgp (conn_new bgp_fresh) xs))) by (apply (bgp_no_panic bgp_fresh xs eq_refl); intros []).
  refine (proj1 (stream_feed (bgp_handler ports) (fun _ _ => True) _ _ _ _ _ _ k xs (h_init (bgp_handler ports)) [] [] I) HP); auto.
  - intros s b s' b' _ H. apply (decode_none bgp_ops parse_body asn4_of) in H as [-> ->]. auto.
  - intros s b s' b' o _ H Hn. now apply (decode_app bgp_ops parse_body asn4_of).
  - intros s b s' b' o _ H Hn Hh. destruct o; try discriminate. now apply (decode_item_progress bgp_ops parse_body asn4_of) in H.
Qed.

(* with the strict settings a decoded message leaves the settings alone *)
Definition strict (c : bctx) : Prop := x_fail_withdraw c = true /\ x_fail_update c = true /\ x_fail_cap c = true /\ x_fail_attr c = true.
Definition ckeep {E A} (p : cparser bctx E A) : Prop := forall c r c' r' a, strict c -> p c r = (c', r', Ok a) -> c' = c.
Lemma ck_ret {E A} (x : A) : ckeep (@cret bctx E A x). Proof. intros c r c' r' a H H0. inversion H0. reflexivity. Qed.
Lemma ck_fail {E A} (e : E) : ckeep (@cfail bctx E A e). Proof. intros c r c' r' a H H0. inversion H0. Qed.
Lemma ck_lift {E A} (p : parser E A) : ckeep (clift p).
Proof. intros c r c' r' a H. unfold clift. destruct (p r). intros H0; inversion H0. reflexivity. Qed.
Lemma ck_bind {E A B} (p : cparser bctx E A) (f : A -> cparser bctx E B) : ckeep p -> (forall x, ckeep (f x)) -> ckeep (cbind p f).
Proof.
  intros Hp Hf c r c' r' a H. unfold cbind. destruct (p c r) as [[c1 r1] [x|e| |]] eqn:E1; try discriminate. intros H0.
  pose proof (Hp _ _ _ _ _ H E1). subst c1. eapply Hf; eauto.
Qed.
Lemma ck_map_err {E F A} (g : E -> F) (p : cparser bctx E A) : ckeep p -> ckeep (cmap_err g p).
Proof.
  intros Hp c r c' r' a H. unfold cmap_err. destruct (p c r) as [[c1 r1] [x|e| |]] eqn:E1; try discriminate. intros H0; inversion H0; subst.
  eapply Hp; eauto.
Qed.
Lemma ck_in_sub {E A} (g : perr -> E) n (p : cparser bctx E A) : ckeep p -> ckeep (in_sub g n p).
Proof.
  intros Hp. unfold in_sub. apply ck_bind; [apply ck_lift|]. intros sub c r c' r' a H. unfold con_sub.
  destruct (p c sub) as [[c1 r1] x] eqn:E1. intros H0; inversion H0; subst. eapply Hp; eauto.
Qed.
Lemma ck_many {E A} (p : cparser bctx E (option A)) : ckeep p -> forall fuel, ckeep (cmany fuel p).
Proof.
  intros Hp. induction fuel as [|f IH]; intros c r c' r' a H; cbn [cmany]; destruct (ris_empty r); try (intros H0; inversion H0; reflexivity); try discriminate.
  apply (ck_bind p); [exact Hp| |exact H]. intros o. apply ck_bind; [exact IH|intros; apply ck_ret].
Qed.
Lemma ck_many_all {E A} (p : cparser bctx E (option A)) : ckeep p -> ckeep (cmany_all p).
Proof. intros Hp c r c' r' a. unfold cmany_all. apply ck_many, Hp. Qed.
Lemma ck_cap : ckeep cap_step.
Proof.
  intros c r c' r' a (_ & _ & H & _). unfold cap_step. destruct (parse_cap r) as [r1 [x|e| |]]; try discriminate; [intros H0; inversion H0; reflexivity|].
  rewrite H. discriminate.
Qed.
Lemma ck_route ap u : ckeep (route_step ap u).
Proof.
  unfold route_step. apply ck_bind; [apply ck_lift|]. intros pid. apply ck_bind; [apply ck_lift|]. intros n. unfold check_route.
  destruct (family_ok _ n); [apply ck_ret|]. intros c r c' r' a (H1 & H2 & _). rewrite H1, H2. rewrite !andb_false_r. discriminate.
Qed.
Lemma ck_attr : ckeep attr_step.
Proof.
  intros c r c' r' a (_ & _ & _ & H). unfold attr_step. destruct (parse_attr _ _ _ r) as [r1 [x|e| |]]; try discriminate; [intros H0; inversion H0; reflexivity|].
  rewrite H. destruct e; discriminate.
Qed.
Lemma ck_open : ckeep parse_open.
Proof.
  unfold parse_open. apply ck_bind; [apply ck_lift|]. intros v. destruct (negb _); [apply ck_fail|].
  repeat (apply ck_bind; [apply ck_lift|]; intros). destruct (_ || _); [apply ck_fail|].
  repeat (apply ck_bind; [apply ck_lift|]; intros). destruct (bad_bgp_id _); [apply ck_fail|].
  repeat (apply ck_bind; [apply ck_lift|]; intros). destruct (_ =? 0); [apply ck_ret|].
  apply ck_bind; [|intros; apply ck_ret]. apply ck_in_sub, ck_many_all. apply ck_bind; [|intros; apply ck_ret].
  unfold parse_param. apply ck_bind; [apply ck_lift|]. intros c. destruct (c =? 2); [|apply ck_fail]. apply ck_bind; [apply ck_lift|]. intros _.
  unfold parse_cap_param. apply ck_bind; [apply ck_lift|]. intros l. apply ck_in_sub, ck_many_all, ck_cap.
Qed.
Lemma ck_update : ckeep parse_update.
Proof.
  assert (HK : forall ap, ckeep (cbind (clift (pmap_err UE_Parse read_u16)) (fun wlen =>
    cbind (in_sub UE_Parse wlen (cmany_all (route_step ap false))) (fun ws =>
    cbind (clift (pmap_err UE_Parse read_u16)) (fun alen =>
    cbind (in_sub UE_Parse alen (cmany_all attr_step)) (fun attrs =>
    cbind (cmany_all (route_step ap true)) (fun ns => cret (mkUpdate ws attrs ns)))))))).
  { intros ap. apply ck_bind; [apply ck_lift|]. intros w. apply ck_bind; [apply ck_in_sub, ck_many_all, ck_route|]. intros ws.
    apply ck_bind; [apply ck_lift|]. intros l. apply ck_bind; [apply ck_in_sub, ck_many_all, ck_attr|]. intros as_.
    apply ck_bind; [apply ck_many_all, ck_route|]. intros. apply ck_ret. }
  intros c r c' r' a Hs H. exact (HK _ _ _ _ _ _ Hs H).
Qed.
Lemma ck_body t : ckeep (parse_body t).
Proof.
  destruct t; cbn [parse_body]; try apply ck_ret; (apply ck_bind; [apply ck_map_err|intros; apply ck_ret]);
    [apply ck_open|apply ck_update|apply ck_lift|apply ck_lift].
Qed.
Lemma ck_message : ckeep parse_bgp.
Proof.
  unfold parse_bgp, parse_message. apply ck_bind; [apply ck_lift|]. intros hd. destruct (negb _); [apply ck_fail|].
  apply ck_bind; [apply ck_lift|]. intros [[l t] sub] c r c' r' a Hs. pose proof (ck_map_err BE_Body _ (ck_body t)) as Hb.
  destruct (cmap_err BE_Body (parse_body t) c sub) as [[c1 s1] [m|e| |]] eqn:E1; try discriminate.
  destruct (ris_empty s1); [|discriminate]. intros H; inversion H; subst. eapply Hb; eauto.
Qed.
Lemma strict_item k b k' b' m ig : strict (k_ctx k) -> x_ign (k_ctx k) = no_ignored -> decode_bgp k b = (k', b', DItem (m, ig)) ->
  ig = no_ignored /\ strict (k_ctx k') /\ x_ign (k_ctx k') = no_ignored.
Proof.
  intros Hs Hi. unfold decode_bgp, bgp_decode. destruct (19 <=? blen b); [|discriminate]. destruct (blen b <? _); [discriminate|].
  cbn [op_set_asn4 op_reset bgp_ops]. set (x := set_asn4 _ _). set (f := rnew _).
  destruct (parse_message parse_body x f) as [[c' r'] [m'|e| |]] eqn:Hp; try discriminate.
  assert (Hx : strict x) by exact Hs. pose proof (ck_message _ _ _ _ _ Hx Hp) as ->. unfold reset_errors.
  intros H; inversion H; subst. split; [exact Hi|]. split; [exact Hs|reflexivity].
Qed.
Lemma strict_stream f : forall k b s b' os st, strict (k_ctx k) -> x_ign (k_ctx k) = no_ignored -> drain_fuel decode_bgp f k b = (s, b', os, st) ->
  (forall m ig, In (DItem (m, ig)) os -> ig = no_ignored) /\ (st = Waiting -> strict (k_ctx s) /\ x_ign (k_ctx s) = no_ignored).
Proof.
  induction f as [|f IH]; intros k b s b' os st Hs Hi; cbn [drain_fuel]; [intros H; inversion H; subst; cbn; split; [tauto|discriminate]|].
  destruct (decode_bgp k b) as [[k1 b1] o] eqn:Hd. destruct o as [|[m ig]|e|]; cbn [is_none halts].
  - apply (decode_none bgp_ops parse_body asn4_of) in Hd as [-> ->]. intros H; inversion H; subst. cbn. tauto.
  - destruct (strict_item _ _ _ _ _ _ Hs Hi Hd) as (-> & Hs1 & Hi1). destruct (drain_fuel decode_bgp f k1 b1) as [[[s2 b2] os2] st2] eqn:H0.
    intros H; inversion H; subst. destruct (IH _ _ _ _ _ _ Hs1 Hi1 H0) as [I1 I2]. split; [|exact I2]. intros m' ig' [H1|H1]; [congruence|eauto].
  - intros H; inversion H; subst. split; [|discriminate]. intros m ig [H0|[]]; discriminate.
  - intros H; inversion H; subst. split; [|discriminate]. intros m ig [H0|[]]; discriminate.
Qed.
Lemma strict_feed xs : forall k b o, strict (k_ctx k) -> x_ign (k_ctx k) = no_ignored -> (forall m ig, In (DItem (m, ig)) o -> ig = no_ignored) ->
  forall m ig, In (DItem (m, ig)) (c_out (feed_all decode_bgp (mkConn k b o Waiting) xs)) -> ig = no_ignored.
Proof.
  assert (Hh : forall xs s b o st, st <> Waiting -> c_out (feed_all decode_bgp (mkConn s b o st) xs) = o).
  { induction xs0 as [|x xs0 IH]; intros s b o st Hs; [reflexivity|]. cbn [feed_all fold_left]. unfold feed at 2. cbn [c_status c_st c_buf c_out].
    destruct st; [congruence| |]; apply IH; discriminate. }
  induction xs as [|x xs IH]; intros k b o Hs Hi Ho m ig; [apply Ho|]. cbn [feed_all fold_left]. unfold feed at 2. cbn [c_status c_st c_buf c_out].
  unfold drain. destruct (drain_fuel decode_bgp _ k (b ++ x)) as [[[s1 b1] os] st] eqn:Hd. destruct (strict_stream _ _ _ _ _ _ _ Hs Hi Hd) as [H1 H2].
  fold (feed_all decode_bgp (mkConn s1 b1 (o ++ os) st) xs).
  assert (H3 : forall m ig, In (DItem (m, ig)) (o ++ os) -> ig = no_ignored) by (intros m0 ig0; rewrite in_app_iff; intros [H|H]; eauto).
  destruct st; [destruct (H2 eq_refl); apply IH; assumption|rewrite Hh by discriminate; apply H3|rewrite Hh by discriminate; apply H3].
Qed.

(* ---- the width of AS numbers ---- *)
Definition widths_from (d : bool) (os : list (outcome (bgp_msg * ignored) (bgp_err body_err))) : Prop :=
  forall i k u ig, nth_error os i = Some (Success k (MUpdate u, ig)) -> as_paths_have_width (last_said d (messages (firstn i os))) u.
Lemma said_app a : forall d b, last_said d (a ++ b) = last_said (last_said d a) b.
Proof. induction a as [|m a IH]; intros d b; [reflexivity|]. cbn [app last_said]. apply IH. Qed.
Lemma messages_app a b : messages (a ++ b) = messages a ++ messages b.
Proof. apply flat_map_app. Qed.
Lemma widths_app d a b : widths_from d a -> widths_from (last_said d (messages a)) b -> widths_from d (a ++ b).
Proof.
  intros Ha Hb i k u ig H. rewrite firstn_app. destruct (Nat.lt_ge_cases i (length a)) as [Hl|Hl].
  - rewrite nth_error_app1 in H by exact Hl. replace (i - length a)%nat with 0%nat by lia. cbn [firstn]. rewrite app_nil_r. eapply Ha; eauto.
  - rewrite nth_error_app2 in H by exact Hl. rewrite firstn_all2 by exact Hl. rewrite messages_app, said_app. eapply Hb; eauto.
Qed.
Lemma width_step k b k' b' o d : k_sent k = Some true -> k_recv k = Some d -> decode_bgp k b = (k', b', o) ->
  k_sent k' = Some true /\
  match o with
  | DItem (m, ig) => k_recv k' = Some (last_said d [m]) /\ forall u, m = MUpdate u -> as_paths_have_width d u
  | _ => k_recv k' = Some d
  end.
Proof.
  intros H1 H2 Hd. assert (HW := decode_update_width k b k' b'). revert Hd HW. unfold decode_bgp, bgp_decode.
  destruct (19 <=? blen b); [|intros Hd; inversion Hd; subst; auto]. destruct (blen b <? _); [intros Hd; inversion Hd; subst; auto|].
  destruct (parse_message _ _ _) as [[c' r'] [m|e| |]]; cbn [op_reset bgp_ops reset_errors]; intros Hd HW; inversion Hd; subst; cbn [k_sent k_recv]; auto.
  split; [exact H1|]. split.
  - destruct m; cbn [asn4_of last_said announces_four_octets]; auto.
  - intros u ->. specialize (HW u _ eq_refl). rewrite H1, H2 in HW. destruct d; exact HW.
Qed.
Lemma width_loop ports f : forall k s b d, k_sent s = Some true -> k_recv s = Some d ->
  match decode_loop (bgp_handler ports) f k s b with (s', _, os, _) =>
    k_sent s' = Some true /\ k_recv s' = Some (last_said d (messages os)) /\ widths_from d os end.
Proof.
  assert (Hn : forall d, widths_from d []) by (intros d [|i] ? ? ? H; discriminate).
  assert (Hf : forall d e, widths_from d [Failure e]) by (intros d e [|[|i]] ? ? ? H; discriminate).
  induction f as [|f IH]; intros k s b d H1 H2; destruct b as [|x b]; cbn [decode_loop]; auto.
  change (h_decode (bgp_handler ports)) with decode_bgp. destruct (decode_bgp s (x :: b)) as [[s' b'] o] eqn:Hd.
  destruct (width_step _ _ _ _ _ _ H1 H2 Hd) as [G1 G2]. destruct o as [|[m ig]|e|]; auto.
  - destruct G2 as [G2 G3]. specialize (IH k s' b' _ G1 G2). destruct (decode_loop (bgp_handler ports) f k s' b') as [[[s2 b2] os] r].
    destruct IH as (I1 & I2 & I3). split; [exact I1|]. change (Success k (m, ig) :: os) with ([Success k (m, ig)] ++ os).
    rewrite messages_app. change (messages [Success k (m, ig)]) with [m]. rewrite said_app. split; [exact I2|].
    apply widths_app; [|exact I3]. intros [|[|i]] k0 u ig0 H; try discriminate. injection H as -> -> ->. cbn. apply G3. reflexivity.
  - specialize (IH k s' [] _ G1 G2). destruct (decode_loop (bgp_handler ports) f k s' []) as [[[s2 b2] os] r].
    destruct IH as (I1 & I2 & I3). split; [exact I1|]. split; [exact I2|]. change (Failure e :: os) with ([Failure e] ++ os).
    apply widths_app; [apply Hf|exact I3].
Qed.
Lemma width_stream ports k xs : forall s b d, k_sent s = Some true -> k_recv s = Some d -> widths_from d (concat (fst (stream (bgp_handler ports) k s b xs))).
Proof.
  induction xs as [|x xs IH]; intros s b d H1 H2; cbn [stream]; [intros [|i] ? ? ? H; discriminate|]. unfold decode_buffer.
  pose proof (width_loop ports (length (b ++ x)) k s (b ++ x) d H1 H2) as HL. destruct (decode_loop (bgp_handler ports) _ k s (b ++ x)) as [[[s' b'] os] e].
  destruct HL as (L1 & L2 & L3). destruct e; try (intros [|i] ? ? ? H; discriminate). specialize (IH s' b' _ L1 L2).
  destruct (stream (bgp_handler ports) k s' b' xs) as [r e]. cbn [fst concat] in *. apply widths_app; assumption.
Qed.

(* ---- BMP ---- *)
Lemma bmp_progresses ports : progresses (bmp_handler ports).
Proof.
  intros s b s' b' m. change (h_decode (bmp_handler ports)) with bmp_decode. unfold bmp_decode. destruct (bk_in s || _); [|discriminate].
  destruct b as [|v b]; [discriminate|]. remember (v :: b) as B eqn:HB. clear HB. destruct (negb (version_ok v)); [discriminate|].
  destruct (N.ltb_spec (blen B) 5) as [|H5]; [discriminate|]. set (n := be_val (take 4 (drop 1 B))).
  destruct (N.ltb_spec n 5) as [|Hl]; [discriminate|]. destruct (N.ltb_spec (blen B) n) as [|Hw]; [discriminate|].
  destruct (parse_bmp _ _) as [[m0 r0] [x|e| |]]; try discriminate. intros H; inversion H as [[E1 E2 E3]].
  assert (Hd := blen_drop n B). unfold blen in Hd, H5, Hw. lia.
Qed.
Lemma bmp_stream_feed ports k xs : wanted (bmp_handler ports) (mkP k TCP []) ->
  ~ In DPanic (c_out (feed_all bmp_decode (conn_new bmp_default) xs)) ->
  until_error (outcomes (fst (handle_all (bmp_handler ports) [] (flow_of TCP k xs)))) =
  as_outcomes k (c_out (feed_all bmp_decode (conn_new bmp_default) xs)).
Proof.
  intros Hw HP. pose proof (stream_outcomes (bmp_handler ports) k xs Hw) as [Ho _]. cbn [h_proto bmp_handler] in Ho. rewrite Ho.
  assert (H0 : bmp_inv (h_init (bmp_handler ports)) []) by (intros H; discriminate H).
  refine (proj1 (stream_feed (bmp_handler ports) bmp_inv _ _ _ _ _ _ k xs (h_init (bmp_handler ports)) [] [] H0) HP).
  - exact bmp_inv_app.
  - intros s b s' b' o Hi Hd _. eapply bmp_inv_step; eauto.
  - intros s b s' b' Hi Hd. destruct (bmp_none_stable _ _ _ _ Hi Hd) as (H1 & _ & H2). split; assumption.
  - exact bmp_some_stable.
  - intros s b s' b' o Hi Hd Hn _. eapply bmp_progress; eauto.
  - intros s Hi. cbn. unfold bmp_decode. destruct (bk_in s) eqn:Hk; [|reflexivity]. destruct (Hi Hk) as [H _]. rewrite blen_nil in H. lia.
Qed.

(* ---- datagrams ---- *)
Section Datagrams.
Context {C M E L : Type} (h : handler C M E L) (J : C -> Prop).
Definition clean (d : list N) : Prop := d <> [] /\ forall s, J s ->
  match h_decode h s d with
  | (s', b', DNone) | (s', b', DItem _) => b' = [] /\ J s'
  | (s', _, DErr _) => J s'
  | (_, _, DPanic) => False
  end.
Lemma stream_alone k ds : forall s, J s -> Forall clean ds ->
  stream h k s [] ds = (map (fun o => match answer k o with Some os => os | None => [] end) (alone (h_decode h) s ds), Returned).
Proof.
  induction ds as [|d ds IH]; intros s Hj Hd; [reflexivity|]. inversion Hd as [|? ? [Hn Hc] Hd']; subst. specialize (Hc s Hj).
  cbn [stream alone app map]. unfold decode_buffer. destruct d as [|x d]; [congruence|]. cbn [length decode_loop].
  assert (Hl : forall s, decode_loop h (length d) k s [] = (s, [], [], Returned)) by (intros; destruct (length d); reflexivity).
  destruct (h_decode h s (x :: d)) as [[s' b'] [|m|e|]]; [destruct Hc as [-> Hc]|destruct Hc as [-> Hc]| |contradiction]; rewrite ?Hl, IH by assumption; reflexivity.
Qed.
Lemma datagrams k ds : J (h_init h) -> wanted h (mkP k (h_proto h) []) -> Forall clean ds ->
  handle_all h [] (flow_of (h_proto h) k ds) = (combine (flow_of (h_proto h) k ds) (map (answer k) (alone (h_decode h) (h_init h) ds)), Returned).
Proof.
  intros Hj Hw Hd. rewrite (handle_stream h k ds Hw [] (h_init h) [] eq_refl). rewrite stream_alone by assumption. cbn [fst snd]. rewrite map_map. f_equal. f_equal.
  apply map_ext. intros [|m|e|]; reflexivity.
Qed.
End Datagrams.

(* UDP-Notif *)
Section Notif.
Variable now : N.
Variables json_ok utf8_ok cbor_ok : list N -> bool.
Notation nh := (notif_handler now json_ok utf8_ok cbor_ok).
Lemma notif_clean ports d : bytes_ok d = true -> complete_datagram d -> clean (nh ports) (fun _ => True) d.
Proof.
  intros Hok (H12 & H1 & H2). split; [intros ->; rewrite blen_nil in H12; lia|]. intros s _. cbn [h_decode notif_handler]. unfold notif_decode.
  assert (H02 : 2 <= blen d) by (clear - H12; lia). assert (Hn := UdpReasmProofs.udp_decode_no_crash now s d Hok (or_intror H02)). revert Hn.
  destruct d as [|a [|hl [|b2 [|b3 d]]]]; try (rewrite ?blen_cons, ?blen_nil in H12; lia). cbn [nth] in H1, H2. set (B := a :: hl :: b2 :: b3 :: d) in *.
  unfold UdpNotifModel.udp_decode, UdpNotifModel.check_len. replace (blen B <? 12) with false by lia. rewrite andb_false_r.
  change (UdpNotifModel.index B 1) with (Some hl). change (UdpNotifModel.index B 2) with (Some b2). change (UdpNotifModel.index B 3) with (Some b3).
  cbv iota. destruct (hl <? 12); [cbn; auto|]. replace (blen B <? hl) with false by lia. cbv zeta. destruct (be_val [b2; b3] <? hl); [cbn; auto|].
  assert (Hv : be_val [b2; b3] = b2 * 256 + b3) by (cbn; lia). replace (blen B <? be_val [b2; b3]) with false by lia.
  destruct (negb _); [cbn; auto|]. destruct (UdpNotifModel.packet_from_bytes B); try (cbn; tauto).
  destruct (UdpNotifModel.try_reassemble _ _ _) as [c3 [[p0|]|e0| |]]; cbn; tauto.
Qed.
Lemma notif_progresses ports : progresses (nh ports).
Proof.
  intros s b s' b' m. cbn [h_decode notif_handler]. unfold notif_decode.
  destruct (UdpNotifModel.udp_decode now s b) as [[c' r] rest] eqn:Hd. destruct r as [[p|]|e| |]; try discriminate. intros H; inversion H; subst.
  assert (Hb : (b <> [] \/ b = [] ) /\ b' = []).
  { split; [destruct b; [right|left]; congruence|]. revert Hd. unfold UdpNotifModel.udp_decode. destruct (UdpNotifModel.check_len s b) as [c1 [[[? ?]|]|e| |]]; try discriminate.
    destruct (negb _); [discriminate|]. destruct (UdpNotifModel.packet_from_bytes b); try discriminate.
    destruct (UdpNotifModel.try_reassemble _ _ _) as [c3 r]. intros H0; inversion H0; subst. reflexivity. }
  destruct Hb as [[Hb|Hb] ->]; [destruct b; [congruence|cbn; lia]|]. subst b. exfalso. revert Hd.
  unfold UdpNotifModel.udp_decode, UdpNotifModel.check_len. destruct (_ && _); [discriminate|]. cbn. discriminate.
Qed.
End Notif.

(* flow *)
Section Flow.
Variable iana : N -> option FlFieldModel.dtype.
Variable vendor : N -> option (N -> option FlFieldModel.dtype).
Variable millis_ok : Z -> bool.
Notation fh := (flow_handler iana vendor millis_ok).
Lemma flow_progresses ports : progresses (fh ports).
Proof.
  intros s b s' b' m. cbn [h_decode flow_handler]. unfold flow_decode. pose proof (FlProps.C17_progress iana vendor millis_ok s b) as H.
  destruct (FlModel.decode iana vendor millis_ok s b) as [[c' rest] []]; try discriminate. intros H0; inversion H0; subst.
  destruct H as (used & Hu & ->). rewrite app_length. destruct used; [congruence|]. cbn. lia.
Qed.
Lemma flow_no_panic s b s' b' o : flow_decode iana vendor millis_ok s b = (s', b', o) -> o <> DPanic.
Proof.
  unfold flow_decode. pose proof (FlProps.C17_progress iana vendor millis_ok s b) as H.
  destruct (FlModel.decode iana vendor millis_ok s b) as [[c' rest] []]; try contradiction; intros H0; inversion H0; discriminate.
Qed.
Lemma flow_clean ports d : whole_ipfix d -> clean (fh ports) (fun _ => True) d.
Proof.
  intros (H16 & Hv & Hl). split; [intros ->; rewrite blen_nil in H16; lia|]. intros s _. cbn [h_decode flow_handler]. unfold flow_decode.
  assert (Hd : FlSpec.declared d = blen d /\ FlSpec.version_of d = 10).
  { destruct d as [|a [|b [|x [|y d]]]]; try (rewrite ?blen_cons, ?blen_nil in H16; lia). cbn [nth] in Hv, Hl. unfold FlSpec.declared, FlSpec.version_of. cbn. cbn in Hl. lia. }
  destruct Hd as [Hd Hv']. pose proof (FlProps.C17_progress iana vendor millis_ok s d) as HP.
  pose proof (proj1 (FlProps.C17_need_more iana vendor millis_ok s d)) as HN.
  destruct (FlModel.decode iana vendor millis_ok s d) as [[c' rest] o] eqn:E. destruct o as [|p|e| |]; try tauto.
  - specialize (HN eq_refl). lia.
  - destruct p as [p|p].
    + destruct (FlProps.C17_ipfix_exact _ _ _ _ _ _ _ _ E) as (used & Hu & Hb & _). split; [|exact I]. apply (f_equal blen) in Hu. rewrite blen_app in Hu.
      destruct rest; [reflexivity|]. rewrite blen_cons in Hu. lia.
    + destruct (FlDecodeProofs.decode_packet_version _ _ _ _ _ _ _ _ E) as [H9 _]. lia.
Qed.
End Flow.
