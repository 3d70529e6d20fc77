(* What decoding does to the per-peer contexts, and how they follow the
   history of a session. *)
From Verif Require Import Base BaseLemmas MapLib AfModel FramingModel FramingProofs BgpCapModel BgpFrameModel BgpFrameProofs
  BgpNlriModel BgpAttrModel BgpMsgModel BgpMsgSpec BgpMsgProofs BmpModel BmpSpec BmpFrameProofs.
From Coq Require Import Lia ZifyBool ZifyN ZifyNat.

Lemma at_spec a b : reflect (a = b) (at_eqb a b).
Proof. unfold at_eqb. destruct (addr_type_eq_dec a b); constructor; assumption. Qed.
Lemma pk_spec a b : reflect (a = b) (pkey_eqb a b).
Proof. unfold pkey_eqb. destruct (pkey_eq_dec a b); constructor; assumption. Qed.
Lemma key_same_peer a b : key_of a = key_of b <-> same_peer a b.
Proof.
  unfold key_of, same_peer. split.
  - intros H. injection H as H1 H2 H3 H4 H5. repeat split; assumption.
  - intros (H1 & H2 & H3 & H4 & H5). congruence.
Qed.
Lemma peer_ctx_mset k k' x m : peer_ctx k (mset pkey_eqb k' x m) = if pkey_eqb k k' then x else peer_ctx k m.
Proof. unfold peer_ctx. rewrite (mget_mset pkey_eqb pk_spec). destruct (pkey_eqb k k'); reflexivity. Qed.
Lemma peer_ctx_mrem k k' m : peer_ctx k (mrem pkey_eqb k' m) = if pkey_eqb k k' then default_ctx else peer_ctx k m.
Proof. unfold peer_ctx. rewrite (mget_mrem pkey_eqb pk_spec). destruct (pkey_eqb k k'); reflexivity. Qed.

(* ---- parsing keeps every setting of every peer but the AS width, which
   each message sets from its own header ---- *)
Definition widthless (x : bctx) : bctx := settings (set_asn4 true x).
Definition same_settings (m m' : bmpctx) : Prop := forall k, widthless (peer_ctx k m') = widthless (peer_ctx k m).
Definition mkeeps {E A} (p : cparser bmpctx E A) : Prop := forall m r, same_settings m (fst (fst (p m r))).
Lemma mk_ret {E A} (x : A) : mkeeps (@cret bmpctx E A x). Proof. intros m r k. reflexivity. Qed.
Lemma mk_fail {E A} (e : E) : mkeeps (@cfail bmpctx E A e). Proof. intros m r k. reflexivity. Qed.
Lemma mk_lift {E A} (p : parser E A) : mkeeps (clift p).
Proof. intros m r k. unfold clift. destruct (p r). reflexivity. Qed.
Lemma mk_bind {E A B} (p : cparser bmpctx E A) (f : A -> cparser bmpctx E B) :
  mkeeps p -> (forall x, mkeeps (f x)) -> mkeeps (cbind p f).
Proof.
  intros Hp Hf m r k. unfold cbind. specialize (Hp m r k).
  destruct (p m r) as [[m1 r1] [x|e| |]]; cbn [fst snd] in *; auto. rewrite Hf. exact Hp.
Qed.
Lemma mk_in_sub {E A} (g : perr -> E) n (p : cparser bmpctx E A) : mkeeps p -> mkeeps (in_sub g n p).
Proof.
  intros Hp. unfold in_sub. apply mk_bind; [apply mk_lift|]. intros sub m r k. unfold con_sub.
  specialize (Hp m sub k). destruct (p m sub) as [[m1 r1] x]. exact Hp.
Qed.
Lemma widthless_set a x : widthless (set_asn4 a x) = widthless x. Proof. reflexivity. Qed.
Lemma settings_widthless x y : settings x = settings y -> widthless x = widthless y.
Proof.
  intros H. destruct x, y. unfold settings, with_ign in H. cbn in H. injection H as -> -> -> -> -> -> ->. reflexivity.
Qed.
Lemma mk_on_peer {A} h (p : cparser bctx bmp_err A) : keeps p -> mkeeps (on_peer h p).
Proof.
  intros Hp m r k. unfold on_peer. specialize (Hp (set_asn4 (is_asn4 h) (peer_ctx (key_of h) m)) r).
  destruct (p _ r) as [[c' r'] x]. cbn [fst snd] in *. rewrite peer_ctx_mset.
  destruct (pk_spec k (key_of h)) as [->|Hn]; [|reflexivity].
  rewrite (settings_widthless _ _ Hp), widthless_set. reflexivity.
Qed.
Lemma kp_bgp_pdu : keeps bgp_pdu. Proof. apply kp_map_err, kp_bgp. Qed.
Local Opaque bgp_pdu.
Lemma kp_reason : keeps parse_reason.
Proof.
  unfold parse_reason. keep; auto using kp_bgp_pdu. destruct (xp_of 251 x); keep.
Qed.
Lemma kp_mirrored : keeps parse_mirrored.
Proof.
  unfold parse_mirrored, in_whole. keep; auto using kp_bgp_pdu. destruct (xp_of 65531 x); keep.
Qed.
Ltac mkeep := repeat first
  [ apply mk_ret | apply mk_fail | apply mk_lift | apply mk_in_sub | apply mk_on_peer
  | apply mk_bind; [|intros] | match goal with |- mkeeps (if ?b then _ else _) => destruct b end
  | match goal with |- mkeeps (match ?b with _ => _ end) => destruct b end ].
Lemma mk_bmp : mkeeps parse_bmp.
Proof.
  unfold parse_bmp, parse_value, parse_monitoring3, parse_monitoring4, parse_down3, parse_down4, parse_common, parse_up,
    parse_mirroring. mkeep; try apply kp_bgp_pdu; try apply kp_reason.
  all: try (apply kp_many_all, kp_bind; [apply kp_mirrored|intros; apply kp_ret]).
  intros y r; destruct (rm_body _ y r); reflexivity.
Qed.
Local Transparent bgp_pdu.
Lemma widthless_neg x y : widthless x = widthless y -> x_labels x = x_labels y /\ x_add_path x = x_add_path y.
Proof. intros H. split; [apply (f_equal x_labels) in H|apply (f_equal x_add_path) in H]; exact H. Qed.

(* ---- the maps built from two OPENs ---- *)
Lemma fold_flags_get t l : forall m,
  mget at_eqb t (fold_left (fun m f => match f with (t, s, rv) => mset at_eqb t (s, rv) m end) l m) =
  match last_entry t l with Some x => Some x | None => mget at_eqb t m end.
Proof.
  induction l as [|[[t' s] rv] l IH]; intros m; cbn [fold_left last_entry]; [reflexivity|].
  rewrite IH, (mget_mset at_eqb at_spec). destruct (last_entry t l); [reflexivity|].
  unfold at_eqb. destruct (addr_type_eq_dec t t'); reflexivity.
Qed.
Lemma flags_get t l : mget at_eqb t (add_path_flags l) = last_entry t l.
Proof. unfold add_path_flags. rewrite fold_flags_get. destruct (last_entry t l); reflexivity. Qed.
Lemma flags_nodup l : NoDup (mkeys (add_path_flags l)).
Proof.
  unfold add_path_flags.
  assert (H : forall (m : list (addr_type * (bool * bool))), NoDup (mkeys m) ->
    NoDup (mkeys (fold_left (fun m f => match f with (t, s, rv) => mset at_eqb t (s, rv) m end) l m))).
  { induction l as [|[[t s] rv] l IH]; intros m Hm; cbn [fold_left]; [exact Hm|].
    apply IH, (NoDup_mset at_eqb at_spec), Hm. }
  apply H. constructor.
Qed.
Lemma fold_negotiated (out : bool) (remote local : list (addr_type * (bool * bool))) : NoDup (mkeys local) -> forall t (m : list (addr_type * bool)),
  mget at_eqb t (fold_left (fun m f =>
      match mget at_eqb (fst f) remote with
      | None => m
      | Some (rs, rr) => mset at_eqb (fst f) (if out then fst (snd f) && rr else rs && snd (snd f)) m
      end) local m) =
  match mget at_eqb t local, mget at_eqb t remote with
  | Some (ls, lr), Some (rs, rr) => Some (if out then ls && rr else rs && lr)
  | _, _ => mget at_eqb t m
  end.
Proof.
  induction local as [|[t' [ls lr]] local IH]; intros Hn t m; cbn [fold_left mget fst snd].
  - reflexivity.
  - cbn [mkeys map fst] in Hn. inversion Hn as [|? ? Hx Hn']; subst.
    rewrite IH by exact Hn'.
    destruct (at_spec t t') as [->|Ht].
    + replace (mget at_eqb t' local) with (@None (bool * bool)).
      2: { symmetry. apply (mget_None_notin at_eqb at_spec). exact Hx. }
      destruct (mget at_eqb t' remote) as [[rs rr]|]; [|reflexivity].
      apply (mget_mset_eq at_eqb at_spec).
    + assert (Hm : mget at_eqb t (match mget at_eqb t' remote with
        | Some (rs, rr) => mset at_eqb t' (if out then ls && rr else rs && lr) m | None => m end) = mget at_eqb t m).
      { destruct (mget at_eqb t' remote) as [[rs rr]|]; [|reflexivity].
        apply (mget_mset_neq at_eqb at_spec). congruence. }
      rewrite Hm. reflexivity.
Qed.
Lemma fold_labels_get t l : forall m : list (addr_type * N),
  mget at_eqb t (fold_left (fun m f => mset at_eqb (fst f) (snd f) m) l m) =
  fold_left (fun acc e => if addr_type_eq_dec t (fst e) then Some (snd e) else acc) l (mget at_eqb t m).
Proof.
  induction l as [|[t' n] l IH]; intros m; cbn [fold_left fst snd]; [reflexivity|].
  rewrite IH, (mget_mset at_eqb at_spec). unfold at_eqb. destruct (addr_type_eq_dec t t'); reflexivity.
Qed.
Lemma common_agreed t so ro : forall acc,
  fold_left (fun acc e => if addr_type_eq_dec t (fst e) then Some (snd e) else acc)
    (common_labels (label_entries so) (label_entries ro)) acc =
  match agreed_label so ro t with Some n => Some n | None => acc end.
Proof.
  unfold agreed_label, common_labels.
  set (b := label_entries ro). generalize (label_entries so) as a.
  assert (H : forall (a : list (addr_type * N)) acc0 acc,
    fold_left (fun acc e => if addr_type_eq_dec t (fst e) then Some (snd e) else acc)
      (filter (fun x => existsb (fun y => at_eqb (fst x) (fst y) && (snd x =? snd y)) b) a)
      (match acc0 with Some n => Some n | None => acc end) =
    match fold_left (fun acc e => if addr_type_eq_dec t (fst e) then
       (if in_dec label_entry_eq_dec e b then Some (snd e) else acc) else acc) a acc0
    with Some n => Some n | None => acc end).
  2: { intros a acc. apply (H a None acc). }
  induction a as [|[t' n] a IH]; intros acc0 acc; cbn [filter fold_left fst snd]; [reflexivity|].
  set (ex := existsb _ b). destruct (in_dec _ (t', n) b) as [Hin|Hin].
  - assert (Hex : ex = true).
    { apply existsb_exists. exists (t', n). split; [exact Hin|]. cbn [fst snd].
      rewrite N.eqb_refl. unfold at_eqb. destruct (addr_type_eq_dec t' t'); [reflexivity|congruence]. }
    rewrite Hex. cbn [fold_left fst snd]. destruct (addr_type_eq_dec t t').
    + rewrite <- (IH (Some n) acc). reflexivity.
    + apply IH.
  - assert (Hex : ex = false).
    { destruct ex eqn:He; [|reflexivity]. exfalso. unfold ex in He. apply existsb_exists in He as ([t2 n2] & Hin2 & He).
      cbn [fst snd] in He. apply andb_true_iff in He as [H1 H2]. apply N.eqb_eq in H2. subst n2.
      destruct (at_spec t' t2); [subst; contradiction|discriminate]. }
    rewrite Hex. rewrite IH. destruct (addr_type_eq_dec t t'); reflexivity.
Qed.

(* what a peer-up does to one peer's context *)
Lemma negotiated_add_path out so ro labels x t :
  add_path_of (x_add_path (apply_negotiated out (add_path_flags (add_path_entries so))
                             (add_path_flags (add_path_entries ro)) labels x)) t =
  match agreed_add_path out so ro t with Some b => b | None => add_path_of (x_add_path x) t end.
Proof.
  unfold apply_negotiated. cbv zeta. cbn [update_capability x_add_path]. unfold add_path_of.
  rewrite fold_negotiated by apply flags_nodup. rewrite !flags_get. unfold agreed_add_path.
  destruct (last_entry t (add_path_entries so)) as [[ls lr]|]; [|reflexivity].
  destruct (last_entry t (add_path_entries ro)) as [[rs rr]|]; reflexivity.
Qed.
Lemma negotiated_labels out local remote so ro x t :
  limit_of (x_labels (apply_negotiated out local remote (common_labels (label_entries so) (label_entries ro)) x)) t =
  match agreed_label so ro t with Some n => n | None => limit_of (x_labels x) t end.
Proof.
  unfold apply_negotiated. cbv zeta. cbn [update_capability x_labels]. unfold limit_of.
  rewrite fold_labels_get, common_agreed. destruct (agreed_label so ro t); reflexivity.
Qed.

(* ---- contexts and histories ---- *)
Definition tracks_ap (out : bool) (h : peer_header) (t : addr_type) (m : bmpctx) (evs : list event) : Prop :=
  add_path_of (x_add_path (peer_ctx (key_of h) m)) t = add_path_now out evs h t.
Definition tracks_label (h : peer_header) (t : addr_type) (m : bmpctx) (evs : list event) : Prop :=
  limit_of (x_labels (peer_ctx (key_of h) m)) t = label_limit_now evs h t.
Definition app_event (msg : bmp_msg) (evs : list event) : list event :=
  match event_of msg with Some e => e :: evs | None => evs end.

Lemma alias_key h h' ro : speaks_for_itself h (EvUp h' (mkOpen 0 0 0 []) ro) -> is_locrib h' = false ->
  mkPK (ph_addr h') (ptype_code (ph_type h')) (ph_rd h') (ph_as h') (o_id ro) = key_of h ->
  key_of h' = key_of h.
Proof.
  cbn [speaks_for_itself]. intros [H|[H|H]] Hl Hk.
  - congruence.
  - exfalso. apply H. apply (f_equal pk_id) in Hk. exact Hk.
  - rewrite <- Hk. unfold key_of. rewrite H. reflexivity.
Qed.
Lemma up_ctx p so ro h m : pu_sent p = MOpen so -> pu_recv p = MOpen ro ->
  speaks_for_itself h (EvUp (pu_hdr p) so ro) ->
  let h' := pu_hdr p in
  let neg := apply_negotiated (adj_rib_out h') (add_path_flags (add_path_entries so))
               (add_path_flags (add_path_entries ro)) (common_labels (label_entries so) (label_entries ro)) in
  let x := peer_ctx (key_of h) m in
  peer_ctx (key_of h) (handle_peer_up p m) =
    (if pkey_eqb (key_of h) (key_of h') then
       if is_locrib h' then neg x
       else if pkey_eqb (key_of h) (mkPK (ph_addr h') (ptype_code (ph_type h')) (ph_rd h') (ph_as h') (o_id ro))
            then neg (neg (clear_negotiated x)) else neg (clear_negotiated x)
     else x).
Proof.
  intros Hs Hr Hself. cbv zeta. unfold handle_peer_up. rewrite Hs, Hr. cbv zeta.
  change (add_path_caps (open_caps so)) with (add_path_entries so).
  change (add_path_caps (open_caps ro)) with (add_path_entries ro).
  change (label_caps (open_caps so)) with (label_entries so).
  change (label_caps (open_caps ro)) with (label_entries ro).
  set (h' := pu_hdr p) in *. set (k2 := mkPK _ _ _ _ _).
  destruct (is_locrib h') eqn:Hl.
  - rewrite peer_ctx_mset. destruct (pk_spec (key_of h) (key_of h')) as [He|Hn]; [rewrite He; reflexivity|reflexivity].
  - rewrite !peer_ctx_mset.
    destruct (pk_spec (key_of h) k2) as [He|Hn].
    + assert (Hk : key_of h' = key_of h).
      { apply alias_key with (ro := ro); [exact Hself|exact Hl|symmetry; exact He]. }
      rewrite He in *. rewrite <- Hk. rewrite !(eqb_refl' pkey_eqb pk_spec). reflexivity.
    + destruct (pk_spec (key_of h) (key_of h')) as [He|Hn2]; [rewrite He; reflexivity|reflexivity].
Qed.
Lemma cleared_add_path x t : add_path_of (x_add_path (clear_negotiated x)) t = false. Proof. reflexivity. Qed.
Lemma cleared_labels x t : limit_of (x_labels (clear_negotiated x)) t = 1. Proof. reflexivity. Qed.

Lemma same_peer_eqb {A} h' h (a b : A) :
  (if pkey_eqb (key_of h) (key_of h') then a else b) = (if same_peer_dec h' h then a else b).
Proof.
  destruct (pk_spec (key_of h) (key_of h')) as [He|Hn], (same_peer_dec h' h) as [Hs|Hs]; try reflexivity.
  - exfalso. apply Hs, key_same_peer. congruence.
  - exfalso. apply Hn. symmetry. apply key_same_peer, Hs.
Qed.

Lemma tracks_step out h t msg m evs :
  (forall e, event_of msg = Some e -> speaks_for_itself h e) ->
  (forall e, event_of msg = Some e -> up_direction out h e) ->
  tracks_ap out h t m evs -> tracks_ap out h t (ctx_update msg m) (app_event msg evs).
Proof.
  unfold tracks_ap, app_event. intros Hself Hdir Ht.
  assert (Hup : forall p, (forall e, event_of (V3Common (CUp p)) = Some e -> speaks_for_itself h e) ->
    (forall e, event_of (V3Common (CUp p)) = Some e -> up_direction out h e) ->
    add_path_of (x_add_path (peer_ctx (key_of h) (handle_peer_up p m))) t =
    add_path_now out (match event_of (V3Common (CUp p)) with Some e => e :: evs | None => evs end) h t).
  { intros p Hs Hd. cbn [event_of] in *.
    destruct (pu_sent p) as [so| | | |] eqn:Eso; try (unfold handle_peer_up; rewrite Eso; exact Ht).
    destruct (pu_recv p) as [ro| | | |] eqn:Ero; try (unfold handle_peer_up; rewrite Eso, Ero; exact Ht).
    specialize (Hs _ eq_refl). specialize (Hd _ eq_refl).
    rewrite (up_ctx p so ro h m Eso Ero Hs). cbv zeta. rewrite same_peer_eqb. cbn [add_path_now].
    cbn [up_direction] in Hd.
    destruct (same_peer_dec (pu_hdr p) h) as [Hsp|Hsp]; [|exact Ht].
    rewrite (Hd Hsp). destruct (is_locrib (pu_hdr p)).
    - rewrite negotiated_add_path, Ht. reflexivity.
    - destruct (pkey_eqb _ _); rewrite !negotiated_add_path; rewrite cleared_add_path;
        destruct (agreed_add_path out so ro t); reflexivity. }
  assert (Hdown : forall h0, add_path_of (x_add_path (peer_ctx (key_of h) (mrem pkey_eqb (key_of h0) m))) t =
    add_path_now out (EvDown h0 :: evs) h t).
  { intros h0. rewrite peer_ctx_mrem, same_peer_eqb. cbn [add_path_now]. destruct (same_peer_dec h0 h); [reflexivity|exact Ht]. }
  destruct msg as [h0 u|h0 r|[| | | | |]|h0 u l|h0 r l|[| | | | |]]; cbn [ctx_update event_of]; try exact Ht; try apply Hdown;
    try (apply Hup; assumption); reflexivity.
Qed.
Lemma tracks_label_step h t msg m evs :
  (forall e, event_of msg = Some e -> speaks_for_itself h e) ->
  tracks_label h t m evs -> tracks_label h t (ctx_update msg m) (app_event msg evs).
Proof.
  unfold tracks_label, app_event. intros Hself Ht.
  assert (Hup : forall p, (forall e, event_of (V3Common (CUp p)) = Some e -> speaks_for_itself h e) ->
    limit_of (x_labels (peer_ctx (key_of h) (handle_peer_up p m))) t =
    label_limit_now (match event_of (V3Common (CUp p)) with Some e => e :: evs | None => evs end) h t).
  { intros p Hs. cbn [event_of] in *.
    destruct (pu_sent p) as [so| | | |] eqn:Eso; try (unfold handle_peer_up; rewrite Eso; exact Ht).
    destruct (pu_recv p) as [ro| | | |] eqn:Ero; try (unfold handle_peer_up; rewrite Eso, Ero; exact Ht).
    specialize (Hs _ eq_refl).
    rewrite (up_ctx p so ro h m Eso Ero Hs). cbv zeta. rewrite same_peer_eqb. cbn [label_limit_now].
    destruct (same_peer_dec (pu_hdr p) h) as [Hsp|Hsp]; [|exact Ht].
    destruct (is_locrib (pu_hdr p)).
    - rewrite negotiated_labels, Ht. reflexivity.
    - destruct (pkey_eqb _ _); rewrite !negotiated_labels; rewrite cleared_labels;
        destruct (agreed_label so ro t); reflexivity. }
  assert (Hdown : forall h0, limit_of (x_labels (peer_ctx (key_of h) (mrem pkey_eqb (key_of h0) m))) t =
    label_limit_now (EvDown h0 :: evs) h t).
  { intros h0. rewrite peer_ctx_mrem, same_peer_eqb. cbn [label_limit_now]. destruct (same_peer_dec h0 h); [reflexivity|exact Ht]. }
  destruct msg as [h0 u|h0 r|[| | | | |]|h0 u l|h0 r l|[| | | | |]]; cbn [ctx_update event_of]; try exact Ht; try apply Hdown;
    try (apply Hup; assumption); reflexivity.
Qed.

(* ---- one decoding step ---- *)
Lemma bmp_decode_ctx k b k' b' o : bmp_decode k b = (k', b', o) ->
  match o with
  | DItem msg => exists m, same_settings (bk_ctx k) m /\ bk_ctx k' = ctx_update msg m
  | _ => same_settings (bk_ctx k) (bk_ctx k')
  end.
Proof.
  intros H. assert (Hr : same_settings (bk_ctx k) (bk_ctx k)) by (intros q; reflexivity).
  unfold bmp_decode in H. destruct (bk_in k || (5 <=? blen b)); [|injection H as <- <- <-; exact Hr].
  destruct b as [|v b0]; [injection H as <- <- <-; exact Hr|].
  destruct (negb (version_ok v)); [injection H as <- <- <-; exact Hr|].
  destruct (blen (v :: b0) <? 5); [injection H as <- <- <-; exact Hr|].
  set (len := be_val _) in *. destruct (len <? 5); [injection H as <- <- <-; exact Hr|].
  destruct (blen (v :: b0) <? len); [injection H as <- <- <-; exact Hr|].
  pose proof (mk_bmp (bk_ctx k) (rnew (take len (v :: b0)))) as Hm.
  destruct (parse_bmp _ _) as [[m r] [msg|e| |]]; cbn [fst snd] in Hm; injection H as <- <- <-; cbn [bk_ctx];
    [exists m; split; [exact Hm|reflexivity]|exact Hm..].
Qed.
Lemma tracks_same out h t m m' evs : same_settings m m' -> tracks_ap out h t m evs -> tracks_ap out h t m' evs.
Proof.
  unfold tracks_ap. intros Hs <-. destruct (widthless_neg _ _ (Hs (key_of h))) as [_ ->]. reflexivity.
Qed.
Lemma tracks_label_same h t m m' evs : same_settings m m' -> tracks_label h t m evs -> tracks_label h t m' evs.
Proof.
  unfold tracks_label. intros Hs <-. destruct (widthless_neg _ _ (Hs (key_of h))) as [-> _]. reflexivity.
Qed.

(* ---- whole streams ---- *)
Lemma history_cons_item msg os : history (DItem (inl msg) :: os) = history os ++ match event_of msg with Some e => [e] | None => [] end.
Proof.
  unfold history. cbn [items lefts events]. destruct (event_of msg); cbn [rev]; [reflexivity|now rewrite app_nil_r].
Qed.
Lemma drain_tracks (R : bmpctx -> list event -> Prop) (P : event -> Prop) :
  (forall m m' evs, same_settings m m' -> R m evs -> R m' evs) ->
  (forall msg m evs, (forall e, event_of msg = Some e -> P e) -> R m evs -> R (ctx_update msg m) (app_event msg evs)) ->
  forall fuel k b k' b' os st evs,
    drain_fuel (resume bmp_decode) fuel k b = (k', b', os, st) ->
    Forall P (history os) -> R (bk_ctx k) evs -> R (bk_ctx k') (history os ++ evs).
Proof.
  intros Hsame Hstep. induction fuel as [|f IH]; intros k b k' b' os st evs Hd HP HR; cbn [drain_fuel] in Hd.
  - injection Hd as <- <- <- <-. exact HR.
  - destruct (resume bmp_decode k b) as [[k1 b1] o] eqn:Hr.
    destruct (resume_inv _ _ _ _ _ _ Hr) as (o' & Ho & Hoo).
    pose proof (bmp_decode_ctx _ _ _ _ _ Ho) as Hc.
    destruct o as [|[msg|e]|e|]; cbn [is_none halts] in Hd; subst.
    + injection Hd as <- <- <- <-. cbn. eapply Hsame; [exact Hc|exact HR].
    + destruct (drain_fuel (resume bmp_decode) f k1 b1) as [[[k2 b2] os2] st2] eqn:Hd2. injection Hd as <- <- <- <-.
      rewrite history_cons_item in *. apply Forall_app in HP as [HP1 HP2].
      destruct Hc as (m & Hm & Hk1).
      replace ((history os2 ++ match event_of msg with Some e => [e] | None => [] end) ++ evs)
        with (history os2 ++ app_event msg evs)
        by (unfold app_event; destruct (event_of msg); rewrite <- app_assoc; reflexivity).
      eapply IH; [exact Hd2|exact HP1|]. rewrite Hk1. apply Hstep.
      * intros e He. rewrite He in HP2. inversion HP2; assumption.
      * eapply Hsame; eauto.
    + destruct (drain_fuel (resume bmp_decode) f k1 b1) as [[[k2 b2] os2] st2] eqn:Hd2. injection Hd as <- <- <- <-.
      change (history (DItem (inr e) :: os2)) with (history os2) in *.
      eapply IH; [exact Hd2|exact HP|]. eapply Hsame; [exact Hc|exact HR].
    + contradiction.
    + injection Hd as <- <- <- <-. cbn. eapply Hsame; [exact Hc|exact HR].
Qed.
(* the connection after a stream is the drain of the whole stream *)
Lemma feed_all_drain k xs : bk_in k = false ->
  exists st, drain (resume bmp_decode) k (concat xs) =
    (c_st (feed_all (resume bmp_decode) (conn_new k) xs), c_buf (feed_all (resume bmp_decode) (conn_new k) xs),
     c_out (feed_all (resume bmp_decode) (conn_new k) xs), st) /\ c_status (feed_all (resume bmp_decode) (conn_new k) xs) = st.
Proof.
  intros Hk. rewrite resume_feed_all by (apply (fresh_settled k Hk)).
  unfold feed. cbn [conn_new c_status c_st c_buf c_out app].
  destruct (drain _ k (concat xs)) as [[[s b] os] st]. exists st. split; reflexivity.
Qed.
Lemma stream_tracks (R : bmpctx -> list event -> Prop) (P : event -> Prop) :
  (forall m m' evs, same_settings m m' -> R m evs -> R m' evs) ->
  (forall msg m evs, (forall e, event_of msg = Some e -> P e) -> R m evs -> R (ctx_update msg m) (app_event msg evs)) ->
  R [] [] -> forall xs, let c := feed_all (resume bmp_decode) (conn_new bmp_default) xs in
    Forall P (history (c_out c)) -> R (bk_ctx (c_st c)) (history (c_out c)).
Proof.
  intros H1 H2 H0 xs. cbv zeta. intros HP. destruct (feed_all_drain bmp_default xs eq_refl) as (st & Hd & _).
  unfold drain in Hd. rewrite <- (app_nil_r (history _)).
  eapply (drain_tracks R P H1 H2); [exact Hd|exact HP|exact H0].
Qed.
