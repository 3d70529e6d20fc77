From Verif Require Import Base BaseLemmas MapLib AfModel FramingModel FramingProofs BgpCapModel BgpCapSpec BgpCapProofs
  BgpFrameModel BgpFrameSpec BgpFrameProofs BgpNlriModel BgpNlriSpec BgpNlriProofs
  BgpAttrModel BgpAttrSpec BgpAttrProofs BgpMsgModel BgpMsgSpec.
From Coq Require Import Lia ZifyBool ZifyN ZifyNat.

(* ---- parsing with a context that stays as it is ---- *)
Definition cparses {C E A} (p : cparser C E A) (c : C) (b : list N) (x : A) : Prop :=
  forall rest off, p c (mkR (b ++ rest) off) = (c, mkR rest (off + blen b), Ok x).
Definition cparses_end {C E A} (p : cparser C E A) (c : C) (b : list N) (x : A) : Prop :=
  forall off, p c (mkR b off) = (c, mkR [] (off + blen b), Ok x).
Lemma cp_end {C E A} (p : cparser C E A) c b x : cparses p c b x -> cparses_end p c b x.
Proof. intros H off. rewrite <- (H [] off), app_nil_r. reflexivity. Qed.
Lemma cp_ret {C E A} (c : C) (x : A) : cparses (@cret C E A x) c [] x.
Proof. intros rest off. unfold cret. cbn [app]. rewrite blen_nil, N.add_0_r. reflexivity. Qed.
Lemma cp_lift {C E A} (c : C) (p : parser E A) b x : parses p b x -> cparses (clift p) c b x.
Proof. intros H rest off. unfold clift. rewrite H. reflexivity. Qed.
Lemma cp_lift_end {C E A} (c : C) (p : parser E A) b x : parses_end p b x -> cparses_end (clift p) c b x.
Proof. intros H off. unfold clift. rewrite H. reflexivity. Qed.
Lemma cp_map_err {C E F A} (g : E -> F) (p : cparser C E A) c b x : cparses p c b x -> cparses (cmap_err g p) c b x.
Proof. intros H rest off. unfold cmap_err. rewrite H. reflexivity. Qed.
Lemma cp_map_err_end {C E F A} (g : E -> F) (p : cparser C E A) c b x :
  cparses_end p c b x -> cparses_end (cmap_err g p) c b x.
Proof. intros H off. unfold cmap_err. rewrite H. reflexivity. Qed.
Lemma cp_bind {C E A B} (p : cparser C E A) (f : A -> cparser C E B) c b1 b2 x y :
  cparses p c b1 x -> cparses (f x) c b2 y -> cparses (cbind p f) c (b1 ++ b2) y.
Proof.
  intros H1 H2 rest off. unfold cbind. rewrite <- app_assoc, H1, H2. rewrite blen_app, N.add_assoc. reflexivity.
Qed.
Lemma cp_bind_end {C E A B} (p : cparser C E A) (f : A -> cparser C E B) c b1 b2 x y :
  cparses p c b1 x -> cparses_end (f x) c b2 y -> cparses_end (cbind p f) c (b1 ++ b2) y.
Proof.
  intros H1 H2 off. unfold cbind. rewrite H1, H2. rewrite blen_app, N.add_assoc. reflexivity.
Qed.
Lemma cp_bind_ret {C E A B} (p : cparser C E A) (f : A -> cparser C E B) c b x y :
  cparses p c b x -> cparses (f x) c [] y -> cparses (cbind p f) c b y.
Proof. intros. rewrite <- (app_nil_r b). eapply cp_bind; eauto. Qed.
Lemma cp_bind_end' {C E A B} (p : cparser C E A) (f : A -> cparser C E B) c b x y :
  cparses_end p c b x -> cparses (f x) c [] y -> cparses_end (cbind p f) c b y.
Proof.
  intros H1 H2 off. unfold cbind. rewrite H1. specialize (H2 [] (off + blen b)). cbn [app] in H2.
  rewrite H2, blen_nil, N.add_0_r. reflexivity.
Qed.
Lemma cp_in_sub {C E A} (g : perr -> E) n (p : cparser C E A) c b x :
  n = blen b -> cparses_end p c b x -> cparses (in_sub g n p) c b x.
Proof.
  intros -> H rest off. unfold in_sub, cbind, clift, pmap_err, take_slice, read_bytes, con_sub. cbn [rbuf roff].
  rewrite blen_app. replace (blen b + blen rest <? blen b) with false by lia.
  rewrite drop_app_exact, take_app_exact by reflexivity. cbn [map_err]. rewrite H. reflexivity.
Qed.
Lemma cp_many {C E A} (p : cparser C E (option A)) c (enc : A -> list N) xs : forall fuel,
  (forall x, In x xs -> cparses p c (enc x) (Some x) /\ enc x <> []) ->
  (length xs <= fuel)%nat -> cparses_end (cmany fuel p) c (flat_map enc xs) xs.
Proof.
  induction xs as [|x xs IH]; intros fuel H Hf off.
  - destruct fuel; cbn [cmany flat_map ris_empty rbuf]; rewrite blen_nil, N.add_0_r; reflexivity.
  - cbn [length] in Hf. destruct fuel as [|fuel]; [lia|]. cbn [flat_map].
    destruct (H x (or_introl eq_refl)) as [Hp Hne].
    cbn [cmany]. assert (Hem : ris_empty (mkR (enc x ++ flat_map enc xs) off) = false).
    { unfold ris_empty. cbn [rbuf]. destruct (enc x); [contradiction|reflexivity]. }
    rewrite Hem. unfold cbind at 1. rewrite Hp. unfold cbind at 1.
    rewrite IH; [|intros y Hy; apply H; now right|lia]. unfold cret. rewrite blen_app, N.add_assoc. reflexivity.
Qed.
Lemma flat_map_len_le {A} (enc : A -> list N) xs : (forall x, In x xs -> enc x <> []) ->
  (length xs <= length (flat_map enc xs))%nat.
Proof.
  induction xs as [|x xs IH]; intros H; cbn [flat_map length]; [lia|].
  rewrite app_length. specialize (IH (fun y Hy => H y (or_intror Hy))).
  assert (Hx := H x (or_introl eq_refl)). destruct (enc x); [contradiction|]. cbn [length]. lia.
Qed.
Lemma cp_many_all {C E A} (p : cparser C E (option A)) c (enc : A -> list N) xs :
  (forall x, In x xs -> cparses p c (enc x) (Some x) /\ enc x <> []) ->
  cparses_end (cmany_all p) c (flat_map enc xs) xs.
Proof.
  intros H off. unfold cmany_all. cbn [rbuf]. apply cp_many; [exact H|].
  pose proof (flat_map_len_le enc xs (fun x Hx => proj2 (H x Hx))). lia.
Qed.

(* ---- OPEN ---- *)
Definition cap_octets (c : cap) : list N := match write_cap c with Ok b => b | _ => [] end.
Definition cap_ok (c : cap) : Prop := cap_fits c /\ not_multiple_labels c.
Lemma cap_octets_ok c : cap_ok c -> write_cap c = Ok (cap_octets c) /\ parses parse_cap (cap_octets c) c
  /\ blen (cap_octets c) = cap_len c /\ cap_octets c <> [].
Proof.
  intros [Hf Hm]. destruct (write_cap_total c Hf) as [b Hb]. unfold cap_octets. rewrite Hb.
  destruct (cap_roundtrip c b Hf Hm Hb) as [Hp Hl]. repeat split; auto.
  intros ->. specialize (Hp [] 0). cbn in Hp. discriminate Hp.
Qed.
Lemma write_caps_ok cs : Forall cap_ok cs ->
  write_caps cs = Ok (flat_map cap_octets cs) /\ blen (flat_map cap_octets cs) = sum_len cap_len cs.
Proof.
  induction 1 as [|c cs Hc _ [IH1 IH2]]; cbn [write_caps flat_map sum_len fold_right]; [split; reflexivity|].
  destruct (cap_octets_ok c Hc) as (Hw & _ & Hl & _). rewrite Hw. cbn [rbind]. rewrite IH1. cbn [rbind].
  split; [reflexivity|]. rewrite blen_app, Hl, IH2. reflexivity.
Qed.
Lemma cp_cap_step x c : cap_ok c -> cparses cap_step x (cap_octets c) (Some c).
Proof.
  intros Hc rest off. unfold cap_step. destruct (cap_octets_ok c Hc) as (_ & Hp & _). rewrite Hp. reflexivity.
Qed.
Definition param_octets (cs : list cap) : list N := match write_param cs with Ok b => b | _ => [] end.
Lemma param_octets_ok cs : Forall cap_ok cs -> param_len cs <= 257 ->
  write_param cs = Ok (param_octets cs) /\ param_octets cs = 2 :: sum_len cap_len cs :: flat_map cap_octets cs
  /\ blen (param_octets cs) = param_len cs.
Proof.
  intros H Hl. destruct (write_caps_ok cs H) as [Hw Hb]. unfold param_octets, write_param. rewrite Hw. cbn [rbind].
  unfold param_len in *. replace (2 + sum_len cap_len cs - 2) with (sum_len cap_len cs) by lia.
  unfold as_u8. rewrite N.mod_small by lia. repeat split. rewrite !blen_cons, Hb. lia.
Qed.
Lemma cp_param x cs : Forall cap_ok cs -> param_len cs <= 257 ->
  cparses (cbind parse_param (fun y => cret (Some y))) x (param_octets cs) (Some cs).
Proof.
  intros H Hl. destruct (param_octets_ok cs H Hl) as (_ & -> & _).
  destruct (write_caps_ok cs H) as [_ Hb].
  eapply cp_bind_ret; [|apply cp_ret].
  assert (H1 : cparses (cbind (clift (pmap_err OE_ParamParse read_u8)) (fun _ => parse_cap_param)) x
                 ([2] ++ [sum_len cap_len cs] ++ flat_map cap_octets cs) cs).
  { eapply cp_bind; [apply cp_lift, parses_map_err, parses_u8|].
    unfold parse_cap_param. eapply cp_bind; [apply cp_lift, parses_map_err, parses_u8|].
    apply cp_in_sub; [now symmetry|]. apply cp_many_all. intros c Hc.
    rewrite Forall_forall in H. split; [apply cp_cap_step, H, Hc|].
    now destruct (cap_octets_ok c (H c Hc)) as (_ & _ & _ & ?). }
  intros rest off. specialize (H1 rest off). unfold parse_param. unfold cbind at 1. unfold clift at 1.
  unfold pmap_err at 1, peek_u8. cbn [rbuf app map_err]. change (2 =? 2) with true. cbv iota.
  cbn [app] in H1. exact H1.
Qed.
Lemma write_params_ok ps : Forall (Forall cap_ok) ps -> sum_len param_len ps <= 255 ->
  write_params ps = Ok (flat_map param_octets ps) /\ blen (flat_map param_octets ps) = sum_len param_len ps /\
  Forall (fun p => param_len p <= 257) ps.
Proof.
  induction 1 as [|p ps Hp _ IH]; cbn [write_params flat_map sum_len fold_right]; intros Hl.
  { repeat split. constructor. }
  fold (sum_len param_len ps) in *. destruct IH as (IH1 & IH2 & IH3); [lia|].
  destruct (param_octets_ok p Hp) as (Hw & _ & Hb); [lia|].
  rewrite Hw. cbn [rbind]. rewrite IH1. cbn [rbind]. repeat split.
  - rewrite blen_app, Hb, IH2. reflexivity.
  - constructor; [lia|exact IH3].
Qed.
Lemma host_id_ok id : host_id id -> bad_bgp_id id = false /\ id < 4294967296.
Proof.
  intros [H1 H2]. split; [|lia]. unfold bad_bgp_id.
  assert (Hd := N.div_mod id 16777216 ltac:(lia)). assert (Hm := N.mod_lt id 16777216 ltac:(lia)).
  apply orb_false_iff. split; [apply orb_false_iff; split|]; try lia.
Qed.
Lemma cp_peek {C E} (c : C) (g : perr -> E) k v (B : Type) (f : N -> cparser C E B) b y :
  v < 256 ^ N.of_nat k ->
  cparses (f v) c (be_enc k v ++ b) y -> cparses (cbind (clift (pmap_err g (peek_be (N.of_nat k)))) f) c (be_enc k v ++ b) y.
Proof.
  intros Hv H rest off. unfold cbind, clift, pmap_err, peek_be, remaining. cbn [rbuf].
  rewrite <- app_assoc, blen_app, be_enc_blen.
  replace (N.of_nat k + blen (b ++ rest) <? N.of_nat k) with false by lia. cbn [map_err].
  replace (take (N.of_nat k) (be_enc k v ++ b ++ rest)) with (be_enc k v)
    by (symmetry; apply take_app_exact; now rewrite be_enc_blen).
  rewrite be_val_enc by exact Hv. specialize (H rest off). rewrite <- app_assoc in H. exact H.
Qed.
Lemma open_roundtrip x o b : open_fits o -> write_open o = Ok b ->
  cparses parse_open x b o /\ blen b = open_len o.
Proof.
  intros (Ha & Hh & Hi & Hc & Hl) Hw. destruct (write_params_ok (o_params o) Hc Hl) as (Hp & Hpl & Hps).
  unfold write_open in Hw. rewrite Hp in Hw. cbn [rbind] in Hw. apply Ok_inj in Hw. subst b.
  destruct (host_id_ok _ Hi) as [Hb Hid].
  unfold as_u8. rewrite N.mod_small by lia.
  split; [|rewrite blen_cons, !blen_app, !be_enc_blen, blen_cons, Hpl; unfold open_len; lia].
  unfold hold_time_fits, u16 in *.
  assert (Htail : forall L, L = sum_len param_len (o_params o) ->
    cparses (if L =? 0 then cret (mkOpen (o_as o) (o_hold o) (o_id o) [])
             else cbind (in_sub OE_Parse L (cmany_all (cbind parse_param (fun x0 => cret (Some x0)))))
               (fun ps => cret (mkOpen (o_as o) (o_hold o) (o_id o) ps)))
      x (flat_map param_octets (o_params o)) o).
  { intros L ->. destruct (sum_len param_len (o_params o) =? 0) eqn:Hz.
    - destruct o as [a h i [|p ps]]; [apply cp_ret|]. cbn [o_params sum_len fold_right] in Hz.
      unfold param_len in Hz. lia.
    - apply cp_bind_ret with (x := o_params o); [|destruct o; apply cp_ret].
      apply cp_in_sub; [now rewrite Hpl|]. apply cp_many_all. intros p Hin.
      rewrite Forall_forall in Hc, Hps. split; [apply cp_param; auto|].
      destruct (param_octets_ok p (Hc p Hin) (Hps p Hin)) as (_ & -> & _). discriminate. }
  assert (Hrest : cparses
    (cbind (clift (pmap_err OE_Parse read_u8)) (fun _ =>
      cbind (clift (pmap_err OE_Parse read_u16)) (fun my_as =>
      cbind (clift (pmap_err OE_Parse (peek_be 2))) (fun hold =>
      if (hold =? 1) || (hold =? 2) then cfail (OE_HoldTime hold)
      else
      cbind (clift (pmap_err OE_Parse read_u16)) (fun _ =>
      cbind (clift (pmap_err OE_Parse (peek_be 4))) (fun id =>
      if bad_bgp_id id then cfail (OE_BgpId id)
      else
      cbind (clift (pmap_err OE_Parse read_u32)) (fun _ =>
      cbind (clift (pmap_err OE_Parse read_u8)) (fun len =>
      if len =? 0 then cret (mkOpen my_as hold id [])
      else
      cbind (in_sub OE_Parse len (cmany_all (cbind parse_param (fun x => cret (Some x))))) (fun ps =>
      cret (mkOpen my_as hold id ps))))))))))
    x ([4] ++ be_enc 2 (o_as o) ++ be_enc 2 (o_hold o) ++ be_enc 4 (o_id o)
        ++ [sum_len param_len (o_params o)] ++ flat_map param_octets (o_params o)) o).
  { eapply cp_bind; [apply cp_lift, parses_map_err, parses_u8|].
    eapply cp_bind; [apply cp_lift, parses_map_err, parses_u16; lia|].
    apply (cp_peek x OE_Parse 2); [change (o_hold o < 65536); lia|].
    replace ((o_hold o =? 1) || (o_hold o =? 2)) with false by lia.
    eapply cp_bind; [apply cp_lift, parses_map_err, parses_u16; lia|].
    apply (cp_peek x OE_Parse 4); [exact Hid|]. rewrite Hb.
    eapply cp_bind; [apply cp_lift, parses_map_err, parses_u32, Hid|].
    eapply cp_bind; [apply cp_lift, parses_map_err, parses_u8|].
    apply Htail. reflexivity. }
  intros rest off. specialize (Hrest rest off). unfold parse_open. unfold cbind at 1, clift at 1.
  unfold pmap_err at 1, peek_u8. cbn [rbuf app map_err].
  change (negb (4 =? 4)) with false. cbv iota. cbn [app] in Hrest. exact Hrest.
Qed.
Lemma open_written o : open_fits o -> exists b, write_open o = Ok b.
Proof.
  intros (Ha & Hh & Hi & Hc & Hl). destruct (write_params_ok (o_params o) Hc Hl) as (Hp & _ & _).
  unfold write_open. rewrite Hp. eexists; reflexivity.
Qed.

(* ---- UPDATE ---- *)
Lemma enc_net_len n : net_wf 4 n -> blen (enc_net n) = net_len n.
Proof.
  intros H. unfold enc_net, net_len. rewrite blen_cons, (enc_net_octets_len 4 n H). lia.
Qed.
Lemma enc_route_len x ap : route_fits ap x -> blen (enc_route x) = route_len x.
Proof.
  intros (_ & Hn & _). unfold enc_route, route_len. rewrite blen_app, path_id_blen, enc_net_len by exact Hn. reflexivity.
Qed.
Lemma cp_route x ap upd rt : route_fits ap rt -> cparses (route_step ap upd) x (enc_route rt) (Some rt).
Proof.
  intros (Hp & Hn & Hc & Hf). destruct rt as [pid n]. cbn [fst snd] in *. unfold route_step, read_path_id, check_route, enc_route. cbn [fst snd].
  eapply cp_bind.
  - apply cp_lift. destruct pid as [i|]; cbn [path_id_fits enc_path_id] in *.
    + destruct Hp as [-> Hi]. apply parses_map_err. eapply parses_bind_ret; [apply parses_u32, Hi|apply parses_ret].
    + rewrite Hp. apply parses_ret.
  - eapply cp_bind_ret; [apply cp_lift, parses_map_err, p_net; [exact Hn|lia|exact Hc]|].
    rewrite Hf. apply cp_ret.
Qed.
Lemma enc_route_ne rt : enc_route rt <> [].
Proof. destruct rt as [[i|] n]; discriminate. Qed.
Definition attr_octets (a : pattr) : list N := match write_attr a with Ok b => b | _ => [] end.
Lemma attr_octets_ok asn4 labels ap a : attr_sendable asn4 labels ap a ->
  write_attr a = Ok (attr_octets a) /\ parses (parse_attr asn4 labels ap) (attr_octets a) a /\
  blen (attr_octets a) = attr_len a /\ attr_octets a <> [].
Proof.
  intros [Hf Hu]. destruct (attr_written _ _ _ _ Hf Hu) as (b & Hb & Hl). unfold attr_octets. rewrite Hb.
  repeat split; auto.
  - now apply attr_roundtrip.
  - intros ->. rewrite blen_nil in Hl. unfold attr_len in Hl. lia.
Qed.
Lemma write_attrs_ok asn4 labels ap xs : Forall (attr_sendable asn4 labels ap) xs ->
  write_attrs xs = Ok (flat_map attr_octets xs) /\ blen (flat_map attr_octets xs) = sum_len attr_len xs.
Proof.
  induction 1 as [|a xs Ha _ [IH1 IH2]]; cbn [write_attrs flat_map sum_len fold_right]; [split; reflexivity|].
  destruct (attr_octets_ok _ _ _ _ Ha) as (Hw & _ & Hl & _). rewrite Hw. cbn [rbind]. rewrite IH1. cbn [rbind].
  split; [reflexivity|]. rewrite blen_app, Hl, IH2. reflexivity.
Qed.
Lemma routes_len ap xs : Forall (route_fits ap) xs -> blen (flat_map enc_route xs) = sum_len route_len xs.
Proof.
  induction 1 as [|x xs Hx _ IH]; cbn [flat_map sum_len fold_right]; [reflexivity|].
  rewrite blen_app, (enc_route_len _ _ Hx), IH. reflexivity.
Qed.
Lemma cp_routes x ap upd xs : Forall (route_fits ap) xs ->
  cparses_end (cmany_all (route_step ap upd)) x (flat_map enc_route xs) xs.
Proof.
  intros H. rewrite Forall_forall in H. apply cp_many_all. intros r Hr. split; [apply cp_route, H, Hr|apply enc_route_ne].
Qed.
Lemma update_roundtrip x u b : update_fits (x_asn4 x) (x_labels x) (x_add_path x) u -> write_update u = Ok b ->
  cparses_end parse_update x b u /\ blen b = update_len u.
Proof.
  intros (Hwd & Hat & Hnl & Hlen) Hw. destruct (write_attrs_ok _ _ _ _ Hat) as [Hwa Hal].
  unfold write_update in Hw. rewrite Hwa in Hw. cbn [rbind] in Hw. apply Ok_inj in Hw. subst b.
  pose proof (routes_len _ _ Hwd) as Hl1. pose proof (routes_len _ _ Hnl) as Hl2.
  unfold update_len in *.
  set (W := sum_len route_len (u_withdrawn u)) in *. set (A := sum_len attr_len (u_attrs u)) in *.
  set (L := sum_len route_len (u_nlri u)) in *.
  assert (HW : W < 65536) by lia. assert (HA : A < 65536) by lia.
  unfold as_u16. rewrite !N.mod_small by assumption.
  split; [|rewrite !blen_app, !be_enc_blen, Hl1, Hal, Hl2; lia].
  intros off. unfold parse_update. cbv zeta. revert off.
  change (cparses_end (cbind (clift (pmap_err UE_Parse read_u16)) (fun wlen =>
     cbind (in_sub UE_Parse wlen (cmany_all (route_step (add_path_of (x_add_path x) Ipv4Unicast) false))) (fun ws =>
     cbind (clift (pmap_err UE_Parse read_u16)) (fun alen =>
     cbind (in_sub UE_Parse alen (cmany_all attr_step)) (fun attrs =>
     cbind (cmany_all (route_step (add_path_of (x_add_path x) Ipv4Unicast) true)) (fun ns =>
     cret (mkUpdate ws attrs ns))))))) x
     (be_enc 2 W ++ flat_map enc_route (u_withdrawn u) ++ be_enc 2 A ++ flat_map attr_octets (u_attrs u)
      ++ flat_map enc_route (u_nlri u)) u).
  eapply cp_bind_end; [apply cp_lift, parses_map_err, parses_u16, HW|].
  eapply cp_bind_end; [apply cp_in_sub; [now symmetry|]; apply cp_routes; exact Hwd|].
  eapply cp_bind_end; [apply cp_lift, parses_map_err, parses_u16, HA|].
  eapply cp_bind_end; [apply cp_in_sub; [now symmetry|]|].
  - apply (cp_many_all attr_step x attr_octets). intros a Ha. rewrite Forall_forall in Hat.
    destruct (attr_octets_ok _ _ _ _ (Hat a Ha)) as (_ & Hp & _ & Hne). split; [|exact Hne].
    intros rest off. unfold attr_step. rewrite Hp. reflexivity.
  - apply cp_bind_end' with (x := u_nlri u); [apply cp_routes; exact Hnl|]. destruct u. apply cp_ret.
Qed.
Lemma update_written asn4 labels ap u : update_fits asn4 labels ap u -> exists b, write_update u = Ok b.
Proof.
  intros (Hwd & Hat & Hnl & Hlen). destruct (write_attrs_ok _ _ _ _ Hat) as [Hwa Hal].
  unfold write_update. rewrite Hwa. eexists; reflexivity.
Qed.

(* ---- NOTIFICATION, ROUTE-REFRESH ---- *)
Lemma iana_sub_ok c s : iana_error c s -> sub_ok c s = true /\ 1 <= c <= 7.
Proof.
  intros H. destruct H as [[-> H]|[[-> H]|[[-> H]|[[-> H]|[[-> H]|[[-> H]|[-> ->]]]]]]]; (split; [|lia]);
    try reflexivity; cbn [In] in H;
    repeat match goal with H : _ \/ _ |- _ => destruct H as [<-|H] end; try reflexivity; try contradiction.
  all: unfold sub_ok, subcodes.
  - change (1 =? 4) with false. cbn [existsb]. lia.
  - change (5 =? 4) with false. cbn [existsb]. lia.
  - change (6 =? 4) with false. cbn [existsb]. lia.
Qed.
Lemma notif_roundtrip n : notif_fits n -> parses_end parse_notif (write_notif n) n.
Proof.
  intros [Hc Hl]. destruct (iana_sub_ok _ _ Hc) as [Hs Hr]. destruct n as [c s v]. cbn [n_code n_sub n_data] in *.
  intros off. unfold parse_notif, write_notif, bind, pmap_err, peek_u8, read_u8, get_reader, remaining, fail, ret.
  cbn [rbuf roff map_err n_code n_sub n_data]. replace ((1 <=? c) && (c <=? 7)) with true by lia.
  cbn [rbuf roff map_err]. rewrite Hs. cbn [rbuf roff map_err].
  unfold read_bytes. cbn [rbuf roff]. rewrite N.ltb_irrefl. cbn [map_err].
  rewrite !blen_cons. f_equal; [|f_equal; f_equal; apply take_all; lia].
  f_equal; [apply drop_all; lia|lia].
Qed.
Lemma refresh_roundtrip m : rr_op m <= 2 -> parses_end parse_refresh (write_refresh m) m.
Proof.
  intros H. destruct m as [t op]. cbn [rr_op] in H. intros off. unfold write_refresh. cbn [rr_type rr_op].
  assert (Hv := from_at t). assert (Ha := at_afi_ok t). assert (Hs := at_safi_ok t).
  assert (Hb : exists a b, be_enc 2 (at_afi t) = [a; b] /\ be_val [a; b] = at_afi t).
  { exists (nth 0 (be_enc 2 (at_afi t)) 0), (nth 1 (be_enc 2 (at_afi t)) 0). destruct t; split; reflexivity. }
  destruct Hb as (a & b & -> & Hab). cbn [app].
  unfold parse_refresh, bind, pmap_err, peek_be, peek_u8, read_u16, read_be, read_u8, read_bytes, remaining, fail, ret.
  cbn [rbuf roff]. rewrite !blen_cons, blen_nil. cbn [map_err].
  change (take 2 [a; b; op; at_safi t]) with [a; b]. rewrite Hab.
  change (1 + (1 + (1 + (1 + 0))) <? 2) with false. cbn [map_err]. rewrite Ha.
  unfold bind, ret. cbn [rbuf roff]. rewrite !blen_cons, blen_nil.
  change (1 + (1 + (1 + (1 + 0))) <? 2) with false.
  change (take 2 [a; b; op; at_safi t]) with [a; b]. change (drop 2 [a; b; op; at_safi t]) with [op; at_safi t].
  cbn [map_err rbuf roff]. replace (op <=? 2) with true by lia. cbn [map_err rbuf roff]. rewrite Hs.
  cbn [map_err rbuf roff]. rewrite Hv. f_equal. f_equal. lia.
Qed.

(* ---- whole messages ---- *)
Definition fits_ctx (x : bctx) (m : bgp_msg) : Prop := msg_fits (x_asn4 x) (x_labels x) (x_add_path x) m.
Lemma body_roundtrip x m b : fits_ctx x m -> write_body m = Ok b ->
  cparses_end (parse_body (msg_type m)) x b m /\ blen b = msg_len m.
Proof.
  unfold fits_ctx. destruct m as [o|u|n| |r]; cbn [msg_fits write_body msg_type parse_body msg_len]; intros Hf Hw.
  - destruct (write_open o) as [ob|e| |] eqn:Ho; cbn [map_err] in Hw; try discriminate.
    apply Ok_inj in Hw. subst ob. destruct (open_roundtrip x o b Hf Ho) as [Hp Hl]. split; [|exact Hl].
    eapply cp_bind_end'; [apply cp_map_err_end, cp_end, Hp|apply cp_ret].
  - destruct (write_update u) as [ub|e| |] eqn:Hu; cbn [map_err] in Hw; try discriminate.
    apply Ok_inj in Hw. subst ub. destruct (update_roundtrip x u b Hf Hu) as [Hp Hl]. split; [|exact Hl].
    eapply cp_bind_end'; [apply cp_map_err_end, Hp|apply cp_ret].
  - apply Ok_inj in Hw. subst b. split.
    + eapply cp_bind_end'; [apply cp_map_err_end, cp_lift_end, notif_roundtrip, Hf|apply cp_ret].
    + unfold write_notif, notif_len. rewrite !blen_cons. lia.
  - apply Ok_inj in Hw. subst b. split; [apply cp_end, cp_ret|reflexivity].
  - apply Ok_inj in Hw. subst b. split.
    + eapply cp_bind_end'; [apply cp_map_err_end, cp_lift_end, refresh_roundtrip, Hf|apply cp_ret].
    + unfold write_refresh. rewrite blen_app, be_enc_blen. reflexivity.
Qed.
Lemma body_written x m : fits_ctx x m -> exists b, write_body m = Ok b.
Proof.
  unfold fits_ctx. destruct m as [o|u|n| |r]; cbn [msg_fits write_body]; intros Hf; try (eexists; reflexivity).
  - destruct (open_written o Hf) as [b ->]. eexists; reflexivity.
  - destruct (update_written _ _ _ u Hf) as [b ->]. eexists; reflexivity.
Qed.
Lemma msg_len_fits asn4 labels ap m : msg_fits asn4 labels ap m -> 19 + msg_len m <= 65535 /\
  match msg_type m with TOpen | TKeepAlive => 19 + msg_len m <= 4096 | _ => True end.
Proof.
  destruct m as [o|u|n| |r]; cbn [msg_fits msg_len msg_type]; intros H.
  - destruct H as (_ & _ & _ & _ & Hl). unfold open_len. lia.
  - destruct H as (_ & _ & _ & Hl). lia.
  - destruct H as [_ Hl]. unfold notif_len. lia.
  - lia.
  - lia.
Qed.
Lemma write_framed asn4 labels ap m b : msg_fits asn4 labels ap m -> write_bgp m = Ok b ->
  exists body, write_body m = Ok body /\ b = framed (msg_type m) body [] /\ length_allowed (msg_type m) body.
Proof.
  intros Hf Hw. set (x := mkCtx asn4 labels ap true true true true no_ignored).
  assert (Hx : fits_ctx x m) by exact Hf.
  destruct (body_written x m Hx) as [body Hb]. destruct (body_roundtrip x m body Hx Hb) as [_ Hl].
  destruct (msg_len_fits _ _ _ _ Hf) as [H1 H2]. exists body. split; [exact Hb|].
  unfold write_bgp, write_message in Hw. unfold bgp_min_len, bgp_max_len in Hw.
  replace (match msg_type m with TOpen | TKeepAlive => 4096 <? 19 + msg_len m | _ => false end) with false in Hw
    by (destruct (msg_type m); lia).
  rewrite Hb in Hw. cbn [map_err rbind] in Hw. apply Ok_inj in Hw. subst b. rewrite <- Hl in *.
  split.
  - unfold framed. rewrite app_nil_r, marker_bytes. unfold as_u16. rewrite N.mod_small by lia.
    rewrite be_enc_2, (N.mod_small (_ / 256)) by lia. reflexivity.
  - split; [exact H1|exact H2].
Qed.
Lemma bgp_written asn4 labels ap m : msg_fits asn4 labels ap m -> exists b, write_bgp m = Ok b.
Proof.
  intros Hf. set (x := mkCtx asn4 labels ap true true true true no_ignored).
  assert (Hx : fits_ctx x m) by exact Hf. destruct (body_written x m Hx) as [body Hb].
  destruct (msg_len_fits _ _ _ _ Hf) as [H1 H2]. unfold write_bgp, write_message, bgp_min_len, bgp_max_len.
  replace (match msg_type m with TOpen | TKeepAlive => 4096 <? 19 + msg_len m | _ => false end) with false
    by (destruct (msg_type m); lia).
  rewrite Hb. eexists; reflexivity.
Qed.
Lemma framed_blen t body rest : blen (framed t body rest) = 19 + blen body + blen rest.
Proof. unfold framed. rewrite !blen_app, blen_repeat, !blen_cons, blen_nil. lia. Qed.
Lemma framed_app t body rest : framed t body [] ++ rest = framed t body rest.
Proof. unfold framed. rewrite app_nil_r, <- !app_assoc. reflexivity. Qed.
Lemma framed_field t body rest : 19 + blen body < 65536 ->
  be_val (take 2 (drop 16 (framed t body rest))) = 19 + blen body.
Proof.
  intros H. unfold framed. set (L := 19 + blen body) in *. cbn [app].
  change (drop 16 (repeat 255 16 ++ L / 256 :: L mod 256 :: mtype_code t :: body ++ rest))
    with (L / 256 :: L mod 256 :: mtype_code t :: body ++ rest).
  change (take 2 (L / 256 :: L mod 256 :: mtype_code t :: body ++ rest)) with [L / 256; L mod 256].
  rewrite <- (N.mod_small (L / 256) 256) by lia. rewrite <- be_enc_2. apply be_val_enc. exact H.
Qed.
(* a whole message at the front of the buffer is decoded, and only it *)
Lemma bgp_decode_one k m b rest :
  msg_fits (agreed (k_sent k) (k_recv k)) (x_labels (k_ctx k)) (x_add_path (k_ctx k)) m ->
  write_bgp m = Ok b ->
  exists x', decode_bgp k (b ++ rest) =
    (mkCodec (k_sent k) (learn m (k_recv k)) x', rest, DItem (m, x_ign (k_ctx k))) /\
    x_ign x' = no_ignored /\ x_labels x' = x_labels (k_ctx k) /\ x_add_path x' = x_add_path (k_ctx k).
Proof.
  intros Hf Hw. destruct (write_framed _ _ _ _ _ Hf Hw) as (body & Hb & -> & Hla).
  rewrite framed_app. unfold decode_bgp, bgp_decode. rewrite framed_blen.
  destruct Hla as [Hl Ht].
  replace (19 <=? 19 + blen body + blen rest) with true by lia. rewrite framed_field by lia.
  replace (19 + blen body + blen rest <? 19 + blen body) with false by lia.
  assert (Ha : unwrap_or_false (k_recv k) && unwrap_or_false (k_sent k) = agreed (k_sent k) (k_recv k)).
  { destruct (k_sent k) as [[]|], (k_recv k) as [[]|]; reflexivity. }
  rewrite Ha. cbn [op_set_asn4 op_reset bgp_ops].
  set (x := set_asn4 (agreed (k_sent k) (k_recv k)) (k_ctx k)).
  assert (Hx : fits_ctx x m) by exact Hf.
  destruct (body_roundtrip x m body Hx Hb) as [Hp _].
  replace (take (19 + blen body) (framed (msg_type m) body rest)) with (framed (msg_type m) body [])
    by (rewrite <- (framed_app _ _ rest); symmetry; apply take_app_exact; rewrite framed_blen, blen_nil; lia).
  replace (drop (19 + blen body) (framed (msg_type m) body rest)) with rest
    by (rewrite <- (framed_app _ _ rest); symmetry; apply drop_app_exact; rewrite framed_blen, blen_nil; lia).
  rewrite parse_message_framed by (split; assumption). rewrite Hp. cbn [ris_empty rbuf].
  unfold reset_errors. exists (with_ign (fun _ => no_ignored) x). split.
  - f_equal. f_equal. destruct m; reflexivity.
  - repeat split.
Qed.

Lemma bgp_stream ms : forall k b,
  x_ign (k_ctx k) = no_ignored ->
  stream_fits (k_sent k) (k_recv k) (x_labels (k_ctx k)) (x_add_path (k_ctx k)) ms -> written ms b ->
  exists k', forall f, (length ms < f)%nat ->
    drain_fuel decode_bgp f k b = (k', [], map (fun m => DItem (m, no_ignored)) ms, Waiting).
Proof.
  induction ms as [|m ms IH]; intros k b Hi Hf Hw; cbn [stream_fits written] in *.
  - subst b. exists k. intros f Hlt. cbn [length] in Hlt. destruct f; [lia|]. reflexivity.
  - destruct Hf as [Hm Hr]. destruct Hw as (b1 & b2 & Hw1 & Hw2 & ->).
    destruct (bgp_decode_one k m b1 b2 Hm Hw1) as (x' & Hd & Hx1 & Hx2 & Hx3). rewrite Hi in Hd.
    destruct (IH (mkCodec (k_sent k) (learn m (k_recv k)) x') b2) as [k' Hk']; cbn [k_ctx k_sent k_recv]; auto.
    { rewrite Hx2, Hx3. exact Hr. }
    exists k'. intros f Hlt. cbn [length] in Hlt. destruct f as [|f]; [lia|].
    cbn [drain_fuel]. rewrite Hd. cbn [is_none halts map]. rewrite Hk' by lia. reflexivity.
Qed.
Lemma written_len ms : forall b, written ms b -> (length ms <= length b)%nat.
Proof.
  induction ms as [|m ms IH]; intros b; cbn [written length]; [lia|]. intros (b1 & b2 & H1 & H2 & ->).
  specialize (IH _ H2). rewrite app_length.
  unfold write_bgp, write_message in H1. destruct (match msg_type m with TOpen | TKeepAlive => _ | _ => false end); [discriminate|].
  destruct (write_body m) as [body| | |]; try discriminate. cbn [map_err rbind] in H1. apply Ok_inj in H1. subst b1.
  rewrite marker_bytes, app_length, repeat_length. lia.
Qed.
Theorem bgp_stream_chunks k ms b xs :
  x_ign (k_ctx k) = no_ignored ->
  stream_fits (k_sent k) (k_recv k) (x_labels (k_ctx k)) (x_add_path (k_ctx k)) ms ->
  written ms b -> concat xs = b ->
  let c := feed_all decode_bgp (conn_new k) xs in
  c_out c = map (fun m => DItem (m, no_ignored)) ms /\ c_buf c = [] /\ c_status c = Waiting.
Proof.
  intros Hi Hf Hw Hx. cbv zeta. pose proof (codec_feed_all bgp_ops parse_body asn4_of xs k) as Hfa.
  cbv zeta in Hfa. change (bgp_decode bgp_ops parse_body asn4_of) with decode_bgp in Hfa.
  replace (feed_all decode_bgp (conn_new k) xs) with (feed decode_bgp (conn_new k) b)
    by (rewrite <- Hx; symmetry; exact Hfa).
  destruct (bgp_stream ms k b Hi Hf Hw) as [k' Hk']. unfold feed. cbn [c_status conn_new c_buf c_st c_out app].
  unfold drain. rewrite Hk' by (pose proof (written_len ms b Hw); lia).
  repeat split.
Qed.

(* ---- no octets make the parser panic ---- *)
Definition csafe {E A} (p : cparser bctx E A) : Prop :=
  forall c r, small_limits (x_labels c) ->
    adv r (snd (fst (p c r))) /\ x_labels (fst (fst (p c r))) = x_labels c /\ no_crash (snd (p c r)).
Lemma cs_ret {E A} (x : A) : csafe (@cret bctx E A x).
Proof. intros c r H. split; [apply adv_refl|split; [reflexivity|exact I]]. Qed.
Lemma cs_fail {E A} (e : E) : csafe (@cfail bctx E A e).
Proof. intros c r H. split; [apply adv_refl|split; [reflexivity|exact I]]. Qed.
Lemma cs_lift {E A} (p : parser E A) : safe p -> csafe (clift p).
Proof.
  intros Hp c r H. unfold clift. destruct (Hp r) as [H1 H2]. destruct (p r) as [r' x]. cbn [fst snd] in *. auto.
Qed.
Lemma cs_bind {E A B} (p : cparser bctx E A) (f : A -> cparser bctx E B) :
  csafe p -> (forall x, csafe (f x)) -> csafe (cbind p f).
Proof.
  intros Hp Hf c r H. unfold cbind. destruct (Hp c r H) as (H1 & H2 & H3).
  destruct (p c r) as [[c1 r1] [x|e| |]]; cbn [fst snd] in *; auto.
  destruct (Hf x c1 r1) as (H4 & H5 & H6); [now rewrite H2|].
  repeat split; auto; [eapply adv_trans; eauto|congruence].
Qed.
Lemma cs_map_err {E F A} (g : E -> F) (p : cparser bctx E A) : csafe p -> csafe (cmap_err g p).
Proof.
  intros Hp c r H. unfold cmap_err. destruct (Hp c r H) as (H1 & H2 & H3).
  destruct (p c r) as [[c1 r1] [x|e| |]]; cbn [fst snd] in *; auto.
Qed.
Lemma cs_in_sub {E A} (g : perr -> E) n (p : cparser bctx E A) : csafe p -> csafe (in_sub g n p).
Proof.
  intros Hp. unfold in_sub. apply cs_bind; [apply cs_lift; psafe|]. intros sub c r H. unfold con_sub.
  destruct (Hp c sub H) as (H1 & H2 & H3). destruct (p c sub) as [[c1 r1] x]. cbn [fst snd] in *.
  split; [apply adv_refl|auto].
Qed.
(* each turn of the loop, failing or not, takes something off a non-empty reader *)
Definition ceats {E A} (p : cparser bctx E A) : Prop :=
  forall c r x, rbuf r <> [] -> small_limits (x_labels c) -> snd (p c r) = Ok x ->
    (length (rbuf (snd (fst (p c r)))) < length (rbuf r))%nat.
Lemma cs_many {E A} (p : cparser bctx E (option A)) : csafe p -> ceats p ->
  forall fuel c r, small_limits (x_labels c) -> (length (rbuf r) <= fuel)%nat ->
    adv r (snd (fst (cmany fuel p c r))) /\ x_labels (fst (fst (cmany fuel p c r))) = x_labels c
    /\ no_crash (snd (cmany fuel p c r)).
Proof.
  intros Hp He. induction fuel as [|f IH]; intros c r H Hl; cbn [cmany].
  - destruct (rbuf r) eqn:Hb; [|cbn [length] in Hl; lia]. unfold ris_empty. rewrite Hb. cbn [fst snd].
    split; [apply adv_refl|split; [reflexivity|exact I]].
  - destruct (ris_empty r) eqn:Hr; cbn [fst snd].
    { split; [apply adv_refl|split; [reflexivity|exact I]]. }
    assert (Hne : rbuf r <> []) by (unfold ris_empty in Hr; destruct (rbuf r); [discriminate|congruence]).
    unfold cbind at 1 3 5. destruct (Hp c r H) as (H1 & H2 & H3). specialize (He c r).
    destruct (p c r) as [[c1 r1] [x|e| |]]; cbn [fst snd] in *; auto.
    specialize (He x Hne H eq_refl). unfold cbind.
    destruct (IH c1 r1) as (H4 & H5 & H6); [now rewrite H2|lia|].
    destruct (cmany f p c1 r1) as [[c2 r2] [y|e| |]]; cbn [fst snd cret] in *;
      (split; [eapply adv_trans; eauto|split; [congruence|auto]]).
Qed.
Lemma cs_many_all {E A} (p : cparser bctx E (option A)) : csafe p -> ceats p -> csafe (cmany_all p).
Proof. intros Hp He c r H. unfold cmany_all. apply cs_many; auto. Qed.
Lemma adv_len r r' : adv r r' -> (length (rbuf r') <= length (rbuf r))%nat.
Proof. intros (pre & -> & _). rewrite app_length. lia. Qed.
Lemma ce_bind {E A B} (p : cparser bctx E A) (f : A -> cparser bctx E B) :
  csafe p -> ceats p -> (forall x, csafe (f x)) -> ceats (cbind p f).
Proof.
  intros Hp He Hf c r y Hne H. unfold cbind. destruct (Hp c r H) as (_ & H2 & _). specialize (He c r).
  destruct (p c r) as [[c1 r1] [x|e| |]]; cbn [fst snd] in *; try discriminate.
  specialize (He x Hne H eq_refl). intros Hy. destruct (Hf x c1 r1) as (H4 & _); [now rewrite H2|].
  apply adv_len in H4. lia.
Qed.
Lemma ce_lift {E A} (p : parser E A) : strict p -> ceats (clift p).
Proof.
  intros Hp c r x Hne H. unfold clift. specialize (Hp r x). destruct (p r) as [r' y]. cbn [fst snd] in *. exact Hp.
Qed.
Lemma cs_cap_step : csafe cap_step /\ ceats cap_step.
Proof.
  split.
  - intros c r H. unfold cap_step. destruct (safe_cap r) as [H1 H2].
    destruct (parse_cap r) as [r' [x|e| |]]; cbn [fst snd] in *; auto.
    destruct (x_fail_cap c); cbn [fst snd]; repeat split; auto.
  - intros c r x Hne H. unfold cap_step. pose proof (cap_consumes r Hne) as Hc.
    destruct (parse_cap r) as [r' [y|e| |]]; cbn [fst snd] in *; auto.
    destruct (x_fail_cap c); cbn [fst snd]; auto.
Qed.
Lemma cs_cap_param : csafe parse_cap_param.
Proof.
  unfold parse_cap_param. apply cs_bind; [apply cs_lift; psafe|]. intros.
  apply cs_in_sub. destruct cs_cap_step. now apply cs_many_all.
Qed.
Lemma cs_param : csafe parse_param.
Proof.
  unfold parse_param. apply cs_bind; [apply cs_lift; psafe|]. intros t.
  destruct (t =? 2); [|apply cs_fail]. apply cs_bind; [apply cs_lift; psafe|]. intros. apply cs_cap_param.
Qed.
Lemma ce_param : ceats parse_param.
Proof.
  intros c r x Hne H. destruct r as [[|v b] o]; [now contradiction Hne|].
  assert (Hq : parse_param c (mkR (v :: b) o) =
    if v =? 2 then parse_cap_param c (mkR b (o + 1)) else (c, mkR (v :: b) o, Err (OE_ParamType v))).
  { unfold parse_param. unfold cbind at 1, clift at 1, pmap_err at 1, peek_u8. cbn [rbuf map_err].
    destruct (v =? 2); reflexivity. }
  rewrite Hq. destruct (v =? 2); [|cbn; discriminate].
  intros _. destruct (cs_cap_param c (mkR b (o + 1)) H) as (H1 & _). apply adv_len in H1. cbn [rbuf] in H1.
  cbn [rbuf length]. lia.
Qed.
Lemma cs_open : csafe parse_open.
Proof.
  unfold parse_open.
  repeat first [ apply cs_bind; [apply cs_lift; psafe|intros] | apply cs_fail | apply cs_ret
               | match goal with |- csafe (if ?b then _ else _) => destruct b end ].
  apply cs_bind; [|intros; apply cs_ret]. apply cs_in_sub. apply cs_many_all.
  - apply cs_bind; [apply cs_param|intros; apply cs_ret].
  - apply ce_bind; [apply cs_param|apply ce_param|intros; apply cs_ret].
Qed.
Lemma cs_check upd pid n : csafe (check_route upd pid n).
Proof.
  unfold check_route. destruct (family_ok _ n); [apply cs_ret|]. intros c r H. cbv zeta.
  destruct upd, (x_fail_update c), (x_fail_withdraw c); cbn [andb negb fst snd];
    (split; [apply adv_refl|split; [reflexivity|exact I]]).
Qed.
Lemma cs_route ap upd : csafe (route_step ap upd) /\ ceats (route_step ap upd).
Proof.
  assert (Hp : safe (read_path_id ap)) by (unfold read_path_id; psafe).
  assert (Hn : csafe (clift (C := bctx) (pmap_err UE_Prefix (parse_net 4)))) by apply cs_lift, safe_map_err, safe_net.
  assert (Hs : forall pid, csafe (cbind (clift (pmap_err UE_Prefix (parse_net 4))) (fun n => check_route upd pid n))).
  { intros pid. apply cs_bind; [exact Hn|]. intros n. apply cs_check. }
  split; [apply cs_bind; [apply cs_lift, Hp|exact Hs]|].
  assert (He : forall pid, ceats (cbind (clift (pmap_err UE_Prefix (parse_net 4))) (fun n => check_route upd pid n))).
  { intros pid. apply ce_bind; [exact Hn| |intros; apply cs_check].
    apply ce_lift, strict_map_err. unfold parse_net, nrd. apply strict_bind_l; [apply strict_map_err, strict_u8|].
    intros; apply safe_net_len. }
  intros c r x Hne H.
  assert (Hq : route_step ap upd c r = match read_path_id ap r with
    | (r1, Ok pid) => cbind (clift (pmap_err UE_Prefix (parse_net 4))) (fun n => check_route upd pid n) c r1
    | (r1, Err e) => (c, r1, Err e) | (r1, Panic) => (c, r1, Panic) | (r1, Diverge) => (c, r1, Diverge) end).
  { unfold route_step, cbind at 1, clift at 1. destruct (read_path_id ap r) as [r1 [pid|e| |]]; reflexivity. }
  rewrite Hq. clear Hq. specialize (Hp r). destruct (read_path_id ap r) as [r1 [pid|e| |]]; cbn [fst snd] in *; try discriminate.
  destruct Hp as [Hadv _]. apply adv_len in Hadv. intros Hx.
  destruct (rbuf r1) as [|v b] eqn:Hb.
  + exfalso. revert Hx. unfold cbind, clift, pmap_err, parse_net, bind, nrd, pmap_err, read_u8. rewrite Hb.
    cbn [map_err fst snd]. discriminate.
  + specialize (He pid c r1 x). rewrite Hb in He. specialize (He ltac:(discriminate) H Hx). cbn [length] in *. lia.
Qed.
Lemma safe_handle asn4 e : safe (handle_attr_error asn4 e).
Proof.
  destruct e as [p|k [p|]]; [| |]; try destruct k; unfold handle_attr_error, skip_attr, skip_attr_fixed; psafe.
Qed.
Lemma attr_consumes asn4 labels ap r : small_limits labels -> rbuf r <> [] ->
  (length (rbuf (fst (parse_attr asn4 labels ap r))) < length (rbuf r))%nat.
Proof.
  intros H Hr. destruct r as [[|v b] o]; [now contradiction Hr|].
  unfold parse_attr. unfold bind at 1. unfold pmap_err at 1, read_u8. cbn [rbuf roff map_err].
  match goal with |- context[bind ?p ?f ?r] => assert (Hs : safe (bind p f)) end.
  { apply safe_bind; [psafe|intros]. cbv zeta. apply safe_bind; [now apply safe_value|intros]. unfold afail. psafe. }
  destruct (Hs (mkR b (o + 1))) as [Ha _]. apply adv_len in Ha. cbn [rbuf length] in *. lia.
Qed.
Lemma cs_attr_step : csafe attr_step /\ ceats attr_step.
Proof.
  split.
  - intros c r H. unfold attr_step. destruct (safe_attr (x_asn4 c) (x_labels c) (x_add_path c) H r) as [H1 H2].
    destruct (parse_attr _ _ _ r) as [r' [x|e| |]]; cbn [fst snd] in *; auto.
    destruct e as [p|k p]; [cbn [fst snd]; auto|]. destruct (x_fail_attr c); [cbn [fst snd]; auto|].
    destruct (safe_handle (x_asn4 c) (AE_Attr k p) r') as [H3 H4].
    destruct (handle_attr_error _ _ r') as [r2 [y|e'| |]]; cbn [fst snd] in *;
      (split; [eapply adv_trans; eauto|split; [reflexivity|auto]]).
  - intros c r x Hne H. unfold attr_step.
    pose proof (attr_consumes (x_asn4 c) (x_labels c) (x_add_path c) r H Hne) as Hc.
    destruct (parse_attr _ _ _ r) as [r' [y|e| |]]; cbn [fst snd] in *; auto.
    destruct e as [p|k p]; [cbn; discriminate|]. destruct (x_fail_attr c); [cbn; discriminate|].
    destruct (safe_handle (x_asn4 c) (AE_Attr k p) r') as [H3 H4]. apply adv_len in H3.
    destruct (handle_attr_error _ _ r') as [r2 [y|e'| |]]; cbn [fst snd] in *; try discriminate. lia.
Qed.
Lemma cs_update : csafe parse_update.
Proof.
  intros c r H. unfold parse_update. cbv zeta. 
  set (ap := add_path_of (x_add_path c) Ipv4Unicast).
  revert c r H ap. intros c r H ap. revert H. generalize ap. clear ap. intros ap. revert c r.
  match goal with |- forall c r, small_limits _ -> _ => idtac end.
  assert (Hs : csafe (cbind (clift (pmap_err UE_Parse read_u16)) (fun wlen =>
    cbind (in_sub UE_Parse wlen (cmany_all (route_step ap false))) (fun ws =>
    cbind (clift (pmap_err UE_Parse read_u16)) (fun alen =>
    cbind (in_sub UE_Parse alen (cmany_all attr_step)) (fun attrs =>
    cbind (cmany_all (route_step ap true)) (fun ns =>
    cret (mkUpdate ws attrs ns)))))))).
  { apply cs_bind; [apply cs_lift; psafe|intros].
    apply cs_bind; [apply cs_in_sub; destruct (cs_route ap false); now apply cs_many_all|intros].
    apply cs_bind; [apply cs_lift; psafe|intros].
    apply cs_bind; [apply cs_in_sub; destruct cs_attr_step; now apply cs_many_all|intros].
    apply cs_bind; [destruct (cs_route ap true); now apply cs_many_all|intros; apply cs_ret]. }
  intros c r H. apply Hs, H.
Qed.
Lemma cs_body t : csafe (parse_body t).
Proof.
  destruct t; cbn [parse_body].
  - apply cs_bind; [apply cs_map_err, cs_open|intros; apply cs_ret].
  - apply cs_bind; [apply cs_map_err, cs_update|intros; apply cs_ret].
  - apply cs_bind; [apply cs_map_err, cs_lift|intros; apply cs_ret]. unfold parse_notif. psafe.
  - apply cs_ret.
  - apply cs_bind; [apply cs_map_err, cs_lift|intros; apply cs_ret]. unfold parse_refresh. psafe.
Qed.
Lemma cs_bgp : csafe parse_bgp.
Proof.
  unfold parse_bgp, parse_message. apply cs_bind; [apply cs_lift; psafe|intros]. destruct (negb _); [apply cs_fail|].
  apply cs_bind.
  { apply cs_lift. unfold parse_length_and_type. apply safe_bind; [psafe|intros]. apply safe_if; [psafe|].
    apply safe_bind; [psafe|intros sub]. unfold pmap_err at 1, read_u8. destruct (rbuf sub); cbn [map_err]; psafe. }
  intros [[l t] sub] c r H. unfold cmap_err. destruct (cs_body t c sub H) as (H1 & H2 & H3).
  destruct (parse_body t c sub) as [[c' r'] [m|e| |]]; cbn [fst snd map_err] in *; try contradiction;
    try (split; [apply adv_refl|split; [assumption|exact I]]).
  destruct (ris_empty r'); cbn [fst snd]; (split; [apply adv_refl|split; [assumption|exact I]]).
Qed.
Lemma decode_bgp_labels k b k' b' o : small_limits (x_labels (k_ctx k)) -> decode_bgp k b = (k', b', o) ->
  x_labels (k_ctx k') = x_labels (k_ctx k) /\ o <> DPanic.
Proof.
  intros H. unfold decode_bgp, bgp_decode.
  destruct (19 <=? blen b); [|intros Hd; inversion Hd; subst; split; [reflexivity|discriminate]].
  destruct (blen b <? _); [intros Hd; inversion Hd; subst; split; [reflexivity|discriminate]|].
  set (a := unwrap_or_false (k_recv k) && unwrap_or_false (k_sent k)).
  cbn [op_set_asn4 bgp_ops op_reset]. set (f := rnew _).
  destruct (cs_bgp (set_asn4 a (k_ctx k)) f H) as (_ & H2 & H3). unfold parse_bgp in *.
  destruct (parse_message parse_body (set_asn4 a (k_ctx k)) f) as [[c' r'] [m|e| |]]; cbn [fst snd] in *;
    try contradiction.
  - unfold reset_errors. intros Hd; inversion Hd; subst. split; [exact H2|discriminate].
  - intros Hd; inversion Hd; subst. split; [exact H2|discriminate].
Qed.

(* ---- parsing changes nothing in the context but the tolerated errors ---- *)
Definition settings (c : bctx) : bctx := with_ign (fun _ => no_ignored) c.
Definition keeps {E A} (p : cparser bctx E A) : Prop := forall c r, settings (fst (fst (p c r))) = settings c.
Lemma kp_ret {E A} (x : A) : keeps (@cret bctx E A x). Proof. intros c r. reflexivity. Qed.
Lemma kp_fail {E A} (e : E) : keeps (@cfail bctx E A e). Proof. intros c r. reflexivity. Qed.
Lemma kp_lift {E A} (p : parser E A) : keeps (clift p).
Proof. intros c r. unfold clift. destruct (p r). reflexivity. Qed.
Lemma kp_bind {E A B} (p : cparser bctx E A) (f : A -> cparser bctx E B) :
  keeps p -> (forall x, keeps (f x)) -> keeps (cbind p f).
Proof.
  intros Hp Hf c r. unfold cbind. specialize (Hp c r).
  destruct (p c r) as [[c1 r1] [x|e| |]]; cbn [fst snd] in *; auto. rewrite Hf. exact Hp.
Qed.
Lemma kp_map_err {E F A} (g : E -> F) (p : cparser bctx E A) : keeps p -> keeps (cmap_err g p).
Proof. intros Hp c r. unfold cmap_err. specialize (Hp c r). destruct (p c r) as [[c1 r1] x]. exact Hp. Qed.
Lemma kp_in_sub {E A} (g : perr -> E) n (p : cparser bctx E A) : keeps p -> keeps (in_sub g n p).
Proof.
  intros Hp. unfold in_sub. apply kp_bind; [apply kp_lift|]. intros sub c r. unfold con_sub.
  specialize (Hp c sub). destruct (p c sub) as [[c1 r1] x]. exact Hp.
Qed.
Lemma kp_many_all {E A} (p : cparser bctx E (option A)) : keeps p -> keeps (cmany_all p).
Proof.
  intros Hp c r. unfold cmany_all. revert c r. intros c r. generalize (S (length (rbuf r))) as fuel.
  intros fuel. revert c r. induction fuel as [|f IH]; intros c r; cbn [cmany].
  - destruct (ris_empty r); reflexivity.
  - destruct (ris_empty r); [reflexivity|]. apply kp_bind; [exact Hp|]. intros x. apply kp_bind; [|intros; apply kp_ret].
    intros c' r'. apply IH.
Qed.
Ltac keep := repeat first
  [ apply kp_ret | apply kp_fail | apply kp_lift | apply kp_map_err | apply kp_in_sub
  | apply kp_many_all | apply kp_bind; [|intros] | match goal with |- keeps (if ?b then _ else _) => destruct b end ].
Lemma kp_cap_step : keeps cap_step.
Proof. intros c r. unfold cap_step. destruct (parse_cap r) as [r' [x|e| |]]; try reflexivity. destruct (x_fail_cap c); reflexivity. Qed.
Lemma kp_check upd pid n : keeps (check_route upd pid n).
Proof.
  intros c r. unfold check_route. destruct (family_ok _ _); [reflexivity|].
  cbv zeta. destruct upd, (x_fail_update c), (x_fail_withdraw c); reflexivity.
Qed.
Lemma kp_route ap upd : keeps (route_step ap upd).
Proof. unfold route_step. keep. apply kp_check. Qed.
Lemma kp_attr_step : keeps attr_step.
Proof.
  intros c r. unfold attr_step. destruct (parse_attr _ _ _ r) as [r' [x|[e|k e]| |]]; try reflexivity.
  destruct (x_fail_attr c); [reflexivity|].
  destruct (handle_attr_error _ _ r') as [r2 [y|e'| |]]; reflexivity.
Qed.
Lemma kp_body t : keeps (parse_body t).
Proof.
  destruct t; cbn [parse_body]; keep; auto using kp_cap_step.
  - intros c r. unfold parse_update. cbv zeta. generalize (add_path_of (x_add_path c) Ipv4Unicast) as ap. intros ap.
    assert (H : keeps (cbind (clift (pmap_err UE_Parse read_u16)) (fun wlen =>
      cbind (in_sub UE_Parse wlen (cmany_all (route_step ap false))) (fun ws =>
      cbind (clift (pmap_err UE_Parse read_u16)) (fun alen =>
      cbind (in_sub UE_Parse alen (cmany_all attr_step)) (fun attrs =>
      cbind (cmany_all (route_step ap true)) (fun ns =>
      cret (mkUpdate ws attrs ns)))))))).
    { keep; auto using kp_check, kp_attr_step. }
    apply H.
Qed.
Lemma kp_bgp : keeps parse_bgp.
Proof.
  unfold parse_bgp, parse_message. keep. destruct x0 as [[l t] sub]. intros c r. unfold cmap_err.
  pose proof (kp_body t c sub) as H. destruct (parse_body t c sub) as [[c' r'] [m|e| |]]; cbn [map_err fst snd] in *; auto.
  destruct (ris_empty r'); exact H.
Qed.

(* every AS_PATH an UPDATE delivers has the width of the context *)
Lemma many_forall {E A} (p : cparser bctx E (option A)) (P : bctx -> A -> Prop) :
  keeps p ->
  (forall c c' x, settings c = settings c' -> P c x -> P c' x) ->
  (forall c r c' r' x, p c r = (c', r', Ok (Some x)) -> P c x) ->
  forall fuel c r c' r' xs, cmany fuel p c r = (c', r', Ok xs) -> Forall (P c) xs.
Proof.
  intros Hk Hs Hp. induction fuel as [|f IH]; intros c r c' r' xs; cbn [cmany].
  - destruct (ris_empty r); [intros H; inversion H; constructor|discriminate].
  - destruct (ris_empty r); [intros H; inversion H; constructor|].
    intros H. apply cbind_ok in H as (o & c1 & r1 & H1 & H). apply cbind_ok in H as (ys & c2 & r2 & H2 & H).
    unfold cret in H. assert (Hset : settings c1 = settings c) by (specialize (Hk c r); rewrite H1 in Hk; exact Hk).
    assert (Hys : Forall (P c) ys).
    { eapply Forall_impl; [|exact (IH _ _ _ _ _ H2)]. intros a. now apply Hs. }
    inversion H; subst. destruct o as [x|]; [constructor; [eapply Hp; exact H1|exact Hys]|exact Hys].
Qed.
Lemma parse_value_width asn4 labels ap code ext r r' w ss :
  parse_value asn4 labels ap code ext r = (r', Ok (AAsPath w ss)) -> w = asn4.
Proof.
  assert (Hin : forall k (p : parser attr_err attr_value) r r' v,
    in_slice k ext p r = (r', Ok v) -> exists s s', p s = (s', Ok v)).
  { intros k p r0 r1 v. unfold in_slice, bind, on_sub.
    destruct (ard k (read_len ext) r0) as [s1 [n| | |]]; try discriminate.
    destruct (ard k (take_slice n) s1) as [s2 [sub| | |]]; try discriminate.
    intros H. exists sub. destruct (p sub) as [s3 y]. cbn [snd] in H. inversion H; subst. eauto. }
  assert (Hb : forall A (p : parser attr_err A) (f : A -> parser attr_err attr_value) r r' v,
    bind p f r = (r', Ok v) -> exists a s, f a s = (r', Ok v)).
  { intros A p f r0 r1 v. unfold bind. destruct (p r0) as [s [a| | |]]; try discriminate. eauto. }
  Ltac wid Hin Hb := repeat match goal with
    | H : in_slice _ _ _ _ = (_, Ok _) |- _ => apply Hin in H as (? & ? & H)
    | H : fixed_len _ _ _ _ _ = (_, Ok _) |- _ => unfold fixed_len in H
    | H : bind _ _ _ = (_, Ok _) |- _ => apply Hb in H as (? & ? & H)
    | H : (if ?b then _ else _) _ = (_, Ok _) |- _ => destruct b
    | H : ret _ _ = (_, Ok _) |- _ => unfold ret in H; inversion H; subst; clear H
    | H : afail _ _ = (_, Ok _) |- _ => unfold afail, fail in H; discriminate H
    | H : match ?o with _ => _ end _ = (_, Ok _) |- _ => destruct o
    end.
  intros H. unfold parse_value in H.
  unfold parse_origin, parse_as_path, parse_u32_attr, parse_atomic, parse_aggregator, parse_communities, parse_originator,
    parse_cluster_list, parse_mp_reach, parse_mp_unreach, parse_ext_comms, parse_as4_path, parse_ext_comms6, parse_aigp,
    parse_opaque, parse_large_comms, parse_otc, parse_unknown in H.
  repeat match goal with H : match ?n with _ => _ end _ = _ |- _ => destruct n end;
    wid Hin Hb; reflexivity.
Qed.
Lemma attr_step_width c r c' r' a : attr_step c r = (c', r', Ok (Some a)) ->
  match pa_val a with AAsPath w _ => w = x_asn4 c | _ => True end.
Proof.
  unfold attr_step. destruct (parse_attr _ _ _ r) as [r1 [x|[e|k e]| |]] eqn:Hp; try (intros H; inversion H; fail).
  - intros H. inversion H; subst. unfold parse_attr in Hp. unfold bind in Hp.
    destruct (pmap_err AE_Header read_u8 r) as [s1 [fl| | |]]; try discriminate.
    destruct (pmap_err AE_Header read_u8 s1) as [s2 [code| | |]]; try discriminate. cbv zeta in Hp.
    destruct (parse_value _ _ _ _ _ s2) as [s3 [v| | |]] eqn:Hv; try discriminate.
    destruct (flags_ok _ _ _ v); [|discriminate]. unfold ret in Hp. inversion Hp; subst. cbn [pa_val].
    destruct v; try exact I. eapply parse_value_width; exact Hv.
  - destruct (x_fail_attr c); [intros H; inversion H|].
    destruct (handle_attr_error _ _ r1) as [r2 [y|e'| |]]; intros H; inversion H.
Qed.
Lemma update_width c r c' r' u : parse_update c r = (c', r', Ok u) -> as_paths_have_width (x_asn4 c) u.
Proof.
  unfold parse_update. cbv zeta. intros H.
  apply cbind_ok in H as (wl & c1 & r1 & H1 & H). apply clift_ok in H1 as [-> _].
  apply cbind_ok in H as (ws & c2 & r2 & H2 & H).
  assert (Hs2 : settings c2 = settings c).
  { pose proof (kp_in_sub UE_Parse wl _ (kp_many_all _ (kp_route (add_path_of (x_add_path c) Ipv4Unicast) false)) c r1) as K.
    rewrite H2 in K. exact K. }
  apply cbind_ok in H as (al & c3 & r3 & H3 & H). apply clift_ok in H3 as [-> _].
  apply cbind_ok in H as (ats & c4 & r4 & H4 & H).
  apply cbind_ok in H as (ns & c5 & r5 & H5 & H). unfold cret in H. inversion H; subst. clear H.
  unfold as_paths_have_width. cbn [u_attrs].
  unfold in_sub in H4. apply cbind_ok in H4 as (sub & c6 & r6 & H6 & H4). apply clift_ok in H6 as [-> _].
  unfold con_sub in H4. destruct (cmany_all attr_step c2 sub) as [[c7 r7] y] eqn:Hm. inversion H4; subst.
  unfold cmany_all in Hm.
  replace (x_asn4 c) with (x_asn4 c2) by (apply (f_equal x_asn4) in Hs2; exact Hs2).
  refine (many_forall attr_step (fun c a => match pa_val a with AAsPath w _ => w = x_asn4 c | _ => True end)
            kp_attr_step _ _ _ _ _ _ _ _ Hm).
  - intros a b x He. apply (f_equal x_asn4) in He. cbn in He. rewrite He. auto.
  - intros a ra b rb x Hx. eapply attr_step_width; exact Hx.
Qed.

(* ---- sessions ---- *)
Definition is_open (m : option bgp_msg) : bool := match m with Some (MOpen _) => true | _ => false end.
(* the announcement of the last OPEN, or what was known before *)
Definition known (init : option bool) (ms : list (option bgp_msg)) : option bool :=
  fold_left (fun acc m => match m with Some (MOpen o) => Some (announces_asn4 o) | _ => acc end) ms init.
Lemma known_last ms : agreed (Some true) (known None ms) = last_announced ms.
Proof.
  unfold known, last_announced. rewrite <- fold_left_rev_right.
  induction (rev ms) as [|m r IH]; [reflexivity|]. cbn [fold_right filter].
  destruct m as [[o|u|n| |rr]|]; cbn [filter]; auto. destruct (announces_asn4 o); reflexivity.
Qed.
Lemma agreed_known ss vs : agreed (known None ss) (known None vs) = last_announced ss && last_announced vs.
Proof.
  rewrite <- !known_last. destruct (known None ss) as [[]|], (known None vs) as [[]|]; reflexivity.
Qed.
Lemma session_known ops : forall k k' ss vs, session k ops = (k', ss, vs) ->
  k_sent k' = known (k_sent k) ss /\ k_recv k' = known (k_recv k) vs.
Proof.
  induction ops as [|op ops IH]; intros k k' ss vs; cbn [session].
  - intros H; inversion H; subst; split; reflexivity.
  - destruct (session_step k op) as [[k1 s] v] eqn:Hs. destruct (session k1 ops) as [[k2 ss2] vs2] eqn:Hr.
    intros H; inversion H; subst. destruct (IH _ _ _ _ Hr) as [IH1 IH2]. rewrite IH1, IH2.
    unfold known. cbn [fold_left].
    destruct op as [m|b]; cbn [session_step] in Hs.
    + inversion Hs; subst. unfold encode_bgp. cbn [fst k_sent k_recv]. destruct m; split; reflexivity.
    + unfold decode_bgp, bgp_decode in Hs.
      destruct (19 <=? blen b); [|inversion Hs; subst; split; reflexivity].
      destruct (blen b <? _); [inversion Hs; subst; split; reflexivity|].
      destruct (parse_message _ _ _) as [[c' r'] [m|e| |]]; cbn [op_reset bgp_ops] in Hs; try (inversion Hs; subst; split; reflexivity).
      unfold reset_errors in Hs. inversion Hs; subst. cbn [k_sent k_recv].
      destruct m; split; reflexivity.
Qed.
Lemma decode_update_width k b k' b' u ig : decode_bgp k b = (k', b', DItem (MUpdate u, ig)) ->
  as_paths_have_width (agreed (k_sent k) (k_recv k)) u.
Proof.
  unfold decode_bgp, bgp_decode. destruct (19 <=? blen b); [|discriminate]. destruct (blen b <? _); [discriminate|].
  assert (Ha : unwrap_or_false (k_recv k) && unwrap_or_false (k_sent k) = agreed (k_sent k) (k_recv k)).
  { destruct (k_sent k) as [[]|], (k_recv k) as [[]|]; reflexivity. }
  rewrite Ha. cbn [op_set_asn4 op_reset bgp_ops]. set (x := set_asn4 _ _). set (f := rnew _).
  destruct (parse_message parse_body x f) as [[c' r'] [m|e| |]] eqn:Hp; try discriminate.
  unfold reset_errors. intros H; inversion H; subst. change (agreed _ _) with (x_asn4 x).
  unfold parse_message in Hp.
  apply cbind_ok in Hp as (h & c1 & r1 & H1 & Hp). apply clift_ok in H1 as [-> _].
  destruct (negb _); [discriminate|].
  apply cbind_ok in Hp as ([[l t] sub] & c2 & r2 & H2 & Hp). apply clift_ok in H2 as [-> _].
  destruct (cmap_err BE_Body (parse_body t) x sub) as [[c3 r3] [m|e| |]] eqn:Hb; try discriminate.
  apply cmap_err_ok in Hb. destruct (ris_empty r3); [|discriminate]. inversion Hp; subst. clear Hp.
  destruct t; cbn [parse_body] in Hb.
  2:{ apply cbind_ok in Hb as (u' & c4 & r4 & H4 & Hb). apply cmap_err_ok in H4.
      unfold cret in Hb. inversion Hb; subst. eapply update_width; exact H4. }
  all: try (unfold cret in Hb; inversion Hb; fail).
  all: apply cbind_ok in Hb as (y & c4 & r4 & H4 & Hb); unfold cret in Hb; inversion Hb.
Qed.

(* ---- errors and tolerated errors ---- *)
Lemma be_enc_len_le k v : blen (be_enc k v) = N.of_nat k. Proof. apply be_enc_blen. Qed.
Lemma notif_of_fits e : notif_fits (notif_of e).
Proof.
  unfold notif_fits, iana_error.
  destruct e as [p|h|c|l|l n|[oe|ue|ne|re]]; cbn [notif_of open_notif update_notif n_code n_sub n_data].
  1-5: split; [left; split; [reflexivity|lia]|rewrite ?be_enc_blen, ?blen_cons, ?blen_nil; lia].
  - split.
    + right; left. destruct oe; split; try reflexivity; cbn; tauto.
    + destruct oe; cbn [open_notif n_data]; rewrite ?be_enc_blen, ?blen_cons, ?blen_nil; lia.
  - split; [|vm_compute; discriminate]. right; right; left. split; [reflexivity|].
    destruct ue as [pe|ae|xe|nn]; [destruct pe|destruct ae as [|k ?]; [|destruct k]|destruct xe|]; cbn; tauto.
  - split; [|vm_compute; discriminate]. do 4 right; left. split; [reflexivity|lia].
  - split; [|vm_compute; discriminate]. do 6 right. split; reflexivity.
Qed.
Lemma pe_slice_end k (ext : bool) (p : parser attr_err attr_value) v rest off :
  (if ext then blen v < 65536 else blen v < 256) ->
  fst (in_slice k ext p (mkR (enc_length ext (blen v) ++ v ++ rest) off)) =
    mkR rest (off + blen (enc_length ext (blen v)) + blen v).
Proof.
  intros Hl. unfold in_slice. unfold bind at 1. unfold ard at 1. unfold pmap_err.
  rewrite (p_read_len ext (blen v) Hl (v ++ rest) off). cbn [map_err].
  unfold bind, ard, pmap_err, take_slice.
  rewrite (parses_bytes v (blen v) eq_refl rest). cbn [map_err]. unfold on_sub. reflexivity.
Qed.
Lemma extended_flag flags : flag_set 16 flags = extended flags.
Proof.
  unfold flag_set, extended. change 16 with (2 ^ 4). destruct (N.testbit flags 4) eqn:Hb.
  - apply N.eqb_eq. apply N.bits_inj. intros i. rewrite N.land_spec, N.pow2_bits_eqb.
    destruct (N.eqb_spec 4 i) as [<-|]; [now rewrite Hb|apply andb_false_r].
  - apply N.eqb_neq. intros H. apply (f_equal (fun x => N.testbit x 4)) in H.
    rewrite N.land_spec, N.pow2_bits_true, Hb in H. discriminate.
Qed.
Lemma attr_tlv_enc flags code v : tlv_len_ok flags v ->
  attr_tlv flags code v = [flags] ++ [code] ++ enc_length (flag_set 16 flags) (blen v) ++ v.
Proof.
  unfold tlv_len_ok, attr_tlv, enc_length. rewrite extended_flag. destruct (extended flags); intros H.
  - cbn [orb app]. replace (blen v + 1 - 1) with (blen v) by lia. rewrite be_enc_2, (N.mod_small (_ / 256)) by lia.
    reflexivity.
  - replace (blen v + 0) with (blen v) by lia. replace (255 <? blen v) with false by lia. cbn [orb app].
    unfold as_u8. rewrite N.mod_small by lia. reflexivity.
Qed.
(* a malformed AS_PATH is skipped exactly *)
Lemma as_path_skipped c flags code v rest off r' e :
  x_fail_attr c = false -> In code [2; 17] -> tlv_len_ok flags v ->
  parse_attr (x_asn4 c) (x_labels c) (x_add_path c) (mkR (attr_tlv flags code v ++ rest) off) =
    (r', Err (AE_Attr KAsPath e)) -> e = None ->
  attr_step c (mkR (attr_tlv flags code v ++ rest) off) =
    (push_attr (AE_Attr KAsPath e) c, mkR rest (off + blen (attr_tlv flags code v)), Ok None).
Proof.
  intros Hfa Hc Hl Hp ->. unfold attr_step. rewrite Hp, Hfa. cbn [handle_attr_error].
  unfold pmap_err, take_slice, read_bytes. replace (blen (rbuf r') <? 0) with false by lia. cbn [map_err].
  f_equal. f_equal. rewrite (attr_tlv_enc flags code v Hl) in *. unfold parse_attr in Hp. rewrite <- !app_assoc in Hp.
  unfold bind at 1 2 in Hp. unfold pmap_err in Hp at 1 2. unfold read_u8 in Hp at 1 2. cbn [rbuf roff app map_err] in Hp.
  set (ext := flag_set 16 flags) in *. unfold bind in Hp.
  assert (Hext : if ext then blen v < 65536 else blen v < 256).
  { unfold tlv_len_ok in Hl. unfold ext. rewrite extended_flag. exact Hl. }
  assert (Hv : exists p, parse_value (x_asn4 c) (x_labels c) (x_add_path c) code ext = in_slice KAsPath ext p).
  { destruct Hc as [<-|[<-|[]]]; eexists; reflexivity. }
  destruct Hv as [p Hv]. rewrite Hv in Hp.
  pose proof (pe_slice_end KAsPath ext p v rest (off + 1 + 1) Hext) as Hq.
  destruct (in_slice KAsPath ext p (mkR (enc_length ext (blen v) ++ v ++ rest) (off + 1 + 1))) as [r1 [y|e| |]];
    cbn [fst] in Hq; subst r1.
  - destruct (flags_ok _ _ _ y); [discriminate|]. unfold afail, fail in Hp. discriminate.
  - inversion Hp; subst. cbn [rbuf roff]. change (drop 0 rest) with rest.
    f_equal. cbn [app]. rewrite !blen_cons, blen_app. lia.
  - discriminate.
  - discriminate.
Qed.
(* capabilities read in their own slice *)
Lemma cap_tlv_outcome code v : In code [5; 64; 69; 73] -> blen v < 256 -> forall off, exists o, forall rest,
  parse_cap (mkR (cap_tlv code v ++ rest) off) = (mkR rest (off + blen (cap_tlv code v)), o).
Proof.
  intros Hc Hl off. 
  assert (Hv : exists p, parse_cap_value code =
    bind (crd read_u8) (fun len => bind (crd (take_slice len)) (fun sub => on_sub sub p)) /\ safe p).
  { assert (Hsc := safe_cap_value code).
    destruct Hc as [<-|[<-|[<-|[<-|[]]]]]; eexists; (split; [reflexivity|]).
    - apply safe_bind; [|intros; apply safe_ret]. apply safe_many_all.
      + unfold parse_enh, enh_body, crd, chk_afi, chk_safi, chk_at. psafe.
      + apply strict_bind_l; [apply strict_map_err, strict_take_slice; lia|].
        intros. unfold enh_body, crd, chk_afi, chk_safi, chk_at. psafe.
    - unfold gr_body. apply safe_bind; [unfold crd; psafe|intros]. apply safe_bind; [|intros; apply safe_ret].
      apply safe_many_all.
      + unfold parse_gr_family, gr_family_body, crd, chk_afi, chk_safi, chk_at. psafe.
      + apply strict_bind_l; [apply strict_map_err, strict_take_slice; lia|].
        intros. unfold gr_family_body, crd, chk_afi, chk_safi, chk_at. psafe.
    - apply safe_bind; [|intros; apply safe_ret]. apply safe_many_all.
      + unfold parse_ap_family, crd, chk_afi, chk_safi, chk_at. psafe.
      + apply strict_bind_l; [apply strict_map_err, strict_be; lia|].
        intros. unfold crd, chk_afi, chk_safi, chk_at. psafe.
    - unfold read_name, crd. psafe. }
  destruct Hv as (p & Hv & Hs).
  exists (snd (p (mkR v (off + 2)))). intros rest.
  unfold parse_cap, cap_tlv. cbn [app]. unfold bind at 1. unfold crd at 1, pmap_err, read_u8. cbn [rbuf roff map_err].
    rewrite Hv. unfold bind, crd, pmap_err, read_u8, take_slice. cbn [rbuf roff map_err].
    rewrite (parses_bytes v (blen v) eq_refl rest). cbn [map_err]. unfold on_sub. cbn [roff].
    replace (off + 1 + 1) with (off + 2) by lia.
    rewrite !blen_cons. f_equal. f_equal. lia.
Qed.
(* ---- a list with one element that is skipped ---- *)
Lemma many_skip {E A} (p : cparser bctx E (option A)) c c' (enc : A -> list N) xs ys bad r' off fuel :
  (forall x, In x xs -> cparses p c (enc x) (Some x) /\ enc x <> []) ->
  bad <> [] -> (forall rest o, p c (mkR (bad ++ rest) o) = (c', mkR rest (o + blen bad), Ok None)) ->
  (forall o f, (length (flat_map enc ys) < f)%nat -> cmany f p c' (mkR (flat_map enc ys) o) = (c', r' (o + blen (flat_map enc ys)), Ok ys)) ->
  (length (flat_map enc xs ++ bad ++ flat_map enc ys) < fuel)%nat ->
  cmany fuel p c (mkR (flat_map enc xs ++ bad ++ flat_map enc ys) off) =
    (c', r' (off + blen (flat_map enc xs ++ bad ++ flat_map enc ys)), Ok (xs ++ ys)).
Proof.
  intros Hx Hb Hbad Hy. revert fuel off. induction xs as [|x xs IH]; intros fuel off Hf.
  - cbn [flat_map app] in *. destruct fuel as [|fuel]; [lia|]. cbn [cmany].
    assert (He : ris_empty (mkR (bad ++ flat_map enc ys) off) = false).
    { unfold ris_empty. cbn [rbuf]. destruct bad; [contradiction|reflexivity]. }
    rewrite He. unfold cbind at 1. rewrite Hbad. unfold cbind at 1. rewrite app_length in Hf.
    rewrite Hy by (destruct bad; [contradiction|cbn [length] in Hf; lia]). unfold cret.
    rewrite blen_app, N.add_assoc. reflexivity.
  - cbn [flat_map] in *. rewrite <- app_assoc in *. destruct fuel as [|fuel]; [lia|]. cbn [cmany].
    destruct (Hx x (or_introl eq_refl)) as [Hp Hne].
    assert (He : ris_empty (mkR (enc x ++ flat_map enc xs ++ bad ++ flat_map enc ys) off) = false).
    { unfold ris_empty. cbn [rbuf]. destruct (enc x); [contradiction|reflexivity]. }
    rewrite He. unfold cbind at 1. rewrite Hp. unfold cbind at 1. rewrite app_length in Hf.
    rewrite IH; [|intros y Hin; apply Hx; now right|destruct (enc x); [contradiction|cbn [length] in Hf; lia]].
    unfold cret. rewrite (blen_app (enc x)), N.add_assoc. reflexivity.
Qed.
Lemma many_skip_all {E A} (p : cparser bctx E (option A)) c c' (enc : A -> list N) xs ys bad off :
  (forall x, In x xs -> cparses p c (enc x) (Some x) /\ enc x <> []) ->
  (forall x, In x ys -> cparses p c' (enc x) (Some x) /\ enc x <> []) ->
  bad <> [] -> (forall rest o, p c (mkR (bad ++ rest) o) = (c', mkR rest (o + blen bad), Ok None)) ->
  cmany_all p c (mkR (flat_map enc xs ++ bad ++ flat_map enc ys) off) =
    (c', mkR [] (off + blen (flat_map enc xs ++ bad ++ flat_map enc ys)), Ok (xs ++ ys)).
Proof.
  intros Hx Hy Hb Hbad. unfold cmany_all. apply (many_skip p c c' enc xs ys bad (fun o => mkR [] o)); auto.
  intros o f Hf. apply (cp_many p c' enc ys f Hy).
  pose proof (flat_map_len_le enc ys (fun x Hin => proj2 (Hy x Hin))). lia.
Qed.
Lemma attr_step_written c a : attr_sendable (x_asn4 c) (x_labels c) (x_add_path c) a ->
  cparses attr_step c (attr_octets a) (Some a) /\ attr_octets a <> [].
Proof.
  intros Ha. destruct (attr_octets_ok _ _ _ _ Ha) as (_ & Hp & _ & Hne). split; [|exact Hne].
  intros rest off. unfold attr_step. rewrite Hp. reflexivity.
Qed.
(* an UPDATE that only carries attributes, one of them skipped *)
Lemma update_skips c e xs ys bad b1 b2 :
  Forall (attr_sendable (x_asn4 c) (x_labels c) (x_add_path c)) xs ->
  Forall (attr_sendable (x_asn4 c) (x_labels c) (x_add_path c)) ys ->
  write_attrs xs = Ok b1 -> write_attrs ys = Ok b2 -> bad <> [] ->
  (forall rest o, attr_step c (mkR (bad ++ rest) o) = (push_attr e c, mkR rest (o + blen bad), Ok None)) ->
  blen (b1 ++ bad ++ b2) < 65536 ->
  exists off, parse_update c (rnew ([0; 0] ++ be_enc 2 (blen (b1 ++ bad ++ b2)) ++ b1 ++ bad ++ b2)) =
    (push_attr e c, mkR [] off, Ok (mkUpdate [] (xs ++ ys) [])).
Proof.
  intros Hx Hy Hw1 Hw2 Hb Hbad Hl.
  destruct (write_attrs_ok _ _ _ _ Hx) as [H1 _]. rewrite H1 in Hw1. apply Ok_inj in Hw1. subst b1.
  destruct (write_attrs_ok _ _ _ _ Hy) as [H2 _]. rewrite H2 in Hw2. apply Ok_inj in Hw2. subst b2.
  set (blk := flat_map attr_octets xs ++ bad ++ flat_map attr_octets ys) in *.
  assert (Hm : forall off, cmany_all attr_step c (mkR blk off) = (push_attr e c, mkR [] (off + blen blk), Ok (xs ++ ys))).
  { intros off. apply many_skip_all; auto.
    - intros a Ha. rewrite Forall_forall in Hx. apply attr_step_written; auto.
    - intros a Ha. rewrite Forall_forall in Hy. apply (attr_step_written (push_attr e c) a (Hy a Ha)). }
  unfold parse_update. cbv zeta. unfold rnew.
  change ([0; 0] ++ be_enc 2 (blen blk) ++ blk) with (be_enc 2 0 ++ be_enc 2 (blen blk) ++ blk).
  unfold cbind at 1. unfold clift at 1, pmap_err. rewrite (parses_u16 0 ltac:(lia)). cbn [map_err].
  unfold cbind at 1. unfold in_sub at 1. unfold cbind at 1, clift at 1, pmap_err, take_slice at 1, read_bytes.
  cbn [rbuf roff]. replace (blen _ <? 0) with false by lia. cbn [map_err].
  unfold con_sub. cbn [take drop]. unfold cmany_all at 1. cbn [rbuf length cmany ris_empty]. 
  change (take 0 (be_enc 2 (blen blk) ++ blk)) with (@nil N).
  change (drop 0 (be_enc 2 (blen blk) ++ blk)) with (be_enc 2 (blen blk) ++ blk).
  cbn [length cmany ris_empty rbuf].
  unfold cbind at 1. unfold clift at 1, pmap_err. rewrite (parses_u16 (blen blk) Hl). cbn [map_err].
  unfold cbind at 1. unfold in_sub. unfold cbind at 1, clift at 1, pmap_err, take_slice, read_bytes.
  cbn [rbuf roff]. replace (blen blk <? blen blk) with false by lia. cbn [map_err].
  assert (Ht : take (blen blk) blk = blk) by (rewrite <- (app_nil_r blk) at 2; apply take_app_exact; reflexivity).
  assert (Hd : drop (blen blk) blk = []) by (rewrite <- (app_nil_r blk) at 2; apply drop_app_exact; reflexivity).
  rewrite Ht, Hd. unfold con_sub. rewrite Hm. eexists. reflexivity.
Qed.
Lemma slice_outcome k (ext : bool) (p : parser attr_err attr_value) v rest off :
  (if ext then blen v < 65536 else blen v < 256) ->
  in_slice k ext p (mkR (enc_length ext (blen v) ++ v ++ rest) off) =
    (mkR rest (off + blen (enc_length ext (blen v)) + blen v), snd (p (mkR v (off + blen (enc_length ext (blen v)))))).
Proof.
  intros Hl. unfold in_slice. unfold bind at 1. unfold ard at 1. unfold pmap_err.
  rewrite (p_read_len ext (blen v) Hl (v ++ rest) off). cbn [map_err].
  unfold bind, ard, pmap_err, take_slice.
  rewrite (parses_bytes v (blen v) eq_refl rest). cbn [map_err]. unfold on_sub. reflexivity.
Qed.
Lemma as_path_alone asn4 labels ap flags code v off :
  In code [2; 17] -> tlv_len_ok flags v -> exists o, forall rest,
  snd (parse_attr asn4 labels ap (mkR (attr_tlv flags code v ++ rest) off)) = o.
Proof.
  intros Hc Hl. pose proof (attr_tlv_enc flags code v Hl) as Ht.
  set (ext := flag_set 16 flags) in *.
  assert (Hext : if ext then blen v < 65536 else blen v < 256).
  { unfold tlv_len_ok in Hl. unfold ext. rewrite extended_flag. exact Hl. }
  assert (Hv : exists p, parse_value asn4 labels ap code ext = in_slice KAsPath ext p).
  { destruct Hc as [<-|[<-|[]]]; eexists; reflexivity. }
  destruct Hv as [p Hv].
  exists (match snd (p (mkR v (off + 1 + 1 + blen (enc_length ext (blen v))))) with
          | Ok y => if flags_ok (flag_set 128 flags) (flag_set 64 flags) (flag_set 32 flags) y
                    then Ok (mkPattr (flag_set 128 flags) (flag_set 64 flags) (flag_set 32 flags) ext y)
                    else Err (AE_Attr KFlags None)
          | Err e => Err e | Panic => Panic | Diverge => Diverge end).
  intros rest. rewrite Ht. unfold parse_attr. rewrite <- !app_assoc.
  unfold bind at 1 2. unfold pmap_err at 1 2. unfold read_u8 at 1 2. cbn [rbuf roff app map_err].
  cbv zeta. fold ext. unfold bind. rewrite Hv.
  rewrite (slice_outcome KAsPath ext p v rest _ Hext).
  destruct (snd (p _)) as [y|e| |]; try reflexivity.
  destruct (flags_ok _ _ _ y); reflexivity.
Qed.
Lemma update_as_path_skipped c flags code v xs ys b1 b2 :
  x_fail_attr c = false -> In code [2; 17] -> tlv_len_ok flags v ->
  (forall off, snd (parse_attr (x_asn4 c) (x_labels c) (x_add_path c) (mkR (attr_tlv flags code v) off)) =
               Err (AE_Attr KAsPath None)) ->
  Forall (attr_sendable (x_asn4 c) (x_labels c) (x_add_path c)) xs ->
  Forall (attr_sendable (x_asn4 c) (x_labels c) (x_add_path c)) ys ->
  write_attrs xs = Ok b1 -> write_attrs ys = Ok b2 ->
  let blk := b1 ++ attr_tlv flags code v ++ b2 in
  blen blk < 65536 ->
  exists off, parse_update c (rnew ([0; 0] ++ be_enc 2 (blen blk) ++ blk)) =
    (push_attr (AE_Attr KAsPath None) c, mkR [] off, Ok (mkUpdate [] (xs ++ ys) [])).
Proof.
  intros Hf Hc Hl He Hx Hy H1 H2 blk Hb. apply update_skips; auto; [discriminate|].
  intros rest o. destruct (as_path_alone (x_asn4 c) (x_labels c) (x_add_path c) flags code v o Hc Hl) as [out Ho].
  pose proof (Ho []) as H0. rewrite app_nil_r, He in H0. subst out. specialize (Ho rest).
  destruct (parse_attr _ _ _ (mkR (attr_tlv flags code v ++ rest) o)) as [r' x] eqn:Hp. cbn [snd] in Ho. subst x.
  exact (as_path_skipped c flags code v rest o r' None Hf Hc Hl Hp eq_refl).
Qed.
Lemma param_cap_skipped c code v cs ds b1 b2 e :
  x_fail_cap c = false -> In code [5; 64; 69; 73] -> blen v < 256 ->
  (forall off, snd (parse_cap (mkR (cap_tlv code v) off)) = Err e) ->
  Forall (fun x => cap_fits x /\ not_multiple_labels x) cs ->
  Forall (fun x => cap_fits x /\ not_multiple_labels x) ds ->
  write_caps cs = Ok b1 -> write_caps ds = Ok b2 ->
  let blk := b1 ++ cap_tlv code v ++ b2 in
  forall rest off, exists off',
    parse_cap_param c (mkR (blen blk :: blk ++ rest) off) = (push_cap e c, mkR rest off', Ok (cs ++ ds)).
Proof.
  intros Hf Hc Hl He Hx Hy Hw1 Hw2 blk rest off.
  destruct (write_caps_ok cs Hx) as [H1 _]. rewrite H1 in Hw1. apply Ok_inj in Hw1. subst b1.
  destruct (write_caps_ok ds Hy) as [H2 _]. rewrite H2 in Hw2. apply Ok_inj in Hw2. subst b2.
  unfold parse_cap_param, cbind at 1, clift, pmap_err, read_u8. cbn [rbuf roff map_err].
  unfold in_sub, cbind, clift, pmap_err, take_slice, read_bytes. cbn [rbuf roff].
  rewrite blen_app. replace (blen blk + blen rest <? blen blk) with false by lia.
  rewrite drop_app_exact, take_app_exact by reflexivity. cbn [map_err]. unfold con_sub.
  unfold blk. rewrite (many_skip_all cap_step c (push_cap e c) cap_octets cs ds (cap_tlv code v)).
  - eexists. reflexivity.
  - intros x Hin. rewrite Forall_forall in Hx. split; [apply cp_cap_step, (Hx x Hin)|].
    now destruct (cap_octets_ok x (Hx x Hin)) as (_ & _ & _ & ?).
  - intros x Hin. rewrite Forall_forall in Hy. split; [apply cp_cap_step, (Hy x Hin)|].
    now destruct (cap_octets_ok x (Hy x Hin)) as (_ & _ & _ & ?).
  - discriminate.
  - intros rs o. destruct (cap_tlv_outcome code v Hc Hl o) as (out & Ho).
    unfold cap_step. rewrite Ho. specialize (He o). pose proof (Ho []) as H0. rewrite app_nil_r in H0.
    rewrite H0 in He. cbn [snd] in He. subst out. rewrite Hf. reflexivity.
Qed.
(* ---- tolerated errors are handed out with their message ---- *)
Lemma forget_clean k : x_ign (k_ctx k) = no_ignored -> forget_errors k = k.
Proof. destruct k as [s v [a b c d e f g i]]. cbn. intros ->. reflexivity. Qed.
Lemma session_clean ops : forall k k' ss vs, session k ops = (k', ss, vs) -> no_decode_error k ops ->
  x_ign (k_ctx k) = no_ignored -> x_ign (k_ctx k') = no_ignored.
Proof.
  induction ops as [|op ops IH]; intros k k' ss vs; cbn [session no_decode_error].
  { intros H _ H0; inversion H; subst; exact H0. }
  destruct (session_step k op) as [[k1 s] v] eqn:Hs. destruct (session k1 ops) as [[k2 ss2] vs2] eqn:Hr.
  intros H [He Hn] H0; inversion H; subst. cbn [fst] in Hn. apply (IH _ _ _ _ Hr Hn).
  destruct op as [m|b]; cbn [session_step] in Hs.
  - inversion Hs; subst. exact H0.
  - destruct (decode_bgp k b) as [[k3 b3] o] eqn:Hd. cbn [snd] in He.
    assert (Hk3 : x_ign (k_ctx k3) = no_ignored \/ (exists e, o = DErr e) \/ o = DPanic).
    { unfold decode_bgp, bgp_decode in Hd.
      destruct (19 <=? blen b); [|inversion Hd; subst; now left].
      destruct (blen b <? _); [inversion Hd; subst; now left|].
      destruct (parse_message _ _ _) as [[c' r'] [m|e| |]]; cbn [op_reset bgp_ops] in Hd; inversion Hd; subst; eauto. }
    destruct Hk3 as [Hk3|[[e ->]| ->]].
    + destruct o as [|[m ig]|e|]; inversion Hs; subst; exact Hk3.
    + exfalso. exact (proj1 (He e) eq_refl).
    + exfalso. exact (proj2 (He (BE_Length 0)) eq_refl).
Qed.
