From Verif Require Import Base MapLib EnModel EnSpec EnProofs InModel InSpec InLabelProofs.

Lemma inventory_snoc ms m id : inventory (ms ++ [m]) id = told (inventory ms id) id m.
Proof. unfold inventory. now rewrite fold_left_app. Qed.
Lemma never_shared_prefix ms m : never_shared (ms ++ m) -> never_shared ms.
Proof. intros H a b -> i j x y. apply (H a (b ++ m)). now rewrite app_assoc. Qed.
Lemma never_shared_now ms i j a b : never_shared ms -> inventory ms i = Some a -> inventory ms j = Some b -> n_loop a = n_loop b -> i = j.
Proof. intros H. apply (H ms []). now rewrite app_nil_r. Qed.

Section Store.
Context {C O : Type}.
Variables (app : C -> O -> C) (mk : sact -> O) (ok : C -> Prop) (G : C -> N -> option (N * N) -> Prop) (fine : O -> Prop).
Hypothesis ok_app : forall c o, ok c -> ok (app c o).
Hypothesis G_forget : forall c a ip x, ok c -> (ip <> a -> G c ip x) -> (exists y, G c ip y) -> G (app c (mk (AForget a))) ip (if ip =? a then None else x).
Hypothesis G_set : forall c a h p ip x, ok c -> (ip <> a -> G c ip x) -> (exists y, G c ip y) -> G (app c (mk (ASet a h p))) ip (if ip =? a then Some (h, p) else x).
Hypothesis G_other : forall c o ip x, ok c -> fine o -> G c ip x -> G (app c o) ip x.

(* what the store should hold for an address *)
Definition content (ms : list smsg) (ip : N) (x : option (N * N)) : Prop :=
  (exists n, holder ms ip n /\ x = Some (n_host n, n_plat n)) \/ ((forall n, ~ holder ms ip n) /\ x = None).
Definition inv (ms : list smsg) (ids : list (N * N)) (c : C) : Prop :=
  ok c /\ (forall id, mget N.eqb id ids = option_map n_loop (inventory ms id)) /\ (forall ip, exists x, G c ip x /\ content ms ip x).

Lemma content_unique ms ip x y : never_shared ms -> content ms ip x -> content ms ip y -> x = y.
Proof.
  intros Hn [(n & Hn1 & ->)|[Hx ->]] [(m & Hm1 & ->)|[Hy ->]]; try reflexivity; try (exfalso; eapply Hx; eassumption); try (exfalso; eapply Hy; eassumption).
  destruct Hn1 as (i & Hi & Ei), Hm1 as (j & Hj & Ej). assert (i = j) by (eapply never_shared_now; eauto; congruence). subst j. congruence.
Qed.
(* a message that leaves the inventory as it was *)
Lemma inv_same ms m ids c : inv ms ids c -> (forall id, told (inventory ms id) id m = inventory ms id) -> inv (ms ++ [m]) ids c.
Proof.
  intros (H1 & H2 & H3) Ht. split; [exact H1|]. assert (Hi : forall id, inventory (ms ++ [m]) id = inventory ms id) by (intros id; rewrite inventory_snoc; apply Ht). split; [intros id; now rewrite Hi|].
  intros ip. destruct (H3 ip) as (x & Hx & Hc). exists x. split; [exact Hx|]. destruct Hc as [(n & (id & Hn) & ->)|[Hc ->]]; [left; exists n; split; [exists id; now rewrite Hi|reflexivity]|].
  right. split; [|reflexivity]. intros n (id & Hn). rewrite Hi in Hn. apply (Hc n). now exists id.
Qed.
Lemma inv_step ms m ids c : never_shared (ms ++ [m]) -> inv ms ids c ->
  inv (ms ++ [m]) (fst (sonata_step ids m)) (fold_left app (map mk (snd (sonata_step ids m))) c).
Proof.
  intros Hs Hv. pose proof (never_shared_prefix _ _ Hs) as Hs0. destruct Hv as (H1 & H2 & H3) eqn:Ev. clear Ev.
  destruct m as [id [n|]|id|]; cbn [sonata_step]; [| apply inv_same; auto | | apply inv_same; auto].
  - (* put *)
    cbn [fst snd]. set (ids' := mset N.eqb id (n_loop n) ids).
    assert (Hinv : forall j, inventory (ms ++ [SPut id (Some n)]) j = if id =? j then Some n else inventory ms j) by (intros j; rewrite inventory_snoc; reflexivity).
    assert (Hids : forall j, mget N.eqb j ids' = option_map n_loop (inventory (ms ++ [SPut id (Some n)]) j)).
    { intros j. unfold ids'. rewrite (mget_mset _ N.eqb_spec), Hinv, (N.eqb_sym j id). destruct (id =? j); [reflexivity|apply H2]. }
    assert (Hset : forall c' , ok c' ->
              (forall ip, ip <> n_loop n -> exists x, G c' ip x /\ content (ms ++ [SPut id (Some n)]) ip x) -> (exists y, G c' (n_loop n) y) ->
              inv (ms ++ [SPut id (Some n)]) ids' (app c' (mk (ASet (n_loop n) (n_host n) (n_plat n))))).
    { intros c' Ho Hall Hy. split; [now apply ok_app|]. split; [exact Hids|]. intros ip. destruct (N.eqb_spec ip (n_loop n)) as [->|Hne].
      - exists (Some (n_host n, n_plat n)). split.
        + pose proof (G_set c' (n_loop n) (n_host n) (n_plat n) (n_loop n) None Ho ltac:(congruence) Hy) as Hg. now rewrite N.eqb_refl in Hg.
        + left. exists n. split; [|reflexivity]. exists id. now rewrite Hinv, N.eqb_refl.
      - destruct (Hall ip Hne) as (x & Hx & Hc). exists x. split; [|exact Hc].
        pose proof (G_set c' (n_loop n) (n_host n) (n_plat n) ip x Ho ltac:(auto) (ex_intro _ x Hx)) as Hg. apply N.eqb_neq in Hne. now rewrite Hne in Hg. }
    (* content away from the new address, and from the old one *)
    assert (Haway : forall ip x, ip <> n_loop n -> (forall o, inventory ms id = Some o -> n_loop o <> ip) -> content ms ip x -> content (ms ++ [SPut id (Some n)]) ip x).
    { intros ip x Hne Hold [(m & (j & Hj & Ej) & ->)|[Hno ->]].
      - left. exists m. split; [|reflexivity]. exists j. rewrite Hinv. destruct (N.eqb_spec id j) as [<-|]; [|now split]. exfalso. now apply (Hold m).
      - right. split; [|reflexivity]. intros m (j & Hj & Ej). rewrite Hinv in Hj. destruct (id =? j); [injection Hj as <-; congruence|]. apply (Hno m). now exists j. }
    rewrite H2. destruct (inventory ms id) as [o|] eqn:Eo; cbn [option_map].
    + destruct (N.eqb_spec (n_loop n) (n_loop o)) as [El|El].
      * cbn [List.app map fold_left]. apply Hset; [exact H1| |destruct (H3 (n_loop n)) as (x & Hx & _); eauto].
        intros ip Hne. destruct (H3 ip) as (x & Hx & Hc). exists x. split; [exact Hx|]. apply Haway; auto. intros o' [= <-]. congruence.
      * cbn [List.app map fold_left]. apply Hset.
        -- now apply ok_app.
        -- intros ip Hne. destruct (H3 ip) as (x & Hx & Hc).
           pose proof (G_forget c (n_loop o) ip x H1 ltac:(auto) (ex_intro _ x Hx)) as Hg. destruct (N.eqb_spec ip (n_loop o)) as [->|Hno].
           ++ exists None. split; [exact Hg|]. right. split; [|reflexivity]. intros m (j & Hj & Ej). rewrite Hinv in Hj. destruct (N.eqb_spec id j) as [Hij|Hij]; [injection Hj as Hj; congruence|].
              apply Hij. eapply never_shared_now; eauto.
           ++ exists x. split; [exact Hg|]. apply Haway; auto. intros o' [= <-]. congruence.
        -- destruct (H3 (n_loop n)) as (x & Hx & _). eexists. apply (G_forget c (n_loop o) (n_loop n) x); eauto.
    + cbn [List.app map fold_left]. apply Hset; [exact H1| |destruct (H3 (n_loop n)) as (x & Hx & _); eauto].
      intros ip Hne. destruct (H3 ip) as (x & Hx & Hc). exists x. split; [exact Hx|]. apply Haway; auto. discriminate.
  - (* delete *)
    rewrite H2. assert (Hinv : forall j, inventory (ms ++ [SDel id]) j = if id =? j then None else inventory ms j) by (intros j; rewrite inventory_snoc; reflexivity).
    destruct (inventory ms id) as [o|] eqn:Eo; cbn [option_map fst snd map fold_left].
    2:{ apply inv_same; [exact Hv|]. intros j. cbn [told]. destruct (N.eqb_spec id j) as [<-|]; congruence. }
    split; [now apply ok_app|]. split.
    + intros j. rewrite (mget_mrem _ N.eqb_spec), Hinv, (N.eqb_sym j id). destruct (id =? j); [reflexivity|apply H2].
    + intros ip. destruct (H3 ip) as (x & Hx & Hc). pose proof (G_forget c (n_loop o) ip x H1 ltac:(auto) (ex_intro _ x Hx)) as Hg.
      destruct (N.eqb_spec ip (n_loop o)) as [->|Hno].
      * exists None. split; [exact Hg|]. right. split; [|reflexivity]. intros m (j & Hj & Ej). rewrite Hinv in Hj. destruct (N.eqb_spec id j) as [Hij|Hij]; [discriminate|]. apply Hij. eapply never_shared_now; eauto.
      * exists x. split; [exact Hg|]. destruct Hc as [(m & (j & Hj & Ej) & ->)|[Hc ->]].
        -- left. exists m. split; [|reflexivity]. exists j. rewrite Hinv. destruct (N.eqb_spec id j) as [Hij|Hij]; [congruence|now split].
        -- right. split; [|reflexivity]. intros m (j & Hj & Ej). rewrite Hinv in Hj. destruct (id =? j); [discriminate|]. apply (Hc m). now exists j.
Qed.
Lemma inv_feed fs : forall ms ids c, Forall (fun f => match f with FOther o => fine o | FMsg _ => True end) fs ->
  never_shared (ms ++ messages fs) -> inv ms ids c -> exists ids', inv (ms ++ messages fs) ids' (fold_left app (feed_ops mk ids fs) c).
Proof.
  induction fs as [|f fs IH]; intros ms ids c Hf Hs Hv; [exists ids; cbn; now rewrite app_nil_r|]. inversion Hf as [|? ? Hf1 Hf2]; subst. destruct f as [m|o].
  - cbn [feed_ops]. change (messages (FMsg m :: fs)) with (m :: messages fs) in *. replace (ms ++ m :: messages fs) with ((ms ++ [m]) ++ messages fs) in * by (now rewrite <- app_assoc).
    pose proof (inv_step ms m ids c (never_shared_prefix _ _ Hs) Hv) as Hst. destruct (sonata_step ids m) as [ids' acts]. cbn [fst snd] in Hst. rewrite fold_left_app. now apply IH.
  - cbn [feed_ops fold_left]. change (messages (FOther o :: fs)) with (messages fs) in *. apply IH; auto. destruct Hv as (H1 & H2 & H3). split; [now apply ok_app|]. split; [exact H2|].
    intros ip. destruct (H3 ip) as (x & Hx & Hc). exists x. auto.
Qed.
Lemma feed_content c0 fs : ok c0 -> (forall ip, G c0 ip None) -> Forall (fun f => match f with FOther o => fine o | FMsg _ => True end) fs -> never_shared (messages fs) ->
  forall ip, (forall n, holder (messages fs) ip n -> G (fold_left app (feed_ops mk [] fs) c0) ip (Some (n_host n, n_plat n))) /\
             ((forall n, ~ holder (messages fs) ip n) -> G (fold_left app (feed_ops mk [] fs) c0) ip None).
Proof.
  intros Hok H0 Hf Hs ip. destruct (inv_feed fs [] [] c0 Hf Hs) as (ids' & _ & _ & H3).
  { split; [exact Hok|]. split; [reflexivity|]. intros a. exists None. split; [apply H0|]. right. split; [|reflexivity]. intros n (id & Hn & _). discriminate. }
  destruct (H3 ip) as (x & Hx & Hc). cbn [List.app] in Hc. split.
  - intros n Hn. assert (Hc' : content (messages fs) ip (Some (n_host n, n_plat n))) by (left; eauto). now rewrite <- (content_unique _ _ _ _ Hs Hc Hc').
  - intros Hn. assert (Hc' : content (messages fs) ip None) by (right; auto). now rewrite <- (content_unique _ _ _ _ Hs Hc Hc').
Qed.
End Store.

(* flows *)
Lemma slot_set w c ip h r f : wf c -> stored c ip 0 [] r = match h with Some f0 => Some (w, f0) | None => None end ->
  forall o, addresses ip 0 [] o -> writes r o w f -> stored (apply_op c o) ip 0 [] r = Some (w, f).
Proof.
  intros Hw Hc o Ha Hwr. destruct (op_slot c o ip 0 [] r Hw) as [H _]. specialize (H Ha). rewrite Hc in H.
  destruct o as [i d s w' fs| |]; cbn [writes] in Hwr; try contradiction. destruct Hwr as [-> Ho].
  remember (stored (apply_op c (Upsert i d s w fs)) ip 0 [] r) as x. clear Heqx Hc.
  destruct h as [f0|]; inversion H; subst; cbn [writes erases] in *; try contradiction; repeat match goal with X : _ /\ _ |- _ => destruct X end; subst; try congruence; try lia;
    match goal with X : forall w0 f1, ~ _ |- _ => exfalso; apply (X w f); auto end.
Qed.
Lemma slot_forget w c ip h r : wf c -> stored c ip 0 [] r = match h with Some f0 => Some (w, f0) | None => None end ->
  forall o, addresses ip 0 [] o -> erases r o w -> stored (apply_op c o) ip 0 [] r = None.
Proof.
  intros Hw Hc o Ha He. destruct (op_slot c o ip 0 [] r Hw) as [H _]. specialize (H Ha). rewrite Hc in H.
  assert (Hno : forall w' f', ~ writes r o w' f') by (intros w' f'; destruct o; cbn in *; auto).
  assert (Hun : forall w', erases r o w' -> w' = w) by (intros w' H'; destruct o; cbn in He, H'; [contradiction|destruct He, H'; congruence|congruence]).
  remember (stored (apply_op c o) ip 0 [] r) as x. clear Heqx Hc.
  destruct h as [f0|]; inversion H; subst; try reflexivity; exfalso; try (eapply Hno; eassumption); try (eauto; fail).
  - match goal with X : erases r o _ |- _ => apply Hun in X end. lia.
  - match goal with X : forall w, ~ erases r o w |- _ => apply (X w He) end.
Qed.
Lemma flow_cases w c ip x : flow_knows c w ip x ->
  stored c ip 0 [] (netgauze 5, 0) = match option_map (fun y => (netgauze 5, fst y)) x with Some f0 => Some (w, f0) | None => None end /\
  stored c ip 0 [] (netgauze 6, 0) = match option_map (fun y => (netgauze 6, snd y)) x with Some f0 => Some (w, f0) | None => None end.
Proof. intros [H1 H2]. destruct x as [[h p]|]; cbn; auto. Qed.
Lemma flow_content w fs : Forall (fun f => match f with FOther o => not_about_nodes o | FMsg _ => True end) fs -> never_shared (messages fs) ->
  forall ip, (forall n, holder (messages fs) ip n -> flow_knows (apply_ops (feed_ops (flow_op w) [] fs)) w ip (Some (n_host n, n_plat n))) /\
             ((forall n, ~ holder (messages fs) ip n) -> flow_knows (apply_ops (feed_ops (flow_op w) [] fs)) w ip None).
Proof.
  intros Hf Hs. unfold apply_ops. apply (feed_content apply_op (flow_op w) wf (fun c ip x => flow_knows c w ip x) not_about_nodes); auto.
  - apply wf_op.
  - intros c a ip x Hw Hx (y & Hy). destruct (N.eqb_spec ip a) as [->|Hn].
    + destruct (flow_cases _ _ _ _ Hy) as [H1 H2]. split; eapply slot_forget; eauto; cbn; auto.
    + specialize (Hx Hn). destruct Hx as [H1 H2]. split.
      * rewrite <- H1. apply op_slot; [exact Hw|]. cbn. intuition.
      * rewrite <- H2. apply op_slot; [exact Hw|]. cbn. intuition.
  - intros c a h p ip x Hw Hx (y & Hy). destruct (N.eqb_spec ip a) as [->|Hn].
    + destruct (flow_cases _ _ _ _ Hy) as [H1 H2]. split; eapply slot_set; eauto; cbn; auto.
    + specialize (Hx Hn). destruct Hx as [H1 H2]. split.
      * rewrite <- H1. apply op_slot; [exact Hw|]. cbn. intuition.
      * rewrite <- H2. apply op_slot; [exact Hw|]. cbn. intuition.
  - intros c o ip x Hw Ho [H1 H2].
    assert (Hk : forall r, In r [(netgauze 5, 0); (netgauze 6, 0)] -> stored (apply_op c o) ip 0 [] r = stored c ip 0 [] r).
    { intros r Hr. destruct (op_slot c o ip 0 [] r Hw) as [Ha Hb]. destruct (addresses_dec ip 0 [] o) as [Hd|Hd]; [|now apply Hb]. specialize (Ha Hd). destruct (Ho ip r Hr Hd) as [Hw1 He1].
      inversion Ha; subst; try reflexivity; exfalso; try (eapply Hw1; eassumption); eapply He1; eassumption. }
    split; rewrite Hk; auto; [now left|right; now left].
  - split; constructor.
  - split; reflexivity.
Qed.

(* labels *)
Lemma label_content w fs : Forall (fun f => match f with FOther o => not_node_labels o | FMsg _ => True end) fs -> never_shared (messages fs) ->
  forall ip, (forall n, holder (messages fs) ip n -> labels_know (apply_label_ops (feed_ops (label_op w) [] fs)) w ip (Some (n_host n, n_plat n))) /\
             ((forall n, ~ holder (messages fs) ip n) -> labels_know (apply_label_ops (feed_ops (label_op w) [] fs)) w ip None).
Proof.
  intros Hf Hs. unfold apply_label_ops. apply (feed_content apply_label_op (label_op w) lwf (fun c ip x => labels_know c w ip x) not_node_labels); auto.
  - intros; now apply lwf_op.
  - intros c a ip x Hw Hx (y & Hy). destruct (N.eqb_spec ip a) as [->|Hn].
    + destruct Hy as [H1 H2]. split; rewrite lstored_op by exact Hw; cbn [label_op l_ip]; rewrite N.eqb_refl; [rewrite H1|rewrite H2]; destruct y as [[h p]|]; cbn; now rewrite ?N.leb_refl.
    + specialize (Hx Hn). destruct Hx as [H1 H2]. apply N.eqb_neq in Hn. split; rewrite lstored_op by exact Hw; cbn [label_op l_ip]; now rewrite Hn.
  - intros c a h p ip x Hw Hx (y & Hy). destruct (N.eqb_spec ip a) as [->|Hn].
    + destruct Hy as [H1 H2]. split; rewrite lstored_op by exact Hw; cbn [label_op l_ip]; rewrite N.eqb_refl; [rewrite H1|rewrite H2]; destruct y as [[h0 p0]|]; cbn; now rewrite ?N.leb_refl.
    + specialize (Hx Hn). destruct Hx as [H1 H2]. apply N.eqb_neq in Hn. split; rewrite lstored_op by exact Hw; cbn [label_op l_ip]; now rewrite Hn.
  - intros c o ip x Hw Ho [H1 H2].
    assert (Hk : forall name, In name [1; 2] -> lstored (apply_label_op c o) ip name = lstored c ip name).
    { intros name Hr. destruct (label_op_law c o ip name Hw) as [Ha Hb]. destruct (N.eq_dec (l_ip o) ip) as [Hd|Hd]; [|now apply Hb]. specialize (Ha Hd). destruct (Ho name Hr) as [Hw1 He1].
      inversion Ha; subst; try reflexivity; exfalso; try (eapply Hw1; eassumption); eapply He1; eassumption. }
    split; rewrite Hk; auto; [now left|right; now left].
  - constructor.
  - split; reflexivity.
Qed.

Lemma label_origin ops ip name w l : lstored (apply_label_ops ops) ip name = Some (w, l) -> fst l = name /\ exists ls, In (LUpsert ip w ls) ops /\ In l ls.
Proof.
  revert w l. induction ops as [|o ops IH] using rev_ind; intros w l H; [discriminate|].
  unfold apply_label_ops in *. rewrite fold_left_app in H. cbn [fold_left] in H. fold (apply_label_ops ops) in *.
  destruct (label_op_law (apply_label_ops ops) o ip name (lwf_ops ops)) as [H1 H2].
  assert (Hback : lstored (apply_label_ops ops) ip name = Some (w, l) -> fst l = name /\ exists ls, In (LUpsert ip w ls) (ops ++ [o]) /\ In l ls).
  { intros E. apply IH in E as (E1 & ls & E2 & E3). split; [exact E1|]. exists ls. split; [apply in_app_iff; now left|exact E3]. }
  destruct (N.eq_dec (l_ip o) ip) as [Hd|Hd]; [|rewrite (H2 Hd) in H; now apply Hback].
  specialize (H1 Hd). rewrite H in H1.
  assert (Hw : lwrites name o w l -> fst l = name /\ exists ls, In (LUpsert ip w ls) (ops ++ [o]) /\ In l ls).
  { destruct o as [i w' ls| |]; cbn [lwrites l_ip] in *; try contradiction. intros (-> & E & l1 & l2 & -> & _). subst i. split; [exact E|]. eexists. split; [apply in_app_iff; right; now left|]. apply in_app_iff. right. now left. }
  inversion H1; subst; auto.
Qed.

(* what was forgotten stays so until it is set again *)
Lemma forget_flow w acts acts2 ip : Forall (fun a => match a with ASet i _ _ => i <> ip | _ => True end) acts2 ->
  flow_knows (apply_ops (map (flow_op w) (acts ++ AForget ip :: acts2))) w ip None.
Proof.
  assert (Hk : forall r, fst r = netgauze 5 \/ fst r = netgauze 6 -> Forall (fun a => match a with ASet i _ _ => i <> ip | _ => True end) acts2 ->
    stored (apply_ops (map (flow_op w) (acts ++ AForget ip :: acts2))) ip 0 [] r = None).
  { intros r Hr. induction acts2 as [|a acts2 IH] using rev_ind; intros Hf.
    - rewrite map_app. cbn [map]. rewrite apply_ops_snoc. set (c := apply_ops (map (flow_op w) acts)).
      destruct (stored c ip 0 [] r) as [[w0 f0]|] eqn:E.
      + assert (w0 = w).
        { apply stored_origin in E as (o & Ho & _ & Hw). apply in_map_iff in Ho as (a & <- & _). destruct a; cbn in Hw; [contradiction|]. now destruct Hw. }
        subst w0. apply (slot_forget w c ip (Some f0) r (wf_ops _) E); cbn; auto. split; [reflexivity|]. unfold netgauze in Hr. destruct Hr as [-> | ->]; auto.
      + apply (slot_forget w c ip None r (wf_ops _) E); cbn; auto. split; [reflexivity|]. destruct Hr as [-> | ->]; auto.
    - apply Forall_app in Hf as [Hf Ha]. inversion Ha as [|? ? Ha1 _]; subst. specialize (IH Hf).
      change (AForget ip :: acts2 ++ [a]) with ((AForget ip :: acts2) ++ [a]). rewrite app_assoc, map_app. cbn [map]. rewrite apply_ops_snoc. set (c := apply_ops _) in *.
      destruct (op_slot c (flow_op w a) ip 0 [] r (wf_ops _)) as [H1 H2]. destruct a as [i|i h p]; cbn [flow_op] in *.
      + destruct (N.eq_dec i ip) as [->|Hn]; [|rewrite H2; [exact IH|]; cbn; intuition].
        apply (slot_forget w c ip None r (wf_ops _) IH); cbn; auto. split; [reflexivity|]. destruct Hr as [-> | ->]; auto.
      + rewrite H2; [exact IH|]. cbn. intuition. }
  intros Hf. split; apply Hk; auto.
Qed.
Lemma forget_label w acts acts2 ip : Forall (fun a => match a with ASet i _ _ => i <> ip | _ => True end) acts2 ->
  labels_know (apply_label_ops (map (label_op w) (acts ++ AForget ip :: acts2))) w ip None.
Proof.
  assert (Hsn : forall l a, apply_label_ops (map (label_op w) (l ++ [a])) = apply_label_op (apply_label_ops (map (label_op w) l)) (label_op w a)) by (intros l a; unfold apply_label_ops; now rewrite map_app, fold_left_app).
  assert (Hk : forall r, r = 1 \/ r = 2 -> Forall (fun a => match a with ASet i _ _ => i <> ip | _ => True end) acts2 ->
    lstored (apply_label_ops (map (label_op w) (acts ++ AForget ip :: acts2))) ip r = None).
  { intros r Hr. induction acts2 as [|a acts2 IH] using rev_ind; intros Hf.
    - rewrite Hsn, lstored_op by apply lwf_ops. cbn [label_op l_ip]. rewrite N.eqb_refl.
      assert (He : existsb (N.eqb r) [name_node_id; name_platform_id] = true) by (destruct Hr as [-> | ->]; reflexivity). rewrite He.
      destruct (lstored (apply_label_ops (map (label_op w) acts)) ip r) as [[w0 f0]|] eqn:E; [|reflexivity]. cbn [lgone]. rewrite andb_true_r.
      assert (w0 = w).
      { apply label_origin in E as (_ & ls & Ho & _). apply in_map_iff in Ho as (a & Ea & _). destruct a; cbn in Ea; congruence. }
      subst w0. now rewrite N.leb_refl.
    - apply Forall_app in Hf as [Hf Ha]. inversion Ha as [|? ? Ha1 _]; subst. specialize (IH Hf).
      change (AForget ip :: acts2 ++ [a]) with ((AForget ip :: acts2) ++ [a]). rewrite app_assoc, Hsn, lstored_op by apply lwf_ops. rewrite IH.
      destruct a as [i|i h p]; cbn [label_op l_ip lgone]; [now destruct (ip =? i)|]. destruct (N.eqb_spec ip i); [congruence|reflexivity]. }
  intros Hf. split; apply Hk; auto.
Qed.
