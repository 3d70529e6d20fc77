(* Further lemmas about the validation actor: the table of subscriptions, the
   bounds, the fate of held packets, independence of peers, the main loop. *)
From Coq Require Import List NArith Bool Arith Lia Permutation.
Import ListNotations.
From Verif Require Import YvModel YvSpec YvProofs.

Section P.
Variable max_sub max_peer : nat.
Variable load : N -> option N.
Variable valid : N -> msg -> bool.
Notation handle := (handle max_sub max_peer valid).
Notation respond := (respond max_sub max_peer load valid).
Notation step := (step max_sub max_peer load valid).
Notation run := (run max_sub max_peer load valid).
Notation cache_packet := (cache_packet max_sub max_peer).
Notation deliver := (deliver valid).
Notation drain := (fold_left (fun s m => handle (drained s) m)).
Notation good := (good load valid).
Notation cache_cases := (cache_cases max_sub max_peer).

Lemma deliver_map : forall s e m, v_map (deliver s e m) = v_map s.
Proof. intros. apply (deliver_acc valid). Qed.

Lemma cached_lookup_other : forall s i m s' k, cached max_sub max_peer s i m s' ->
  k <> (m_ip m, i_id i) -> lookup k (v_map s') = lookup k (v_map s).
Proof.
  intros s i m s' k C N. destruct C as [s' e Hd HMap|s' e Hd Hp HMap];
    rewrite HMap; apply lookup_put_other; exact N.
Qed.

Lemma cached_lookup_same : forall s i m s', cached max_sub max_peer s i m s' ->
  exists h, lookup (m_ip m, i_id i) (v_map s') =
    Some (let e := entry_or i (lookup (m_ip m, i_id i) (v_map s)) in
          mk_entry (e_content e) (e_info e) (e_ctx e) h).
Proof.
  intros s i m s' C. destruct C as [s' e Hd HMap|s' e Hd Hp HMap]; rewrite HMap;
    rewrite lookup_put_same.
  - exists (e_held e). unfold e. destruct (entry_or i _); reflexivity.
  - exists (e_held e ++ [m]). reflexivity.
Qed.

Lemma handle_other : forall s m k, ~ of_sub (fst k) (snd k) m ->
  lookup k (v_map (handle s m)) = lookup k (v_map s).
Proof.
  intros s m k N.
  destruct (handle_cases max_sub max_peer valid s m)
    as [B|B|id e O L NU A|id i a O I1 I2 C A|i e a A L NE]; try reflexivity.
  - rewrite deliver_map. reflexivity.
  - rewrite (cached_lookup_other _ i m _ k (cache_cases _ i m)); [reflexivity|].
    intros ->. apply N. cbn. rewrite I2. exact O.
  - destruct A as [A1 A2].
    assert (KN : k <> (i_ip i, i_id i)).
    { intros ->. apply N. split; cbn; [exact A1|unfold names; rewrite A2; reflexivity]. }
    rewrite (cached_lookup_other _ i m _ k (cache_cases _ i m)).
    + cbn. apply lookup_del_other. exact KN.
    + rewrite A1. exact KN.
Qed.

(* Handling keeps an entry whose description the packet does not change. *)
Lemma handle_keeps : forall s m k e, lookup k (v_map s) = Some e ->
  (forall j, announces m j -> (i_ip j, i_id j) = k -> e_info e = j) ->
  exists h, lookup k (v_map (handle s m)) =
    Some (mk_entry (e_content e) (e_info e) (e_ctx e) h).
Proof.
  intros s m k e L A.
  assert (Same : exists h, Some e = Some (mk_entry (e_content e) (e_info e) (e_ctx e) h))
    by (exists (e_held e); destruct e; reflexivity).
  destruct (handle_cases max_sub max_peer valid s m)
    as [B|B|id e' O L' NU A'|id i a O I1 I2 C A'|i e' a A' L' NE].
  - cbn. rewrite L. exact Same.
  - cbn. rewrite L. exact Same.
  - rewrite deliver_map. cbn [v_map received]. rewrite L. exact Same.
  - pose proof (cache_cases (asked (received s) a) i m) as CC.
    destruct (key_dec k (m_ip m, i_id i)) as [->|N].
    + destruct (cached_lookup_same _ i m _ CC) as [h H]. exists h. rewrite H.
      cbn [v_map asked received]. rewrite L. reflexivity.
    + rewrite (cached_lookup_other _ i m _ k CC N). cbn. rewrite L. exact Same.
  - pose proof (cache_cases (asked (forget (received s) (i_ip i, i_id i) e') a) i m) as CC.
    destruct (key_dec k (i_ip i, i_id i)) as [->|N].
    + exfalso. rewrite L in L'. injection L' as <-. apply NE. apply A; auto.
    + rewrite (cached_lookup_other _ i m _ k CC).
      * cbn [v_map asked forget received]. rewrite lookup_del_other by exact N. rewrite L. exact Same.
      * destruct A' as [A1 _]. rewrite A1. exact N.
Qed.

Lemma handle_keeps_some : forall s m k, lookup k (v_map s) <> None ->
  lookup k (v_map (handle s m)) <> None.
Proof.
  intros s m k L.
  destruct (handle_cases max_sub max_peer valid s m)
    as [B|B|id e' O L' NU A'|id i a O I1 I2 C A'|i e' a A' L' NE]; try exact L.
  - rewrite deliver_map. exact L.
  - pose proof (cache_cases (asked (received s) a) i m) as CC.
    destruct (key_dec k (m_ip m, i_id i)) as [->|N].
    + destruct (cached_lookup_same _ i m _ CC) as [h H]. rewrite H. discriminate.
    + rewrite (cached_lookup_other _ i m _ k CC N). exact L.
  - pose proof (cache_cases (asked (forget (received s) (i_ip i, i_id i) e') a) i m) as CC.
    destruct A' as [A1 _].
    destruct (key_dec k (i_ip i, i_id i)) as [->|N].
    + destruct (cached_lookup_same _ i m _ CC) as [h H]. rewrite A1 in H. rewrite H. discriminate.
    + rewrite (cached_lookup_other _ i m _ k CC).
      * cbn [v_map asked forget received]. rewrite lookup_del_other by exact N. exact L.
      * rewrite A1. exact N.
Qed.

Lemma of_sub_uniq : forall m a b c d, of_sub a b m -> of_sub c d m -> a = c /\ b = d.
Proof. intros m a b c d [H1 H2] [H3 H4]. split; congruence. Qed.

Lemma handle_tracks : forall s m id, of_sub (m_ip m) id m ->
  lookup (m_ip m, id) (v_map (handle s m)) <> None.
Proof.
  intros s m id O0.
  destruct (handle_cases max_sub max_peer valid s m)
    as [B|B|id' e' O L' NU A'|id' i a O I1 I2 C A'|i e' a A' L' NE].
  - destruct O0 as [_ O0]. unfold names in O0. rewrite B in O0. discriminate.
  - destruct O0 as [_ O0]. unfold names in O0. rewrite B in O0. discriminate.
  - rewrite deliver_map. cbn. destruct (of_sub_uniq _ _ _ _ _ O0 O) as [_ ->]. rewrite L'. discriminate.
  - destruct (of_sub_uniq _ _ _ _ _ O0 O) as [_ ->]. rewrite <- I2.
    pose proof (cache_cases (asked (received s) a) i m) as CC.
    destruct (cached_lookup_same _ i m _ CC) as [h H]. rewrite H. discriminate.
  - pose proof (cache_cases (asked (forget (received s) (i_ip i, i_id i) e') a) i m) as CC.
    destruct A' as [A1 A2].
    assert (id = i_id i) as ->.
    { destruct O0 as [_ O0]. unfold names in O0. rewrite A2 in O0. congruence. }
    destruct (cached_lookup_same _ i m _ CC) as [h H]. rewrite H. discriminate.
Qed.

Lemma drain_keeps_some : forall l s k, lookup k (v_map s) <> None ->
  lookup k (v_map (drain l s)) <> None.
Proof.
  induction l as [|m l IH]; intros s k L; cbn [fold_left]; [exact L|].
  apply IH, handle_keeps_some. exact L.
Qed.

Lemma drain_other : forall l s k, (forall m, In m l -> ~ of_sub (fst k) (snd k) m) ->
  lookup k (v_map (drain l s)) = lookup k (v_map s).
Proof.
  induction l as [|m l IH]; intros s k H; cbn [fold_left]; [reflexivity|].
  rewrite IH by (intros; apply H; right; assumption).
  rewrite handle_other by (apply H; left; reflexivity). reflexivity.
Qed.

Lemma respond_other : forall P Q s q k, good P Q s -> k <> qkey q ->
  lookup k (v_map (respond s q)) = lookup k (v_map s).
Proof.
  intros P Q s q k G N. rewrite respond_eq.
  destruct (lookup (qkey q) (v_map s)) as [e|] eqn:L; [|reflexivity].
  rewrite drain_other.
  - cbn [v_map with_map]. apply lookup_put_other. exact N.
  - intros m I O. destruct (g_held _ _ _ _ _ G _ _ _ L I) as (_ & O2 & _).
    destruct (of_sub_uniq _ _ _ _ _ O O2) as [E1 E2].
    apply N. rewrite (surjective_pairing k), (surjective_pairing (qkey q)). congruence.
Qed.

Lemma respond_keeps_some : forall s q k, lookup k (v_map s) <> None ->
  lookup k (v_map (respond s q)) <> None.
Proof.
  intros s q k H. rewrite respond_eq.
  destruct (lookup (qkey q) (v_map s)) as [e|] eqn:L; [|exact H].
  apply drain_keeps_some. cbn [v_map with_map].
  destruct (key_dec k (qkey q)) as [->|N].
  - rewrite lookup_put_same. discriminate.
  - rewrite lookup_put_other by exact N. exact H.
Qed.

Lemma run_tracked : forall evs ip id,
  lookup (ip, id) (v_map (run evs)) <> None <->
  exists m, In m (packets evs) /\ of_sub ip id m.
Proof.
  intros evs ip id. induction evs as [|e evs IH] using rev_ind.
  - cbn. split; [intros H; exfalso; apply H; reflexivity|intros (m & [] & _)].
  - rewrite run_app, packets_app. cbn [fold_left].
    pose proof (run_good max_sub max_peer load valid evs) as G.
    destruct e as [m|q]; cbn [YvModel.step packets flat_map].
    + split.
      * intros H. destruct (N.eq_dec (m_ip m) ip) as [E1|E1].
        -- destruct (names m) as [id'|] eqn:NM.
           ++ destruct (N.eq_dec id' id) as [E2|E2].
              ** exists m. split; [apply in_or_app; right; left; reflexivity|].
                 split; [exact E1|rewrite NM, E2; reflexivity].
              ** rewrite handle_other in H by (intros [_ X]; cbn in X; congruence).
                 apply IH in H as (m' & I & O). exists m'. split; [apply in_or_app; auto|exact O].
           ++ rewrite handle_other in H by (intros [_ X]; cbn in X; congruence).
              apply IH in H as (m' & I & O). exists m'. split; [apply in_or_app; auto|exact O].
        -- rewrite handle_other in H by (intros [X _]; cbn in X; congruence).
           apply IH in H as (m' & I & O). exists m'. split; [apply in_or_app; auto|exact O].
      * intros (m' & I & O). apply in_app_or in I as [I|[<-|[]]].
        -- apply handle_keeps_some, IH. exists m'. auto.
        -- destruct O as [O1 O2]. rewrite <- O1. apply handle_tracks. split; [reflexivity|exact O2].
    + rewrite app_nil_r. rewrite <- IH. split; [|apply respond_keeps_some].
      intros H. destruct (key_dec (ip, id) (qkey q)) as [E|N].
      * rewrite E in *. intros F. apply H. rewrite respond_eq, F. exact F.
      * rewrite (respond_other _ _ _ _ _ G N) in H. exact H.
Qed.

Lemma tracked_lookup : forall s k, In k (tracked s) <-> lookup k (v_map s) <> None.
Proof.
  intros s k. unfold tracked, lookup. induction (v_map s) as [|[k2 e] m IH]; cbn.
  - split; [easy|intros H; apply H; reflexivity].
  - destruct (keqb k k2) eqn:E; cbn.
    + apply keqb_eq in E; subst. split; [discriminate|auto].
    + rewrite <- IH. split; [intros [->|H]; [rewrite keqb_refl in E; discriminate|exact H]|auto].
Qed.

(* ---- bounds ---- *)
Definition bounded (s : st) : Prop :=
  (forall k e, lookup k (v_map s) = Some e -> length (e_held e) <= S max_sub) /\
  (forall ip, peer_total ip (v_map s) <= S max_peer).

Lemma peer_total_del_le : forall ip k m, peer_total ip (del k m) <= peer_total ip m.
Proof.
  intros ip k m. unfold peer_total, del. induction m as [|[k2 e] m IH]; cbn; [lia|].
  destruct (keqb k k2); cbn; lia.
Qed.

Lemma cached_bounded : forall s i m s', NoDup (map fst (v_map s)) -> bounded s ->
  cached max_sub max_peer s i m s' -> bounded s'.
Proof.
  intros s i m s' ND [B1 B2] C.
  set (k := (m_ip m, i_id i)) in *.
  assert (PT : forall e ip, e = entry_or i (lookup k (v_map s)) ->
     peer_total ip (v_map s) = (if (fst k =? ip)%N then length (e_held e) else 0)
        + peer_total ip (del k (v_map s))).
  { intros e ip ->. destruct (lookup k (v_map s)) eqn:L; cbn [entry_or].
    - apply peer_total_del; assumption.
    - rewrite lookup_none_del by exact L. cbn. destruct (_ =? ip)%N; reflexivity. }
  destruct C as [s' e Hd HMap|s' e Hd Hp HMap]; fold k in e, HMap; specialize (PT e);
    split; rewrite HMap.
  - intros k' e' L. destruct (key_dec k' k) as [->|N].
    + rewrite lookup_put_same in L. injection L as <-. unfold e.
      destruct (lookup k (v_map s)) eqn:L2; cbn; [apply (B1 _ _ L2)|lia].
    + rewrite lookup_put_other in L by exact N. apply (B1 _ _ L).
  - intros ip. rewrite peer_total_put. rewrite <- (PT ip eq_refl). apply B2.
  - intros k' e' L. destruct (key_dec k' k) as [->|N].
    + rewrite lookup_put_same in L. injection L as <-. cbn. rewrite app_length. cbn.
      lia.
    + rewrite lookup_put_other in L by exact N. apply (B1 _ _ L).
  - intros ip. rewrite peer_total_put. cbn [e_held]. specialize (PT ip eq_refl).
    specialize (B2 ip). rewrite app_length. cbn [length].
    destruct (N.eqb_spec (fst k) ip) as [E|E]; cbn in E.
    + rewrite E in Hp. lia.
    + lia.
Qed.

Lemma handle_bounded : forall s m, NoDup (map fst (v_map s)) -> bounded s -> bounded (handle s m).
Proof.
  intros s m ND B.
  destruct (handle_cases max_sub max_peer valid s m)
    as [Bd|Bd|id e' O L' NU A'|id i a O I1 I2 C A'|i e' a A' L' NE]; try exact B.
  - unfold bounded. rewrite deliver_map. exact B.
  - eapply cached_bounded; [| |apply cache_cases]; [exact ND|exact B].
  - eapply cached_bounded; [| |apply cache_cases]; cbn [v_map asked forget received].
    + apply nodup_del. exact ND.
    + destruct B as [B1 B2]. split; cbn [v_map asked forget received].
      * intros k e L. destruct (key_dec k (i_ip i, i_id i)) as [->|N].
        -- rewrite lookup_del_same in L. discriminate.
        -- rewrite lookup_del_other in L by exact N. apply (B1 _ _ L).
      * intros ip. etransitivity; [apply peer_total_del_le|apply B2].
Qed.

Lemma drain_bounded : forall l s, NoDup (map fst (v_map s)) -> bounded s -> bounded (drain l s).
Proof.
  induction l as [|m l IH]; intros s ND B; cbn [fold_left]; [exact B|].
  apply IH.
  - apply (handle_acc max_sub max_peer valid (drained s) m ND).
  - apply handle_bounded; assumption.
Qed.

Lemma respond_bounded : forall s q, NoDup (map fst (v_map s)) -> bounded s -> bounded (respond s q).
Proof.
  intros s q ND B. rewrite respond_eq.
  destruct (lookup (qkey q) (v_map s)) as [e|] eqn:L; [|exact B].
  apply drain_bounded; [cbn [v_map with_map]; apply nodup_put; exact ND|].
  destruct B as [B1 B2]. split; cbn [v_map with_map].
  - intros k' e' L'. destruct (key_dec k' (qkey q)) as [->|N].
    + rewrite lookup_put_same in L'. injection L' as <-. rewrite new_entry_held. cbn. lia.
    + rewrite lookup_put_other in L' by exact N. apply (B1 _ _ L').
  - intros ip. rewrite peer_total_put, new_entry_held. cbn [length].
    pose proof (peer_total_del_le ip (qkey q) (v_map s)). specialize (B2 ip).
    destruct (_ =? ip)%N; lia.
Qed.

Lemma run_bounded : forall evs, bounded (run evs).
Proof.
  induction evs as [|e evs IH] using rev_ind.
  - split; [discriminate|intros; cbn; lia].
  - rewrite run_app. cbn [fold_left].
    destruct (run_acc max_sub max_peer load valid evs) as (ND & _).
    destruct e as [m|q]; cbn [YvModel.step].
    + apply handle_bounded; assumption.
    + apply respond_bounded; assumption.
Qed.

Lemma held_peer_total : forall ip s, length (held_peer ip s) = peer_total ip (v_map s).
Proof.
  intros ip s. unfold held_peer, peer_total. induction (v_map s) as [|x m IH]; cbn; [reflexivity|].
  rewrite app_length, IH. destruct (_ =? ip)%N; reflexivity.
Qed.

Lemma held_sub_lookup : forall ip id s, NoDup (map fst (v_map s)) ->
  held_sub ip id s = match lookup (ip, id) (v_map s) with Some e => e_held e | None => [] end.
Proof.
  intros ip id s. unfold held_sub, lookup.
  induction (v_map s) as [|[[a b] e] m IH]; cbn; [reflexivity|].
  intros ND. inversion ND; subst. specialize (IH H2).
  unfold keqb. cbn. rewrite (N.eqb_sym ip a), (N.eqb_sym id b).
  destruct ((a =? ip)%N && (b =? id)%N) eqn:E; cbn; [|exact IH].
  apply andb_true_iff in E as [E1 E2]. apply N.eqb_eq in E1, E2. subst.
  rewrite IH. fold (lookup (ip, id) m).
  destruct (lookup (ip, id) m) eqn:L; cbn; [|apply app_nil_r].
  apply lookup_in in L. apply (in_map fst) in L. contradiction.
Qed.

(* ---- a description (and its schema) stays ---- *)
Definition fixed (k : N * N) (c x : option N) (i : info) (s : st) : Prop :=
  exists h, lookup k (v_map s) = Some (mk_entry c i x h).

Lemma handle_fixed : forall k c x i s m, fixed k c x i s ->
  (forall j, announces m j -> (i_ip j, i_id j) = k -> j = i) -> fixed k c x i (handle s m).
Proof.
  intros k c x i s m [h L] A.
  destruct (handle_keeps s m k _ L) as [h' H].
  - cbn. intros j J K. symmetry. apply A; assumption.
  - exists h'. exact H.
Qed.

Lemma drain_fixed : forall k c x i l s, fixed k c x i s ->
  (forall m j, In m l -> announces m j -> (i_ip j, i_id j) = k -> j = i) -> fixed k c x i (drain l s).
Proof.
  intros k c x i. induction l as [|m l IH]; intros s F A; cbn [fold_left]; [exact F|].
  apply IH.
  - apply handle_fixed; [exact F|]. intros j. apply A. left. reflexivity.
  - intros m' j I. apply A. right. exact I.
Qed.

Lemma respond_fixes : forall P Q s q, good P Q s -> lookup (qkey q) (v_map s) <> None ->
  (forall m j, In m P -> announces m j -> (i_ip j, i_id j) = qkey q -> j = q_info q) ->
  fixed (qkey q) (e_content (new_entry load q)) (e_ctx (new_entry load q)) (q_info q) (respond s q).
Proof.
  intros P Q s q G T A. rewrite respond_eq.
  destruct (lookup (qkey q) (v_map s)) as [e|] eqn:L; [|exfalso; apply T; reflexivity].
  apply drain_fixed.
  - exists []. cbn [v_map with_map]. rewrite lookup_put_same. f_equal.
    unfold new_entry. destruct (q_lib q); reflexivity.
  - intros m j I. apply A. apply (g_held _ _ _ _ _ G _ _ _ L I).
Qed.

Lemma steps_fixed : forall k c x i mid pre, fixed k c x i (run pre) ->
  (forall m j, In m (packets mid) -> announces m j -> (i_ip j, i_id j) = k -> j = i) ->
  (forall q, In q (responses mid) -> qkey q <> k) ->
  fixed k c x i (run (pre ++ mid)).
Proof.
  intros k c x i mid pre F. induction mid as [|e mid IH] using rev_ind; intros A R.
  - rewrite app_nil_r. exact F.
  - rewrite packets_app in A. rewrite responses_app in R.
    assert (F' : fixed k c x i (run (pre ++ mid))).
    { apply IH; [intros; eapply A; eauto; apply in_or_app; auto|
                 intros; apply R; apply in_or_app; auto]. }
    rewrite app_assoc, run_app. cbn [fold_left].
    destruct e as [m|q]; cbn [YvModel.step].
    + apply handle_fixed; [exact F'|]. intros j. apply A. apply in_or_app. right. left. reflexivity.
    + destruct F' as [h L]. exists h.
      rewrite (respond_other _ _ _ _ _ (run_good max_sub max_peer load valid _)); [exact L|].
      intros ->. eapply R; [apply in_or_app; right; left; reflexivity|reflexivity].
Qed.

Lemma handle_deliver : forall s m id e, of_sub (m_ip m) id m ->
  lookup (m_ip m, id) (v_map s) = Some e -> ~ unversioned m ->
  (forall j, announces m j -> e_info e = j) ->
  handle s m = deliver (received s) e m.
Proof.
  intros s m id e [_ O] L NU A. unfold YvModel.handle. unfold names in O.
  destruct (m_body m) as [| |id' [[cid rest]|]|id'|id'] eqn:B; try discriminate; injection O as ->.
  - unfold check_new. cbn [i_ip i_id v_map received]. rewrite L.
    rewrite (A (mk_info (m_ip m) id cid rest)) by (split; [reflexivity|exact B]).
    rewrite info_eqb_refl. cbn [v_map received]. rewrite L.
    rewrite (A (mk_info (m_ip m) id cid rest)) by (split; [reflexivity|exact B]).
    rewrite info_eqb_refl. reflexivity.
  - exfalso. apply NU. exists id. exact B.
  - cbn [v_map received]. rewrite L. reflexivity.
  - cbn [v_map received]. rewrite L. reflexivity.
Qed.

(* ---- the newest description ---- *)
Definition described (k : N * N) (i : info) (s : st) : Prop :=
  exists e, lookup k (v_map s) = Some e /\ e_info e = i.

Lemma announce_described : forall s a i, announces a i ->
  described (i_ip i, i_id i) i (handle s a).
Proof.
  intros s a i A. destruct A as [A1 A2].
  destruct (handle_cases max_sub max_peer valid s a)
    as [B|B|id e O L NU A|id j ask O I1 I2 C A|j e ask A L NE].
  - rewrite B in A2. discriminate.
  - rewrite B in A2. discriminate.
  - exists e. rewrite deliver_map. cbn [v_map received].
    destruct O as [_ O]. unfold names in O. rewrite A2 in O. injection O as <-.
    rewrite <- A1. split; [exact L|]. apply A. split; assumption.
  - assert (j = i) as -> by (apply A; split; assumption).
    assert (LN : lookup (m_ip a, i_id i) (v_map s) = None).
    { destruct C as [[id' U]|C]; [rewrite A2 in U; discriminate|].
      destruct O as [_ O]. unfold names in O. rewrite A2 in O. injection O as <-. exact C. }
    pose proof (cache_cases (asked (received s) ask) i a) as CC.
    destruct (cached_lookup_same _ i a _ CC) as [h H]. rewrite A1 in H, LN.
    eexists. split; [exact H|]. cbn [v_map asked received]. rewrite LN. reflexivity.
  - assert (j = i) as ->.
    { destruct A as [B1 B2]. destruct i as [x1 x2 x3 x4], j as [y1 y2 y3 y4]; cbn in *. congruence. }
    pose proof (cache_cases (asked (forget (received s) (i_ip i, i_id i) e) ask) i a) as CC.
    destruct (cached_lookup_same _ i a _ CC) as [h H]. rewrite A1 in H.
    eexists. split; [exact H|]. cbn [v_map asked forget received].
    rewrite lookup_del_same. reflexivity.
Qed.

Lemma handle_described : forall k i s m, described k i s ->
  (forall j, announces m j -> (i_ip j, i_id j) = k -> j = i) -> described k i (handle s m).
Proof.
  intros k i s m (e & L & E) A.
  destruct (handle_keeps s m k e L) as [h H].
  - intros j J K. rewrite E. symmetry. apply A; assumption.
  - eexists. split; [exact H|exact E].
Qed.

Lemma drain_described : forall k i l s, described k i s ->
  (forall m j, In m l -> announces m j -> (i_ip j, i_id j) = k -> j = i) -> described k i (drain l s).
Proof.
  intros k i. induction l as [|m l IH]; intros s F A; cbn [fold_left]; [exact F|].
  apply IH.
  - apply handle_described; [exact F|]. intros j. apply A. left. reflexivity.
  - intros m' j I. apply A. right. exact I.
Qed.

Lemma steps_described : forall k i mid pre, described k i (run pre) ->
  (forall m j, In m (packets mid) -> announces m j -> (i_ip j, i_id j) = k -> j = i) ->
  (forall q, In q (responses mid) -> qkey q = k -> q_info q = i) ->
  described k i (run (pre ++ mid)).
Proof.
  intros k i mid pre F. induction mid as [|e mid IH] using rev_ind; intros A R.
  - rewrite app_nil_r. exact F.
  - rewrite packets_app in A. rewrite responses_app in R.
    assert (F' : described k i (run (pre ++ mid))).
    { apply IH; [intros; eapply A; eauto; apply in_or_app; auto|
                 intros; apply R; auto; apply in_or_app; auto]. }
    rewrite app_assoc, run_app. cbn [fold_left].
    destruct e as [m|q]; cbn [YvModel.step].
    + apply handle_described; [exact F'|]. intros j. apply A. apply in_or_app. right. left. reflexivity.
    + pose proof (run_good max_sub max_peer load valid (pre ++ mid)) as G.
      destruct (key_dec k (qkey q)) as [->|N].
      * destruct F' as (e & L & E). rewrite respond_eq, L. apply drain_described.
        -- exists (new_entry load q). cbn [v_map with_map]. rewrite lookup_put_same.
           split; [reflexivity|]. rewrite new_entry_info. apply R; [|reflexivity].
           apply in_or_app. right. left. reflexivity.
        -- intros m j I J K. destruct (g_held _ _ _ _ _ G _ _ _ L I) as (_ & _ & X).
           rewrite <- E. symmetry. apply X. exact J.
      * destruct F' as (e & L & E). exists e. split; [|exact E].
        rewrite (respond_other _ _ _ _ _ G N). exact L.
Qed.

Lemma deliver_out : forall s e m,
  v_out (deliver s e m) = v_out s \/ exists c, v_out (deliver s e m) = v_out s ++ [mk_out c (e_info e) m].
Proof.
  intros s e m. unfold YvModel.deliver.
  destruct (e_content e); [|right; eexists; reflexivity].
  destruct (e_ctx e); [|right; eexists; reflexivity].
  destruct (is_empty (e_info e)); [right; eexists; reflexivity|].
  destruct (valid _ m); [right; eexists; reflexivity|left; reflexivity].
Qed.

Lemma cached_out : forall s i m, v_out (cache_packet s i m) = v_out s.
Proof.
  intros s i m. destruct (cache_cases s i m) as [s' e Hd HMap H|s' e Hd Hp HMap H]; exact H.
Qed.

Lemma handle_out : forall s m,
  v_out (handle s m) = v_out s \/ exists c i, v_out (handle s m) = v_out s ++ [mk_out c i m].
Proof.
  intros s m. destruct (handle_cases max_sub max_peer valid s m)
    as [B|B|id e O L NU A|id i a O I1 I2 C A|i e a A L NE]; try (left; reflexivity).
  - destruct (deliver_out (received s) e m) as [H|[c H]]; [left; exact H|right; exists c, (e_info e); exact H].
  - left. rewrite cached_out. reflexivity.
  - left. rewrite cached_out. reflexivity.
Qed.

(* A packet not tracked yet is not sent on. *)
Lemma handle_first : forall s m id, of_sub (m_ip m) id m ->
  lookup (m_ip m, id) (v_map s) = None ->
  v_out (handle s m) = v_out s /\ exists a, v_asks (handle s m) = v_asks s ++ [a].
Proof.
  intros s m id O L. destruct (handle_cases max_sub max_peer valid s m)
    as [B|B|id' e O' L' NU A|id' i a O' I1 I2 C A|i e a A L' NE].
  - destruct O as [_ O]. unfold names in O. rewrite B in O. discriminate.
  - destruct O as [_ O]. unfold names in O. rewrite B in O. discriminate.
  - destruct (of_sub_uniq _ _ _ _ _ O O') as [_ <-]. congruence.
  - split; [rewrite cached_out; reflexivity|]. exists a.
    destruct (cache_cases (asked (received s) a) i m) as [s' e Hd HMap H1 H2 H3 H4 H5 H6 H7 H8 H9 H10 H11
      |s' e Hd Hp HMap H1 H2 H3 H4 H5 H6 H7 H8 H9 H10 H11]; exact H11.
  - exfalso. destruct A as [A1 A2]. destruct O as [_ O]. unfold names in O.
    rewrite A2 in O. injection O as <-. rewrite A1 in L. congruence.
Qed.

Lemma drain_sent : forall l s o, In o (v_out (drain l s)) -> In o (v_out s) \/ In (o_msg o) l.
Proof.
  induction l as [|m l IH]; intros s o I; cbn [fold_left] in I; [auto|].
  destruct (IH _ _ I) as [I'|I']; [|right; right; exact I'].
  destruct (handle_out (drained s) m) as [H|(c & i & H)]; rewrite H in I'; [auto|].
  apply in_app_or in I' as [I'|[<-|[]]]; [auto|right; left; reflexivity].
Qed.

Lemma steps_unsent : forall m id mid pre, of_sub (m_ip m) id m ->
  ~ In m (sent (run pre)) -> ~ In m (packets mid) ->
  (forall q, In q (responses mid) -> ~ about (m_ip m) id q) ->
  ~ In m (sent (run (pre ++ mid))).
Proof.
  intros m id mid pre O NS. induction mid as [|e mid IH] using rev_ind; intros NP R.
  - rewrite app_nil_r. exact NS.
  - rewrite packets_app in NP. rewrite responses_app in R.
    assert (NS' : ~ In m (sent (run (pre ++ mid)))).
    { apply IH; [intros X; apply NP, in_or_app; auto|intros; apply R, in_or_app; auto]. }
    rewrite app_assoc, run_app. cbn [fold_left]. intros I. apply NS'.
    unfold sent in *. apply in_map_iff in I as (o & E & I).
    destruct e as [m'|q]; cbn [YvModel.step] in I.
    + destruct (handle_out (run (pre ++ mid)) m') as [H|(c & i & H)]; rewrite H in I.
      * apply in_map_iff. eauto.
      * apply in_app_or in I as [I|[<-|[]]]; [apply in_map_iff; eauto|].
        exfalso. apply NP, in_or_app. right. left. exact E.
    + pose proof (run_good max_sub max_peer load valid (pre ++ mid)) as G.
      rewrite respond_eq in I. destruct (lookup (qkey q) (v_map (run (pre ++ mid)))) as [e|] eqn:L.
      * apply drain_sent in I as [I|I]; [apply in_map_iff; exists o; auto|].
        exfalso. rewrite E in I. destruct (g_held _ _ _ _ _ G _ _ _ L I) as (_ & O2 & _).
        apply (R q); [apply in_or_app; right; left; reflexivity|].
        destruct (of_sub_uniq _ _ _ _ _ O O2) as [E1 E2]. split; cbn in *; congruence.
      * apply in_map_iff. eauto.
Qed.

(* ---- after an answer nothing waits ---- *)
Definition settled (k : N * N) (c x : option N) (i : info) (s : st) : Prop :=
  lookup k (v_map s) = Some (mk_entry c i x []).

Lemma handle_settled : forall k c x i s m, settled k c x i s ->
  of_sub (fst k) (snd k) m -> ~ unversioned m -> (forall j, announces m j -> j = i) ->
  settled k c x i (handle s m).
Proof.
  intros [ip id] c x i s m L O NU A. cbn in O. destruct O as [<- O].
  unfold settled in *. rewrite (handle_deliver s m id (mk_entry c i x [])).
  - rewrite deliver_map. exact L.
  - split; [reflexivity|exact O].
  - exact L.
  - exact NU.
  - cbn. intros j J. symmetry. apply A, J.
Qed.

Lemma respond_settles : forall P Q s q, good P Q s -> lookup (qkey q) (v_map s) <> None ->
  (forall m, In m P -> of_sub (fst (qkey q)) (snd (qkey q)) m -> ~ unversioned m /\ (forall j, announces m j -> j = q_info q)) ->
  settled (qkey q) (e_content (new_entry load q)) (e_ctx (new_entry load q)) (q_info q) (respond s q).
Proof.
  intros P Q s q G T A. rewrite respond_eq.
  destruct (lookup (qkey q) (v_map s)) as [e|] eqn:L; [|exfalso; apply T; reflexivity].
  assert (HE : forall m, In m (e_held e) -> In m P /\ of_sub (fst (qkey q)) (snd (qkey q)) m).
  { intros m I. destruct (g_held _ _ _ _ _ G _ _ _ L I) as (X & Y & _). auto. }
  assert (S0 : settled (qkey q) (e_content (new_entry load q)) (e_ctx (new_entry load q)) (q_info q)
             (with_map s (put (qkey q) (new_entry load q) (v_map s)))).
  { unfold settled. cbn [v_map with_map]. rewrite lookup_put_same. f_equal.
    unfold new_entry. destruct (q_lib q); reflexivity. }
  revert S0. generalize (with_map s (put (qkey q) (new_entry load q) (v_map s))).
  clear L. induction (e_held e) as [|m l IH]; intros s0 S0; cbn [fold_left]; [exact S0|].
  apply IH.
  - intros m' I. apply HE. right. exact I.
  - destruct (HE m (or_introl eq_refl)) as [I O]. destruct (A m I O) as [NU AN].
    apply handle_settled; assumption.
Qed.

(* ---- what can be lost ---- *)
Definition lost_reason (P : list msg) (s : st) : Prop :=
  forall m, In m (v_lost s) -> In m P /\ exists a i, In a P /\ announces a i /\ of_sub (i_ip i) (i_id i) m.

Lemma cached_lost : forall s i m, v_lost (cache_packet s i m) = v_lost s.
Proof.
  intros s i m. destruct (cache_cases s i m) as [s' e Hd HMap H H'|s' e Hd Hp HMap H H']; exact H'.
Qed.

Lemma deliver_lost : forall s e m, v_lost (deliver s e m) = v_lost s.
Proof.
  intros s e m. unfold YvModel.deliver.
  destruct (e_content e); [|reflexivity]. destruct (e_ctx e); [|reflexivity].
  destruct (is_empty (e_info e)); [reflexivity|]. destruct (valid _ m); reflexivity.
Qed.

Lemma handle_lost : forall P Q s m, good P Q s -> In m P -> lost_reason P s -> lost_reason P (handle s m).
Proof.
  intros P Q s m G HP LR. destruct (handle_cases max_sub max_peer valid s m)
    as [B|B|id e O L NU A|id i a O I1 I2 C A|i e a A L NE]; try exact LR.
  - unfold lost_reason. rewrite deliver_lost. exact LR.
  - unfold lost_reason. rewrite cached_lost. exact LR.
  - unfold lost_reason. rewrite cached_lost. cbn. intros m' I. apply in_app_or in I as [I|I]; [apply LR; exact I|].
    destruct (g_held _ _ _ _ _ G _ _ _ L I) as (X & Y & _). split; [exact X|].
    exists m, i. auto.
Qed.

Lemma drain_lost : forall P Q l s, good P Q s -> incl l P -> lost_reason P s -> lost_reason P (drain l s).
Proof.
  intros P Q. induction l as [|m l IH]; intros s G I LR; cbn [fold_left]; [exact LR|].
  apply IH.
  - apply handle_good; [apply (good_same _ _ _ _ s); [reflexivity|reflexivity|exact G]|apply I; left; reflexivity].
  - intros x X. apply I. right. exact X.
  - eapply handle_lost; [apply (good_same _ _ _ _ s); [reflexivity|reflexivity|exact G]|apply I; left; reflexivity|exact LR].
Qed.

Lemma put_new_good : forall P Q s q, good P Q s -> In q Q ->
  good P Q (with_map s (put (qkey q) (new_entry load q) (v_map s))).
Proof.
  intros P Q s q G HQ. eapply put_good; [exact G|reflexivity|reflexivity|..].
  - rewrite new_entry_info. reflexivity.
  - intros c x. unfold new_entry. destruct (q_lib q) as [l|] eqn:E; cbn; [|discriminate].
    intros H1 H2. exists q, l. auto.
  - rewrite new_entry_held. easy.
  - left. exists q. rewrite new_entry_info. auto.
Qed.

Lemma run_lost : forall evs, lost_reason (packets evs) (run evs).
Proof.
  induction evs as [|e evs IH] using rev_ind.
  - intros m [].
  - rewrite run_app, packets_app. cbn [fold_left].
    assert (G : good (packets evs ++ packets [e]) (responses evs ++ responses [e]) (run evs)).
    { eapply good_mono; [| |apply run_good]; intros x X; apply in_or_app; auto. }
    assert (LR : lost_reason (packets evs ++ packets [e]) (run evs)).
    { intros m I. destruct (IH m I) as (X & a & i & Y & Z). split; [apply in_or_app; auto|].
      exists a, i. split; [apply in_or_app; auto|exact Z]. }
    destruct e as [m|q]; cbn [YvModel.step].
    + eapply handle_lost; [exact G| |exact LR]. apply in_or_app. right. left. reflexivity.
    + rewrite respond_eq. destruct (lookup (qkey q) (v_map (run evs))) as [e|] eqn:L; [|exact LR].
      eapply drain_lost; [| |exact LR].
      * apply put_new_good; [exact G|]. apply in_or_app. right. left. reflexivity.
      * intros m I. apply (g_held _ _ _ _ _ G _ _ _ L I).
Qed.

(* Under an orderly history every entry has its agreed description. *)
Definition agreed (D : N -> N -> info) (s : st) : Prop :=
  v_lost s = [] /\ forall k e, lookup k (v_map s) = Some e -> e_info e = D (fst k) (snd k).

Lemma agreed_same : forall D s s', v_map s' = v_map s -> v_lost s' = v_lost s -> agreed D s -> agreed D s'.
Proof. intros D s s' H1 H2 [A B]. split; rewrite ?H1, ?H2; assumption. Qed.

Lemma handle_agreed : forall D s m, agreed D s ->
  (forall i, announces m i -> i = D (i_ip i) (i_id i)) ->
  (forall id, names m = Some id -> (exists i, announces m i) \/ lookup (m_ip m, id) (v_map s) <> None) ->
  agreed D (handle s m).
Proof.
  intros D s m AG A F. destruct (handle_cases max_sub max_peer valid s m)
    as [B|B|id e O L NU A'|id i a O I1 I2 C A'|i e a A' L NE]; try exact AG.
  - apply (agreed_same D (received s)); [apply deliver_map|apply deliver_lost|exact AG].
  - assert (EI : e_info (entry_or i (lookup (m_ip m, i_id i) (v_map s))) = D (m_ip m) (i_id i)).
    { destruct (lookup (m_ip m, i_id i) (v_map s)) as [e|] eqn:L; cbn.
      - apply AG in L. exact L.
      - destruct O as [_ O]. destruct (F id O) as [[j J]|T].
        + pose proof (A' j J) as ->. rewrite <- I1. apply A. exact J.
        + rewrite <- I2 in T. contradiction. }
    split; [rewrite cached_lost; exact (proj1 AG)|].
    intros k e L. pose proof (cache_cases (asked (received s) a) i m) as CC.
    destruct (key_dec k (m_ip m, i_id i)) as [->|N].
    + destruct (cached_lookup_same _ i m _ CC) as [h H]. rewrite H in L. injection L as <-. exact EI.
    + rewrite (cached_lookup_other _ i m _ k CC N) in L. apply AG. exact L.
  - exfalso. apply NE. apply AG in L. cbn in L. rewrite L. symmetry. apply A. exact A'.
Qed.

Lemma run_agreed : forall D evs, orderly D evs -> agreed D (run evs).
Proof.
  intros D. induction evs as [|e evs IH] using rev_ind; intros (OA & OR & OF).
  - split; [reflexivity|discriminate].
  - rewrite packets_app in OA. rewrite responses_app in OR.
    assert (AG : agreed D (run evs)).
    { apply IH. split; [|split].
      - intros a i I. apply OA. apply in_or_app. auto.
      - intros q I. apply OR. apply in_or_app. auto.
      - intros pre m post id E. apply (OF pre m (post ++ [e]) id). rewrite E, <- app_assoc. reflexivity. }
    rewrite run_app. cbn [fold_left]. destruct e as [m|q]; cbn [YvModel.step].
    + apply handle_agreed; [exact AG| |].
      * intros i. apply OA. apply in_or_app. right. left. reflexivity.
      * intros id NM. destruct (OF evs m [] id eq_refl NM) as [J|J]; [left; exact J|right].
        apply run_tracked. exact J.
    + rewrite respond_eq. destruct (lookup (qkey q) (v_map (run evs))) as [e|] eqn:L; [|exact AG].
      pose proof (run_good max_sub max_peer load valid evs) as G.
      assert (HE : forall m, In m (e_held e) -> In m (packets evs) /\ of_sub (fst (qkey q)) (snd (qkey q)) m).
      { intros m I. destruct (g_held _ _ _ _ _ G _ _ _ L I) as (X & Y & _). auto. }
      assert (S0 : agreed D (with_map (run evs) (put (qkey q) (new_entry load q) (v_map (run evs)))) /\
                   lookup (qkey q) (v_map (with_map (run evs) (put (qkey q) (new_entry load q) (v_map (run evs))))) <> None).
      { split; [split; [apply AG|]|]; cbn [v_map with_map].
        - intros k e' L'. destruct (key_dec k (qkey q)) as [->|N].
          + rewrite lookup_put_same in L'. injection L' as <-. rewrite new_entry_info.
            apply OR. apply in_or_app. right. left. reflexivity.
          + rewrite lookup_put_other in L' by exact N. apply AG. exact L'.
        - rewrite lookup_put_same. discriminate. }
      revert S0. generalize (with_map (run evs) (put (qkey q) (new_entry load q) (v_map (run evs)))).
      clear L. induction (e_held e) as [|m l IHl]; intros s0 [S1 S2]; cbn [fold_left]; [exact S1|].
      apply IHl.
      * intros m' I. apply HE. right. exact I.
      * destruct (HE m (or_introl eq_refl)) as [I O].
        assert (AGm : agreed D (handle (drained s0) m)).
        { apply handle_agreed; [exact S1| |].
          - intros i. apply OA. apply in_or_app. auto.
          - intros id NM. right. cbn [v_map drained].
            destruct (of_sub_uniq m _ _ _ _ (conj eq_refl NM) O) as [-> ->].
            rewrite <- surjective_pairing. exact S2. }
        split; [exact AGm|]. apply handle_keeps_some. exact S2.
Qed.

(* ---- peers do not interfere ---- *)
Definition pmap (ip : N) (m : list (N * N * entry)) : list (N * N * entry) :=
  filter (fun x => (fst (fst x) =? ip)%N) m.

Definition peer_view (ip : N) (s t : st) : Prop :=
  pmap ip (v_map s) = pmap ip (v_map t) /\ out_of ip s = out_of ip t.

Lemma pmap_lookup : forall ip id m, lookup (ip, id) (pmap ip m) = lookup (ip, id) m.
Proof.
  intros ip id m. unfold lookup, pmap. induction m as [|[[a b] e] m IH]; cbn; [reflexivity|].
  unfold keqb at 2. cbn. destruct (N.eqb_spec a ip) as [->|N]; cbn.
  - unfold keqb at 1. cbn. rewrite N.eqb_refl. cbn. destruct (id =? b)%N; [reflexivity|exact IH].
  - replace (ip =? a)%N with false by (symmetry; apply N.eqb_neq; congruence). cbn. exact IH.
Qed.

Lemma pmap_del : forall ip k m, pmap ip (del k m) = del k (pmap ip m).
Proof.
  intros ip k m. unfold pmap, del. induction m as [|[k2 e] m IH]; cbn; [reflexivity|].
  destruct (keqb k k2) eqn:E; cbn; destruct (fst k2 =? ip)%N eqn:E2; cbn; rewrite ?E; cbn;
    rewrite ?IH; reflexivity.
Qed.

Lemma pmap_del_other : forall ip k m, fst k <> ip -> pmap ip (del k m) = pmap ip m.
Proof.
  intros ip k m N. unfold pmap, del. induction m as [|[k2 e] m IH]; cbn; [reflexivity|].
  destruct (keqb k k2) eqn:E; cbn.
  - apply keqb_eq in E; subst. rewrite (proj2 (N.eqb_neq (fst k2) ip) N). exact IH.
  - destruct (fst k2 =? ip)%N; rewrite IH; reflexivity.
Qed.

Lemma pmap_put : forall ip id e m, pmap ip (put (ip, id) e m) = put (ip, id) e (pmap ip m).
Proof.
  intros. unfold put. cbn. rewrite N.eqb_refl. f_equal. apply pmap_del.
Qed.

Lemma pmap_put_other : forall ip k e m, fst k <> ip -> pmap ip (put k e m) = pmap ip m.
Proof.
  intros ip k e m N. unfold put. cbn. rewrite (proj2 (N.eqb_neq (fst k) ip) N).
  apply pmap_del_other. exact N.
Qed.

Lemma pmap_total : forall ip m, peer_total ip (pmap ip m) = peer_total ip m.
Proof.
  intros ip m. unfold peer_total, pmap. induction m as [|[k e] m IH]; cbn; [reflexivity|].
  destruct (fst k =? ip)%N eqn:E; cbn; rewrite ?E, IH; reflexivity.
Qed.

Lemma view_lookup : forall ip id s t, peer_view ip s t ->
  lookup (ip, id) (v_map s) = lookup (ip, id) (v_map t).
Proof. intros ip id s t [H _]. rewrite <- (pmap_lookup ip id (v_map s)), H. apply pmap_lookup. Qed.

Lemma view_total : forall ip s t, peer_view ip s t -> peer_total ip (v_map s) = peer_total ip (v_map t).
Proof. intros ip s t [H _]. rewrite <- (pmap_total ip (v_map s)), H. apply pmap_total. Qed.

Lemma view_cache : forall i m s t, peer_view (m_ip m) s t ->
  peer_view (m_ip m) (cache_packet s i m) (cache_packet t i m).
Proof.
  intros i m s t V. unfold YvModel.cache_packet.
  rewrite (view_lookup _ (i_id i) _ _ V), (view_total _ _ _ V).
  match goal with |- context [if ?c then _ else _] => destruct c end;
    destruct V as [V1 V2]; split; cbn [v_map with_map]; try exact V2;
    rewrite !pmap_put, V1; reflexivity.
Qed.

Lemma view_deliver : forall e m s t, peer_view (m_ip m) s t ->
  peer_view (m_ip m) (deliver s e m) (deliver t e m).
Proof.
  intros e m s t [V1 V2].
  assert (E : forall c sk, peer_view (m_ip m) (emit s c (e_info e) m sk) (emit t c (e_info e) m sk)).
  { intros c sk. split; [exact V1|]. unfold out_of in *. cbn. rewrite !filter_app, V2. reflexivity. }
  unfold YvModel.deliver. destruct (e_content e); [|apply E]. destruct (e_ctx e); [|apply E].
  destruct (is_empty (e_info e)); [apply E|]. destruct (valid _ m); [apply E|split; assumption].
Qed.

Lemma view_handle : forall m s t, peer_view (m_ip m) s t -> peer_view (m_ip m) (handle s m) (handle t m).
Proof.
  intros m s t V.
  assert (VR : peer_view (m_ip m) (received s) (received t)) by exact V.
  assert (VA : forall a, peer_view (m_ip m) (asked (received s) a) (asked (received t) a)) by (intros; exact V).
  unfold YvModel.handle. destruct (m_body m) as [| |id [[cid rest]|]|id|id].
  - exact V.
  - exact V.
  - set (i := mk_info (m_ip m) id cid rest).
    assert (VC : peer_view (m_ip m) (check_new (received s) i) (check_new (received t) i)).
    { unfold check_new. cbn [i_ip i_id i]. cbn [v_map received].
      rewrite <- (view_lookup _ id _ _ V). destruct (lookup (m_ip m, id) (v_map s)) as [e|]; [|exact VR].
      destruct (info_eqb (e_info e) i); [exact VR|].
      destruct V as [V1 V2]. split; [cbn [v_map received]; rewrite !pmap_del, V1; reflexivity|exact V2]. }
    rewrite <- (view_lookup _ id _ _ VC).
    destruct (lookup (m_ip m, id) (v_map (check_new (received s) i))) as [e|].
    + destruct (info_eqb (e_info e) i); [apply view_deliver; exact VC|apply view_cache; exact VC].
    + apply view_cache. exact VC.
  - apply view_cache, VA.
  - cbn [v_map received]. rewrite <- (view_lookup _ id _ _ V).
    destruct (lookup (m_ip m, id) (v_map s)); [apply view_deliver; exact VR|apply view_cache, VA].
  - cbn [v_map received]. rewrite <- (view_lookup _ id _ _ V).
    destruct (lookup (m_ip m, id) (v_map s)); [apply view_deliver; exact VR|apply view_cache, VA].
Qed.

Lemma pmap_other_cached : forall ip s i m, m_ip m <> ip ->
  pmap ip (v_map (cache_packet s i m)) = pmap ip (v_map s).
Proof.
  intros ip s i m N. destruct (cache_cases s i m) as [s' e Hd HMap|s' e Hd Hp HMap];
    rewrite HMap; apply pmap_put_other; exact N.
Qed.

Lemma view_handle_other : forall ip m s, m_ip m <> ip -> peer_view ip (handle s m) s.
Proof.
  intros ip m s N. split.
  - destruct (handle_cases max_sub max_peer valid s m)
      as [B|B|id e O L NU A|id i a O I1 I2 C A|i e a A L NE]; try reflexivity.
    + rewrite deliver_map. reflexivity.
    + rewrite pmap_other_cached by exact N. reflexivity.
    + rewrite pmap_other_cached by exact N. cbn [v_map asked forget received].
      apply pmap_del_other. destruct A as [A1 _]. cbn. congruence.
  - unfold out_of. destruct (handle_out s m) as [H|(c & i & H)]; rewrite H; [reflexivity|].
    rewrite filter_app. cbn. rewrite (proj2 (N.eqb_neq (m_ip m) ip) N). apply app_nil_r.
Qed.

Lemma view_trans : forall ip a b c, peer_view ip a b -> peer_view ip b c -> peer_view ip a c.
Proof. intros ip a b c [H1 H2] [H3 H4]. split; congruence. Qed.

Lemma view_sym : forall ip a b, peer_view ip a b -> peer_view ip b a.
Proof. intros ip a b [H1 H2]. split; congruence. Qed.

Lemma view_drain : forall ip l s t, (forall m, In m l -> m_ip m = ip) -> peer_view ip s t ->
  peer_view ip (drain l s) (drain l t).
Proof.
  intros ip. induction l as [|m l IH]; intros s t H V; cbn [fold_left]; [exact V|].
  apply IH; [intros; apply H; right; assumption|].
  rewrite <- (H m (or_introl eq_refl)). apply view_handle.
  rewrite (H m (or_introl eq_refl)). exact V.
Qed.

Lemma view_drain_other : forall ip l s, (forall m, In m l -> m_ip m <> ip) -> peer_view ip (drain l s) s.
Proof.
  intros ip. induction l as [|m l IH]; intros s H; cbn [fold_left]; [split; reflexivity|].
  eapply view_trans; [apply IH; intros; apply H; right; assumption|].
  eapply view_trans; [apply view_handle_other, H; left; reflexivity|]. split; reflexivity.
Qed.

Lemma run_view : forall ip evs, peer_view ip (run evs) (run (filter (concerns ip) evs)).
Proof.
  intros ip. induction evs as [|e evs IH] using rev_ind; [split; reflexivity|].
  rewrite filter_app, run_app. cbn [fold_left filter].
  pose proof (run_good max_sub max_peer load valid evs) as G.
  destruct e as [m|q]; cbn [YvModel.step concerns].
  - destruct (N.eqb_spec (m_ip m) ip) as [E|E].
    + rewrite run_app. cbn [fold_left YvModel.step]. subst ip. apply view_handle. exact IH.
    + rewrite app_nil_r. eapply view_trans; [apply view_handle_other; exact E|exact IH].
  - destruct (N.eqb_spec (i_ip (q_info q)) ip) as [E|E].
    + rewrite run_app. cbn [fold_left YvModel.step]. rewrite !respond_eq.
      assert (LE : lookup (qkey q) (v_map (run evs)) = lookup (qkey q) (v_map (run (filter (concerns ip) evs)))).
      { unfold qkey. rewrite E. apply view_lookup. exact IH. }
      rewrite <- LE. destruct (lookup (qkey q) (v_map (run evs))) as [e|] eqn:L; [|exact IH].
      apply view_drain.
      * intros m I. destruct (g_held _ _ _ _ _ G _ _ _ L I) as (_ & O & _).
        destruct O as [O _]. cbn in O. congruence.
      * destruct IH as [V1 V2]. split; [|exact V2]. cbn [v_map with_map].
        unfold qkey. rewrite E. rewrite !pmap_put, V1. reflexivity.
    + rewrite app_nil_r. eapply view_trans; [|exact IH]. rewrite respond_eq.
      destruct (lookup (qkey q) (v_map (run evs))) as [e|] eqn:L; [|split; reflexivity].
      eapply view_trans; [apply view_drain_other|].
      * intros m I. destruct (g_held _ _ _ _ _ G _ _ _ L I) as (_ & O & _).
        destruct O as [O _]. cbn in O. congruence.
      * split; [|reflexivity]. cbn [v_map with_map]. apply pmap_put_other. exact E.
Qed.

(* ---- the main loop ---- *)
Notation tick := (tick max_sub max_peer load valid).
Notation rounds := (rounds max_sub max_peer load valid).

Lemma rounds_starve : forall a l, (forall x, In x a -> fst x <> []) ->
  l_cache (rounds l a) = l_cache l ++ flat_map snd a.
Proof.
  unfold YvModel.rounds. induction a as [|[ms qs] a IH]; intros l H; cbn [fold_left flat_map].
  - rewrite app_nil_r. reflexivity.
  - rewrite IH by (intros; apply H; right; assumption). cbn [fst snd].
    specialize (H (ms, qs) (or_introl eq_refl)). cbn in H.
    unfold YvModel.tick, arrive. cbn [l_rx l_cache l_st].
    destruct (l_rx l ++ ms) as [|m r] eqn:E.
    + apply app_eq_nil in E as [_ E]. contradiction.
    + cbn [l_cache]. rewrite app_assoc. reflexivity.
Qed.

Lemma rounds_quiet : forall n rx qs s,
  n = length rx + length qs ->
  rounds (mk_loop rx qs s) (repeat ([], []) n) =
  mk_loop [] [] (fold_left step (map Packet rx ++ map Response qs) s).
Proof.
  unfold YvModel.rounds. induction n as [|n IH]; intros rx qs s H.
  - destruct rx; [|discriminate]. destruct qs; [|discriminate]. reflexivity.
  - cbn [repeat fold_left]. unfold arrive. cbn [l_rx l_cache l_st fst snd]. rewrite !app_nil_r.
    unfold YvModel.tick at 2. cbn [l_rx l_cache l_st]. destruct rx as [|m rx].
    + destruct qs as [|q qs]; [discriminate|].
      rewrite (IH [] qs) by (cbn in *; lia). reflexivity.
    + rewrite (IH rx qs) by (cbn in *; lia). reflexivity.
Qed.
End P.

(* ---- the two actors and their channels ---- *)
Section Duo.
Variable cap_req cap_resp : nat.
Notation dstep := (dstep cap_req cap_resp).
Notation dsteps := (dsteps cap_req cap_resp).

Definition b2n (b : bool) : nat := if b then 1 else 0.

Definition dinv (n : nat) (d : duo) : Prop :=
  d_rx d + b2n (d_vsend d) + d_req d + b2n (d_csend d) + d_resp d + d_done d = n /\
  d_req d <= cap_req /\ d_resp d <= cap_resp.

Lemma dinv_steps : forall n d, dsteps (burst n) d -> dinv n d.
Proof.
  intros n d H. remember (burst n) as b eqn:E. revert E.
  induction H as [b|a b c H IH S]; intros E; subst.
  - unfold dinv. cbn. lia.
  - specialize (IH eq_refl). unfold dinv in *. destruct S; cbn in *; lia.
Qed.

Lemma dsteps_done : forall n d, cap_req + cap_resp + 2 <= n -> dsteps (burst n) d -> d_done d = 0.
Proof.
  intros n d L H. remember (burst n) as b eqn:E. revert E.
  induction H as [b|a b c H IH S]; intros E; subst.
  - reflexivity.
  - specialize (IH eq_refl).
    assert (I : dinv n b) by (apply dinv_steps; exact H).
    destruct S; cbn in *; auto. exfalso. unfold dinv in I. cbn in I.
    destruct c; cbn in I; lia.
Qed.

Definition measure (d : duo) : nat :=
  5 * d_rx d + 4 * b2n (d_vsend d) + 3 * d_req d + 2 * b2n (d_csend d) + d_resp d.

Lemma dstep_measure : forall a b, dstep a b -> measure b < measure a.
Proof. intros a b S. destruct S; unfold measure; cbn; try destruct c; try destruct v; cbn; lia. Qed.

Lemma dsteps_trans : forall a b c, dsteps a b -> dsteps b c -> dsteps a c.
Proof.
  intros a b c H1 H2. induction H2 as [b|b d e H2 IH S]; [exact H1|].
  apply (ds_step _ _ a d e); [apply IH; exact H1|exact S].
Qed.

Lemma dstep_dec : forall d, (exists d', dstep d d') \/ (forall d', ~ dstep d d').
Proof.
  intros [p v r c a n]. destruct v.
  - destruct (lt_dec r cap_req) as [L|L]; [left; eexists; apply d_request; exact L|].
    destruct c.
    + destruct (lt_dec a cap_resp) as [L2|L2]; [left; eexists; apply d_answer; exact L2|].
      right. intros d' S. inversion S; subst; contradiction.
    + destruct r as [|r].
      * right. intros d' S. inversion S; subst; contradiction.
      * left. eexists. apply d_lookup.
  - destruct p as [|p]; [|left; eexists; apply d_take].
    destruct a as [|a]; [|left; eexists; apply d_response].
    destruct c.
    + destruct (lt_dec 0 cap_resp) as [L2|L2]; [left; eexists; apply d_answer; exact L2|].
      right. intros d' S. inversion S; subst; contradiction.
    + destruct r as [|r]; [|left; eexists; apply d_lookup].
      right. intros d' S. inversion S.
Qed.

Lemma dsteps_end : forall k d, measure d <= k -> exists d', dsteps d d' /\ forall d'', ~ dstep d' d''.
Proof.
  induction k as [|k IH]; intros d M; destruct (dstep_dec d) as [[d' S]|N].
  - apply dstep_measure in S. lia.
  - exists d. split; [constructor|exact N].
  - destruct (IH d') as (e & H1 & H2); [apply dstep_measure in S; lia|].
    exists e. split; [|exact H2]. eapply dsteps_trans; [|exact H1].
    apply (ds_step _ _ d d d'); [constructor|exact S].
  - exists d. split; [constructor|exact N].
Qed.

Lemma stuck_shape : forall d, 1 <= cap_req -> 1 <= cap_resp -> (forall d', ~ dstep d d') ->
  d_req d <= cap_req -> d_resp d <= cap_resp ->
  (d_rx d = 0 /\ d_vsend d = false /\ d_req d = 0 /\ d_csend d = false /\ d_resp d = 0) \/
  (d_vsend d = true /\ d_req d = cap_req /\ d_csend d = true /\ d_resp d = cap_resp).
Proof.
  intros [p v r c a n] C1 C2 N L1 L2. cbn in *. destruct v.
  - right. split; [reflexivity|].
    assert (r = cap_req) as ->.
    { destruct (lt_dec r cap_req) as [L|L]; [|lia]. exfalso. eapply N. apply d_request. exact L. }
    split; [reflexivity|]. destruct c.
    + split; [reflexivity|]. destruct (lt_dec a cap_resp) as [L|L]; [|lia].
      exfalso. eapply N. apply d_answer. exact L.
    + exfalso. destruct cap_req as [|r]; [lia|]. eapply N. apply d_lookup.
  - left. destruct p as [|p]; [|exfalso; eapply N; apply d_take].
    destruct a as [|a]; [|exfalso; eapply N; apply d_response].
    destruct c; [exfalso; eapply N; apply d_answer; lia|].
    destruct r as [|r]; [|exfalso; eapply N; apply d_lookup]. auto.
Qed.
End Duo.
