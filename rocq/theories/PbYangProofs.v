(* Proofs about the YANG publisher. *)
From Coq Require Import List Bool Arith NArith ZArith Lia.
From Verif Require Import PbModel PbSpec PbProofs.
Import ListNotations.

Section Yang.
  Context {T V B C L : Type}.
  Variable eqc : C -> C -> bool.
  Hypothesis eqc_ok : forall a b, eqc a b = true <-> a = b.
  Variable content_id : T -> option C.
  Variable get_key : T -> option V.
  Variable serialize_json : T -> option B.
  Variable to_vec : V -> option B.
  Variable default : option Z.
  Variable custom : list (C * Z).
  Notation step := (@yang_step T V B C L eqc content_id get_key serialize_json to_vec default).
  Notation run := (@yang_run T V B C L eqc content_id get_key serialize_json to_vec default).
  Notation isrec := (is_yrecord get_key serialize_json to_vec).
  Notation yfates := (@yang_fate T V B C L content_id get_key serialize_json to_vec default custom).
  Notation right := (@right_schema T C L content_id default custom).
  Notation init := (@yang_init T B C L eqc custom).

  Lemma yang_record_some m r : yang_record get_key serialize_json to_vec m = Some r <-> isrec m r.
  Proof.
    unfold yang_record. split.
    - destruct (serialize_json m) as [v|] eqn:Es; [|discriminate].
      destruct (get_key m) as [k|] eqn:Ek.
      + destruct (to_vec k) as [kb|] eqn:Et; [|discriminate]. intros [= <-]. econstructor; eassumption.
      + intros [= <-]. now constructor.
    - intros [b E1 E2|k kb b E1 E2 E3]; rewrite E1, E2; [reflexivity|]. now rewrite E3.
  Qed.
  Lemma eqc_refl c : eqc c c = true.
  Proof. now apply eqc_ok. Qed.
  Lemma cache_get_set m c z c' : cache_get eqc (cache_set eqc m c z) c' = if eqc c c' then Some z else cache_get eqc m c'.
  Proof.
    unfold cache_get, cache_set. cbn [find fst]. destruct (eqc c c') eqn:E; [reflexivity|]. f_equal.
    induction m as [|[d w] m IH]; [reflexivity|]. cbn [filter find fst].
    destruct (eqc d c) eqn:Ed; cbn [negb].
    - apply eqc_ok in Ed. subst d. now rewrite E.
    - cbn [find fst]. destruct (eqc d c'); [reflexivity|exact IH].
  Qed.
  Lemma cache_init c id : cache_get eqc (y_cache init) c = Some id <-> custom_id custom c id.
  Proof.
    unfold yang_init. cbn [y_cache]. unfold custom_id.
    revert id. induction custom as [|[d z] l IH] using rev_ind; intros id.
    - cbn. split; [discriminate|]. intros (pre & post & E & _). now destruct pre.
    - rewrite fold_left_app. cbn [fold_left fst snd]. rewrite cache_get_set. destruct (eqc d c) eqn:Ed.
      + apply eqc_ok in Ed. subst d. split.
        * intros [= ->]. exists l, []. auto.
        * intros (pre & post & E & Hn). destruct post as [|p post] using rev_ind.
          -- apply app_inj_tail in E. destruct E as [_ [= ->]]. reflexivity.
          -- clear IHpost. change (pre ++ (c, id) :: post ++ [p]) with (pre ++ ((c, id) :: post) ++ [p]) in E.
             rewrite app_assoc in E. apply app_inj_tail in E. destruct E as [_ <-].
             exfalso. apply Hn. rewrite map_app. apply in_or_app. right. now left.
      + assert (d <> c) as Hd by (intros ->; rewrite eqc_refl in Ed; discriminate).
        rewrite IH. split.
        * intros (pre & post & -> & Hn). exists pre, (post ++ [(d, z)]). split; [now rewrite <- app_assoc|].
          rewrite map_app. intros Hi. apply in_app_or in Hi. destruct Hi as [Hi|[Hi|[]]]; auto.
        * intros (pre & post & E & Hn). destruct post as [|p post] using rev_ind.
          -- apply app_inj_tail in E. destruct E as [_ [= -> _]]. contradiction.
          -- clear IHpost. change (pre ++ (c, id) :: post ++ [p]) with (pre ++ ((c, id) :: post) ++ [p]) in E.
             rewrite app_assoc in E. apply app_inj_tail in E. destruct E as [-> _].
             exists pre, post. split; [reflexivity|]. intros Hi. apply Hn. rewrite map_app. apply in_or_app. now left.
  Qed.

  Definition right_cache (y : yang T B C L) : Prop :=
    forall c id, cache_get eqc (y_cache y) c = Some id <-> custom_id custom c id \/ exists l, In (c, l, id) (y_registered y).
  Definition reg_ids (y : yang T B C L) : list C := map (fun e => fst (fst e)) (y_registered y).
  Definition yphase_ok (y : yang T B C L) (m : T) (r : record B) : Prop :=
    match y_phase y with
    | YRequesting r' c => r' = r /\ content_id m = Some c /\ cache_get eqc (y_cache y) c = None
    | YLookup r' c => r' = r /\ content_id m = Some c /\ cache_get eqc (y_cache y) c = None /\ In c (y_asked y)
    | YRegistering r' c c' _ => r' = r /\ content_id m = Some c /\ cache_get eqc (y_cache y) c = None /\ In c (y_asked y) /\ c' = c
    | YTrying r' _ => yr_record r' = r /\ right (y_registered y) (y_asked y) m (yr_schema r')
    | YIdle | YOver _ => False
    end.
  Record yinv (y : yang T B C L) : Prop := {
    yi_cache : right_cache y;
    yi_once : NoDup (reg_ids y);
    yi_custom : forall c l id, In (c, l, id) (y_registered y) -> forall id', ~ custom_id custom c id';
    yi_asked : forall c, In c (y_asked y) -> forall id, ~ custom_id custom c id;
    yi_received : n_received (y_stats y) = length (y_in y);
    yi_sent : n_sent (y_stats y) = length (y_out y);
    yi_fates : exists fs, Forall2 (yfates (y_registered y) (y_asked y)) (y_in y) fs /\
      y_out y = ydelivered fs /\ n_decode (y_stats y) = ycount_bad fs /\ n_send (y_stats y) = ycount_lost fs /\
      (if ybusy y then exists gs ms m r, fs = gs ++ [YPending r] /\ y_in y = ms ++ [m] /\ Forall ysettled gs /\ yphase_ok y m r
       else Forall ysettled fs)
  }.
  Lemma ydelivered_app (a b : list (yfate B)) : ydelivered (a ++ b) = ydelivered a ++ ydelivered b.
  Proof. apply flat_map_app. Qed.
  Lemma ycount_bad_app (a b : list (yfate B)) : ycount_bad (a ++ b) = ycount_bad a + ycount_bad b.
  Proof. unfold ycount_bad. now rewrite filter_app, app_length. Qed.
  Lemma ycount_lost_app (a b : list (yfate B)) : ycount_lost (a ++ b) = ycount_lost a + ycount_lost b.
  Proof. unfold ycount_lost. now rewrite filter_app, app_length. Qed.
  Lemma right_mono regs regs' asked asked' m s :
    (forall x, In x regs -> In x regs') -> (forall x, In x asked -> In x asked') ->
    right regs asked m s -> right regs' asked' m s.
  Proof.
    intros Hr Ha. unfold right_schema. destruct (content_id m); [|auto].
    intros [(id & E & [H|(l & H)])|(E & H & Hc)]; [left; exists id; eauto|left; exists id; eauto 6|right; auto].
  Qed.
  Lemma fates_mono regs regs' asked asked' ms fs :
    (forall x, In x regs -> In x regs') -> (forall x, In x asked -> In x asked') ->
    Forall2 (yfates regs asked) ms fs -> Forall2 (yfates regs' asked') ms fs.
  Proof.
    intros Hr Ha H. induction H as [|m f ms fs Hm _ IH]; constructor; auto.
    destruct f; cbn in *; auto; destruct Hm; split; auto; eapply right_mono; eauto.
  Qed.
  Lemma not_cached_no_custom y c : right_cache y -> cache_get eqc (y_cache y) c = None -> forall id, ~ custom_id custom c id.
  Proof. intros H E id Hc. assert (cache_get eqc (y_cache y) c = Some id) by (apply H; auto). congruence. Qed.

  (* a step that only moves the phase while a message is under way *)
  Lemma move y p gs ms m r :
    yinv y -> y_in y = ms ++ [m] -> Forall ysettled gs ->
    Forall2 (yfates (y_registered y) (y_asked y)) (y_in y) (gs ++ [YPending r]) ->
    y_out y = ydelivered (gs ++ [YPending r]) -> n_decode (y_stats y) = ycount_bad (gs ++ [YPending r]) ->
    n_send (y_stats y) = ycount_lost (gs ++ [YPending r]) ->
    yphase_ok (Yang p (y_cache y) (y_in y) (y_out y) (y_asked y) (y_registered y) (y_flushed y) (y_stats y)) m r ->
    yinv (Yang p (y_cache y) (y_in y) (y_out y) (y_asked y) (y_registered y) (y_flushed y) (y_stats y)).
  Proof.
    intros [I1 I2 I3 I4 I5 I6 I7] Ei Hg Hf Ho Hd Hs Hp. split; try assumption.
    exists (gs ++ [YPending r]). cbn [y_registered y_asked y_in y_out y_stats].
    do 4 (split; [assumption|]). unfold ybusy. cbn [y_phase].
    unfold yphase_ok in Hp. cbn [y_phase] in Hp. destruct p; try contradiction; exists gs, ms, m, r; auto.
  Qed.
  (* the message under way ends without being offered *)
  Lemma give_up y gs ms m r :
    yinv y -> y_in y = ms ++ [m] -> Forall ysettled gs ->
    Forall2 (yfates (y_registered y) (y_asked y)) (y_in y) (gs ++ [YPending r]) ->
    y_out y = ydelivered (gs ++ [YPending r]) -> n_decode (y_stats y) = ycount_bad (gs ++ [YPending r]) ->
    n_send (y_stats y) = ycount_lost (gs ++ [YPending r]) ->
    yinv (Yang YIdle (y_cache y) (y_in y) (y_out y) (y_asked y) (y_registered y) (y_flushed y) (y_stats y)).
  Proof.
    intros [I1 I2 I3 I4 I5 I6 I7] Ei Hg Hf Ho Hd Hs. split; try assumption.
    exists (gs ++ [YUntyped r]). cbn [y_registered y_asked y_in y_out y_stats ybusy y_phase].
    rewrite ydelivered_app in *. rewrite ycount_bad_app in *. rewrite ycount_lost_app in *. cbn in *.
    split; [destruct (Forall2_snoc_inv _ _ _ _ Hf) as (ms' & m' & -> & H1 & H2); apply Forall2_snoc; auto|].
    do 3 (split; [assumption|]).
    apply Forall_snoc; auto. exact I.
  Qed.
  Lemma snoc_last {A} (l m : list A) x y : l ++ [x] = m ++ [y] -> l = m /\ x = y.
  Proof. apply app_inj_tail. Qed.

  Lemma yinv_step y e :
    (forall r c c' l, y_phase y = YLookup r c -> e = YAnswered (Found c' l) -> c' = c) ->
    yinv y -> yinv (step y e).
  Proof.
    intros Hh H. pose proof H as [I1 I2 I3 I4 I5 I6 (fs & F1 & F2 & F3 & F4 & F5)].
    unfold yang_step. unfold ybusy in F5. destruct (y_phase y) as [|r0 c|r0 c|r0 c c' l|yr i|w] eqn:Ep.
    - destruct e as [m|ok|f|id|a| | |]; try exact H.
      + destruct (yang_record get_key serialize_json to_vec m) as [r|] eqn:Er.
        * apply yang_record_some in Er.
          assert (K : forall p, (forall w, p <> YOver w) -> p <> YIdle ->
            yphase_ok (Yang p (y_cache y) (y_in y ++ [m]) (y_out y) (y_asked y) (y_registered y) (y_flushed y) (add_received (y_stats y))) m r ->
            yinv (Yang p (y_cache y) (y_in y ++ [m]) (y_out y) (y_asked y) (y_registered y) (y_flushed y) (add_received (y_stats y)))).
          { intros p Hp1 Hp2 Hp. split; cbn [y_stats add_received n_received n_sent n_decode n_send y_in y_out y_asked y_registered]; try assumption.
            - rewrite app_length. cbn. lia.
            - exists (fs ++ [YPending r]). rewrite ydelivered_app, ycount_bad_app, ycount_lost_app. cbn. rewrite app_nil_r, !Nat.add_0_r.
              split; [apply Forall2_snoc; auto|]. do 3 (split; [assumption|]). unfold ybusy. cbn [y_phase].
              assert (Hgoal : exists gs ms m0 r1, fs ++ [YPending r] = gs ++ [YPending r1] /\ y_in y ++ [m] = ms ++ [m0] /\ Forall ysettled gs /\
                yphase_ok (Yang p (y_cache y) (y_in y ++ [m]) (y_out y) (y_asked y) (y_registered y) (y_flushed y) (add_received (y_stats y))) m0 r1)
                by (exists fs, (y_in y), m, r; auto).
              destruct p; try exact Hgoal; [contradiction|now specialize (Hp1 e)]. }
          destruct (content_id m) as [c|] eqn:Ec; [destruct (cache_get eqc (y_cache y) c) as [id|] eqn:Eg|].
          -- apply K; try discriminate. unfold yphase_ok. cbn [y_phase yr_record yr_schema]. split; [reflexivity|].
             unfold right_schema. rewrite Ec. left. exists id. split; [reflexivity|]. now apply I1.
          -- apply K; try discriminate. unfold yphase_ok. cbn. auto.
          -- apply K; try discriminate. unfold yphase_ok. cbn. split; [reflexivity|]. unfold right_schema. now rewrite Ec.
        * split; cbn [y_stats add_received add_decode n_received n_sent n_decode n_send y_in y_out y_asked y_registered]; try assumption.
          -- rewrite app_length. cbn. lia.
          -- exists (fs ++ [YBad]). rewrite ydelivered_app, ycount_bad_app, ycount_lost_app. cbn. rewrite app_nil_r.
             split; [apply Forall2_snoc; auto; cbn; intros r Hr; apply yang_record_some in Hr; congruence|].
             split; [assumption|]. split; [lia|]. split; [lia|]. apply Forall_snoc; [exact F5|exact I].
      + split; try assumption. exists fs. cbn. auto.
      + split; try assumption. exists fs. cbn. auto.
      + split; try assumption. exists fs. cbn. auto.
    - destruct F5 as (gs & ms & m & r & -> & Ei & Hg & Hp). unfold yphase_ok in Hp. rewrite Ep in Hp. destruct Hp as (-> & Hc & Hn).
      destruct e as [m'|ok|f|id|a| | |]; try exact H. destruct ok.
      + pose proof (not_cached_no_custom y c I1 Hn) as Hcc.
        split; cbn [y_stats y_in y_out y_asked y_registered y_cache]; try assumption.
        * intros c1 Hi. apply in_app_or in Hi. destruct Hi as [Hi|[<-|[]]]; [now apply I4|exact Hcc].
        * exists (gs ++ [YPending r]). split; [eapply fates_mono; [| |exact F1]; auto; intros; apply in_or_app; auto|].
          do 3 (split; [assumption|]). unfold ybusy. cbn [y_phase]. exists gs, ms, m, r. do 3 (split; [auto|]).
          unfold yphase_ok. cbn. repeat split; auto. apply in_or_app. right. now left.
      + eapply give_up; eauto.
    - destruct F5 as (gs & ms & m & r & -> & Ei & Hg & Hp). unfold yphase_ok in Hp. rewrite Ep in Hp. destruct Hp as (-> & Hc & Hn & Ha).
      destruct e as [m'|ok|f|id|a| | |]; try exact H.
      assert (Hdef : yinv (Yang (YTrying (YRecord r default) first_interval) (y_cache y) (y_in y) (y_out y) (y_asked y) (y_registered y) (y_flushed y) (y_stats y))).
      { eapply move; eauto. unfold yphase_ok. cbn [y_phase yr_record yr_schema y_registered y_asked]. split; [reflexivity|]. unfold right_schema. rewrite Hc.
        right. split; [reflexivity|]. split; [exact Ha|]. now apply (not_cached_no_custom y c I1 Hn). }
      destruct f as [c' l| | |]; try exact Hdef.
      eapply move; eauto. unfold yphase_ok. cbn. repeat split; auto. eapply Hh; eauto.
    - destruct F5 as (gs & ms & m & r & -> & Ei & Hg & Hp). unfold yphase_ok in Hp. rewrite Ep in Hp. destruct Hp as (-> & Hc & Hn & Ha & ->).
      destruct e as [m'|ok|f|id|a| | |]; try exact H. destruct id as [[id|]|]; [|eapply give_up; eauto|eapply give_up; eauto].
      pose proof (not_cached_no_custom y c I1 Hn) as Hcc.
      split; cbn [y_stats y_in y_out y_asked y_registered y_cache]; try assumption.
      + intros c1 id1. cbn [y_cache y_registered]. rewrite cache_get_set. destruct (eqc c c1) eqn:Ee.
        * apply eqc_ok in Ee. subst c1. split.
          -- intros [= <-]. right. exists l. apply in_or_app. right. now left.
          -- intros [Hx|(l1 & Hx)]; [exfalso; eapply Hcc; eauto|]. apply in_app_or in Hx. destruct Hx as [Hx|[[= _ <-]|[]]]; [|reflexivity].
             exfalso. assert (cache_get eqc (y_cache y) c = Some id1) by (apply I1; eauto). congruence.
        * rewrite (I1 c1 id1). split.
          -- intros [Hx|(l1 & Hx)]; [auto|]. right. exists l1. apply in_or_app. auto.
          -- intros [Hx|(l1 & Hx)]; [auto|]. right. exists l1. apply in_app_or in Hx. destruct Hx as [Hx|[[= <- _ _]|[]]]; [exact Hx|].
             rewrite eqc_refl in Ee. discriminate.
      + unfold reg_ids. cbn [y_registered]. rewrite map_app. cbn.
        apply NoDup_rev in I2. rewrite <- (rev_involutive (_ ++ [c])). apply NoDup_rev. rewrite rev_app_distr. cbn. constructor; [|exact I2].
        intros Hx. apply in_rev in Hx. unfold reg_ids in Hx. apply in_map_iff in Hx. destruct Hx as ([[c1 l1] id1] & E1 & Hx). cbn in E1. subst c1.
        assert (cache_get eqc (y_cache y) c = Some id1) by (apply I1; eauto). congruence.
      + intros c1 l1 id1 Hx. apply in_app_or in Hx. destruct Hx as [Hx|[[= <- _ _]|[]]]; [eapply I3; eauto|exact Hcc].
      + exists (gs ++ [YPending r]). split; [eapply fates_mono; [| |exact F1]; auto; intros; apply in_or_app; auto|].
        do 3 (split; [assumption|]). unfold ybusy. cbn [y_phase]. exists gs, ms, m, r. do 3 (split; [auto|]).
        unfold yphase_ok. cbn [y_phase yr_record yr_schema y_registered]. split; [reflexivity|]. unfold right_schema. rewrite Hc.
        left. exists id. split; [reflexivity|]. right. exists l. apply in_or_app. right. now left.
    - destruct F5 as (gs & ms & m & r & -> & Ei & Hg & Hp). unfold yphase_ok in Hp. rewrite Ep in Hp. destruct Hp as (Hr & Hs).
      destruct e as [m'|ok|f|id|a| | |]; try exact H.
      destruct (Forall2_snoc_inv _ _ _ _ F1) as (ms' & m' & Em & G1 & G2). rewrite Em in Ei. apply snoc_last in Ei. destruct Ei as [-> ->].
      cbn in G2. pose proof F2 as F2'. rewrite ydelivered_app in F2. rewrite ycount_bad_app in F3. rewrite ycount_lost_app in F4. cbn in F2, F3, F4. rewrite app_nil_r in F2.
      destruct (attempt i a) as [|d nx|].
      + split; cbn [y_stats add_sent n_received n_sent n_decode n_send y_in y_out y_asked y_registered]; try assumption.
        * rewrite app_length. cbn. lia.
        * exists (gs ++ [YDelivered yr]). rewrite ydelivered_app, ycount_bad_app, ycount_lost_app. cbn. rewrite Em, F2.
          split; [apply Forall2_snoc; auto; cbn; rewrite Hr; auto|]. split; [reflexivity|]. split; [lia|]. split; [lia|].
          apply Forall_snoc; auto. exact I.
      + split; cbn [y_stats add_retry n_received n_sent n_decode n_send y_in y_out y_asked y_registered]; try assumption.
        exists (gs ++ [YPending r]). rewrite ycount_bad_app, ycount_lost_app.
        split; [assumption|]. split; [assumption|]. split; [cbn; lia|]. split; [cbn; lia|].
        exists gs, ms, m, r. do 3 (split; [auto|]). unfold yphase_ok. cbn. auto.
      + split; cbn [y_stats add_send n_received n_sent n_decode n_send y_in y_out y_asked y_registered]; try assumption.
        exists (gs ++ [YLost yr]). rewrite ydelivered_app, ycount_bad_app, ycount_lost_app. cbn. rewrite app_nil_r, Em.
        split; [apply Forall2_snoc; auto; cbn; rewrite Hr; auto|]. split; [assumption|]. split; [lia|]. split; [lia|].
        apply Forall_snoc; auto. exact I.
    - destruct e; exact H.
  Qed.
  Lemma yinv_init : yinv init.
  Proof.
    split; cbn [y_stats y_in y_out y_asked y_registered yang_init n_received n_sent no_stats length]; try reflexivity.
    - intros c id. rewrite cache_init. cbn [yang_init y_registered]. split; [auto|intros [Hx|(l & [])]; exact Hx].
    - constructor.
    - intros c l id [].
    - intros c [].
    - exists []. cbn. auto 6.
  Qed.
  Lemma yinv_run es : honest eqc content_id get_key serialize_json to_vec default init es -> yinv (run init es).
  Proof.
    unfold yang_run. generalize yinv_init. generalize init. induction es as [|e es IH]; intros y H Hh; cbn [fold_left]; [exact H|].
    destruct Hh as [H1 H2]. apply IH; [|exact H2]. now apply yinv_step.
  Qed.
  Lemma yang_run_app y a b : run y (a ++ b) = run (run y a) b.
  Proof. apply fold_left_app. Qed.
  Lemma yang_full y r k : (k <= 19)%nat -> y_phase y = YTrying r first_interval ->
    run y (repeat (YAnswer QueueFull) k) =
    Yang (YTrying r (10 * 2 ^ N.of_nat k)%N) (y_cache y) (y_in y) (y_out y) (y_asked y) (y_registered y) (y_flushed y)
      (Stats (n_received (y_stats y)) (n_sent (y_stats y)) (n_retries (y_stats y) + k) (n_decode (y_stats y)) (n_send (y_stats y))).
  Proof.
    intros Hk Ep. induction k as [|k IH].
    - cbn. rewrite Nat.add_0_r. destruct y as [p x b c d f g [s1 s2 s3 s4 s5]]. cbn in *. subst p. reflexivity.
    - replace (S k) with (k + 1)%nat at 1 by lia. rewrite repeat_app, yang_run_app, IH by lia. cbn [repeat yang_run fold_left].
      unfold yang_step. cbn [y_phase attempt].
      assert (Hle : (2 ^ N.of_nat k <= 2 ^ 18)%N) by (apply N.pow_le_mono_r; lia). cbn in Hle.
      replace (max_interval <? 10 * 2 ^ N.of_nat k)%N with false by (symmetry; apply N.ltb_ge; unfold max_interval; lia).
      cbn [y_cache y_in y_out y_asked y_registered y_flushed y_stats add_retry n_received n_sent n_retries n_decode n_send].
      rewrite Nat2N.inj_succ, N.pow_succ_r'.
      f_equal; [f_equal; lia|unfold add_retry; cbn [n_received n_sent n_retries n_decode n_send]; f_equal; lia].
  Qed.
End Yang.
