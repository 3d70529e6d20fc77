(* Proofs about the collector's publishers. *)
From Coq Require Import List Bool Arith NArith ZArith Lia.
From Verif Require Import PbModel PbSpec.
Import ListNotations.

Lemma delivered_app {R} (a b : list (fate R)) : delivered (a ++ b) = delivered a ++ delivered b.
Proof. apply flat_map_app. Qed.
Lemma count_bad_app {R} (a b : list (fate R)) : count_bad (a ++ b) = count_bad a + count_bad b.
Proof. unfold count_bad. now rewrite filter_app, app_length. Qed.
Lemma count_lost_app {R} (a b : list (fate R)) : count_lost (a ++ b) = count_lost a + count_lost b.
Proof. unfold count_lost. now rewrite filter_app, app_length. Qed.
Lemma count_unconverted_app {B} (a b : list (mfate B)) : count_unconverted (a ++ b) = count_unconverted a + count_unconverted b.
Proof. unfold count_unconverted. now rewrite filter_app, app_length. Qed.
Lemma Forall_snoc {A} (P : A -> Prop) l x : Forall P l -> P x -> Forall P (l ++ [x]).
Proof. intros; apply Forall_app; auto. Qed.
Lemma Forall2_snoc {A B} (P : A -> B -> Prop) l m x y : Forall2 P l m -> P x y -> Forall2 P (l ++ [x]) (m ++ [y]).
Proof. intros; apply Forall2_app; auto. Qed.
Lemma Forall2_snoc_inv {A B} (P : A -> B -> Prop) l m y : Forall2 P l (m ++ [y]) ->
  exists l' x, l = l' ++ [x] /\ Forall2 P l' m /\ P x y.
Proof.
  intros H. apply Forall2_app_inv_r in H. destruct H as (l1 & l2 & H1 & H2 & ->).
  inversion H2 as [|x ? ? ? Hx H3]; subst. inversion H3; subst. exists l1, x. auto.
Qed.
Lemma Forall_snoc_inv {A} (P : A -> Prop) l x : Forall P (l ++ [x]) -> Forall P l /\ P x.
Proof. intros H. apply Forall_app in H. destruct H as [H1 H2]. inversion H2; auto. Qed.

(* ---- JSON ---- *)
Section Json.
  Context {T V B : Type}.
  Variable serializer : T -> option (option V * V).
  Variable to_vec : V -> option B.
  Notation step := (json_step serializer to_vec).
  Notation run := (json_run serializer to_vec).
  Notation isrec := (is_record serializer to_vec).
  Notation jfate := (json_fate serializer to_vec).

  Lemma json_record_some m r : json_record serializer to_vec m = Some r <-> isrec m r.
  Proof.
    unfold json_record. split.
    - destruct (serializer m) as [[k v]|] eqn:Es; [|discriminate].
      destruct (to_vec v) as [b|] eqn:Ev; [|discriminate].
      destruct k as [k|].
      + destruct (to_vec k) as [kb|] eqn:Ek; [|discriminate]. intros [= <-]. econstructor; eassumption.
      + intros [= <-]. econstructor; eassumption.
    - intros [v b E1 E2|k v kb b E1 E2 E3]; rewrite E1, E2; [reflexivity|]. now rewrite E3.
  Qed.
  Lemma json_record_none m : json_record serializer to_vec m = None -> forall r, ~ isrec m r.
  Proof. intros E r H. apply json_record_some in H. congruence. Qed.

  Definition jinv (j : json T B) (fs : list (fate (record B))) : Prop :=
    Forall2 jfate (j_in j) fs /\ j_out j = delivered fs /\
    n_received (j_stats j) = length (j_in j) /\ n_sent (j_stats j) = length (j_out j) /\
    n_decode (j_stats j) = count_bad fs /\ n_send (j_stats j) = count_lost fs /\
    match j_phase j with
    | JTrying r _ => exists gs, fs = gs ++ [Pending r] /\ Forall settled gs
    | _ => Forall settled fs
    end.
  Lemma jinv_step j fs e : jinv j fs -> exists fs', jinv (step j e) fs'.
  Proof.
    intros (H1 & H2 & H3 & H4 & H5 & H6 & H7).
    assert (Hid : jinv j fs) by (unfold jinv; auto 10).
    unfold json_step. destruct (j_phase j) as [|r i|w] eqn:Ep.
    - destruct e as [m|a| | |]; try (exists fs; exact Hid).
      + destruct (json_record serializer to_vec m) as [r|] eqn:Er.
        * exists (fs ++ [Pending r]). unfold jinv. cbn [j_in j_out j_stats j_phase n_received n_sent n_decode n_send add_received].
          rewrite delivered_app, count_bad_app, count_lost_app, app_length, !Nat.add_0_r, app_nil_r, H2, H3, H4, H5, H6. cbn [length].
          repeat apply conj; try (rewrite ?H2; cbn; rewrite ?app_nil_r; lia || reflexivity).
          -- apply Forall2_snoc; [exact H1|]. cbn. now apply json_record_some.
          -- exists fs. auto.
        * exists (fs ++ [Bad]). unfold jinv. cbn [j_in j_out j_stats j_phase n_received n_sent n_decode n_send add_received add_decode].
          rewrite delivered_app, count_bad_app, count_lost_app, app_length, H2, H3, H4, H5, H6. cbn.
          rewrite app_nil_r, H2. repeat apply conj; try lia; try reflexivity.
          -- apply Forall2_snoc; [exact H1|]. cbn. now apply json_record_none.
          -- apply Forall_snoc; [exact H7|exact I].
      + exists fs. unfold jinv. cbn. auto 10.
      + exists fs. unfold jinv. cbn. auto 10.
      + exists fs. unfold jinv. cbn. auto 10.
    - destruct H7 as (gs & -> & Hs).
      destruct e as [m|a| | |]; try (exists (gs ++ [Pending r]); exact Hid).
      destruct (Forall2_snoc_inv _ _ _ _ H1) as (ms & m & Em & Hm & Hr). cbn in Hr.
      assert (Hc : forall (P : list (fate (record B)) -> nat), True) by auto.
      rewrite delivered_app in H2; cbn in H2; rewrite app_nil_r in H2.
      rewrite count_bad_app in H5. cbn in H5. rewrite Nat.add_0_r in H5.
      rewrite count_lost_app in H6. cbn in H6. rewrite Nat.add_0_r in H6.
      destruct (attempt i a) as [|d nx|].
      + exists (gs ++ [Delivered r]). unfold jinv. cbn [j_in j_out j_stats j_phase n_received n_sent n_decode n_send add_sent].
        rewrite delivered_app, count_bad_app, count_lost_app, app_length, Em. cbn. rewrite H2, H5, H6, H4, H3, Em.
        rewrite H2. repeat apply conj; try lia; try reflexivity.
        * apply Forall2_snoc; auto.
        * apply Forall_snoc; auto. exact I.
      + exists (gs ++ [Pending r]). unfold jinv. cbn [j_in j_out j_stats j_phase n_received n_sent n_decode n_send add_retry].
        rewrite delivered_app, count_bad_app, count_lost_app. cbn. rewrite app_nil_r, !Nat.add_0_r.
        repeat apply conj; auto. exists gs; auto.
      + exists (gs ++ [Lost r]). unfold jinv. cbn [j_in j_out j_stats j_phase n_received n_sent n_decode n_send add_send].
        rewrite delivered_app, count_bad_app, count_lost_app. cbn. rewrite app_nil_r, Nat.add_0_r.
        repeat apply conj; auto; try lia.
        * rewrite Em. apply Forall2_snoc; auto.
        * apply Forall_snoc; auto. exact I.
    - exists fs. destruct e; exact Hid.
  Qed.
  Lemma jinv_run es : exists fs, jinv (run json_init es) fs.
  Proof.
    unfold json_run. assert (H : exists fs, jinv json_init fs) by (exists []; unfold jinv; cbn; auto 10).
    revert H. generalize (@json_init T B). induction es as [|e es IH]; intros j [fs H]; cbn [fold_left]; [eauto|].
    apply IH. eapply jinv_step; eauto.
  Qed.

  Lemma json_run_app j a b : run j (a ++ b) = run (run j a) b.
  Proof. apply fold_left_app. Qed.
  (* the sleeps double *)
  Lemma json_full j r k : (k <= 19)%nat -> j_phase j = JTrying r first_interval ->
    run j (repeat (JAnswer QueueFull) k) =
    Json (JTrying r (10 * 2 ^ N.of_nat k)%N) (j_in j) (j_out j) (j_slept j + 10 * (2 ^ N.of_nat k - 1))%N (j_flushed j)
      (Stats (n_received (j_stats j)) (n_sent (j_stats j)) (n_retries (j_stats j) + k) (n_decode (j_stats j)) (n_send (j_stats j))).
  Proof.
    intros Hk Ep. induction k as [|k IH].
    - cbn. rewrite N.add_0_r, Nat.add_0_r. destruct j as [p a b c d [s1 s2 s3 s4 s5]]. cbn in *. subst p. reflexivity.
    - replace (S k) with (k + 1)%nat at 1 by lia. rewrite repeat_app, json_run_app, IH by lia. cbn [repeat json_run fold_left].
      unfold json_step. cbn [j_phase attempt].
      assert (Hle : (2 ^ N.of_nat k <= 2 ^ 18)%N) by (apply N.pow_le_mono_r; lia). cbn in Hle.
      replace (max_interval <? 10 * 2 ^ N.of_nat k)%N with false by (symmetry; apply N.ltb_ge; unfold max_interval; lia).
      cbn [j_in j_out j_slept j_flushed j_stats add_retry n_received n_sent n_retries n_decode n_send].
      rewrite Nat2N.inj_succ, N.pow_succ_r'.
      assert (1 <= 2 ^ N.of_nat k)%N by (change 1%N with (2^0)%N; apply N.pow_le_mono_r; lia).
      f_equal; [f_equal; lia|lia|unfold add_retry; cbn [n_received n_sent n_retries n_decode n_send]; f_equal; lia].
  Qed.
End Json.

(* ---- Avro ---- *)
Section Avro.
  Context {T V K B : Type}.
  Variable get_key : T -> option K.
  Variable to_vec : K -> option B.
  Variable get_values : T -> option (list V).
  Notation step := (avro_step get_key to_vec get_values).
  Notation run := (avro_run get_key to_vec get_values).
  Notation iskey := (is_key get_key to_vec).
  Notation dealt := (dealt_with get_key to_vec get_values).

  Lemma avro_key_some m k : avro_key get_key to_vec m = Some k <-> iskey m k.
  Proof.
    unfold avro_key. split.
    - destruct (get_key m) as [q|] eqn:Eg.
      + destruct (to_vec q) as [b|] eqn:Et; [|discriminate]. intros [= <-]. econstructor; eassumption.
      + intros [= <-]. now constructor.
    - intros [E|q b E1 E2]; [now rewrite E|now rewrite E1, E2].
  Qed.
  Definition vals (fs : list (mfate B)) : list (fate (record B)) := flat_map values_of fs.
  Lemma vals_app a b : vals (a ++ b) = vals a ++ vals b.
  Proof. apply flat_map_app. Qed.
  Definition n_del (l : list (fate (record B))) : nat := length (delivered l).

  (* what the fates say about counters and output *)
  Definition atotals (a : avro T V B) (fs : list (mfate B)) : Prop :=
    a_out a = delivered (vals fs) /\
    n_received (a_stats a) = length (a_in a) /\ n_sent (a_stats a) = length (a_out a) /\
    n_decode (a_stats a) = count_unconverted fs + count_bad (vals fs) /\
    n_send (a_stats a) = count_lost (vals fs).
  Definition ainv (a : avro T V B) : Prop :=
    match a_phase a with
    | AIdle | AOver _ => exists fs, Forall2 dealt (a_in a) fs /\ a_returned a = map reported fs /\ atotals a fs
    | AEncoding key v rest ok errs =>
        exists ms m gs l vs, a_in a = ms ++ [m] /\ Forall2 dealt ms gs /\ a_returned a = map reported gs /\
          iskey m key /\ get_values m = Some vs /\ length l + S (length rest) = length vs /\
          Forall settled l /\ Forall (keyed key) l /\ ok = n_del l /\ ok + errs = length l /\ atotals a (gs ++ [Tried l])
    | ATrying key r i rest ok errs =>
        exists ms m gs l vs, a_in a = ms ++ [m] /\ Forall2 dealt ms gs /\ a_returned a = map reported gs /\
          iskey m key /\ get_values m = Some vs /\ length l + S (length rest) = length vs /\
          Forall settled l /\ Forall (keyed key) l /\ r_key r = key /\ ok = n_del l /\ ok + errs = length l /\
          atotals a (gs ++ [Tried l])
    end.
  Lemma del_le (l : list (fate (record B))) : n_del l <= length l.
  Proof. unfold n_del, delivered. induction l as [|[| | |] l IH]; cbn; lia. Qed.
  Lemma reported_conclude l ok errs : ok = n_del l -> ok + errs = length l -> reported (Tried l) = conclude ok errs.
  Proof.
    intros -> He. unfold reported. destruct l as [|f l']; [cbn in *; destruct errs; [reflexivity|lia]|].
    set (l := f :: l') in *. assert (Hl : length l = S (length l')) by reflexivity. clearbody l.
    assert (A1 : forall l : list (fate (record B)), forallb (fun f => match f with Delivered _ => true | _ => false end) l = true <-> n_del l = length l).
    { clear. unfold n_del, delivered. induction l as [|x l IH]; [cbn; tauto|]. pose proof (del_le l) as Hl. unfold n_del, delivered in *.
      destruct x; cbn; rewrite ?IH; split; intros; try discriminate; lia. }
    assert (A2 : forall l : list (fate (record B)), existsb (fun f => match f with Delivered _ => true | _ => false end) l = false <-> n_del l = 0).
    { clear. unfold n_del, delivered. induction l as [|x l IH]; [cbn; tauto|].
      destruct x; cbn; rewrite ?IH; split; intros; try discriminate; lia. }
    specialize (A1 l). specialize (A2 l).
    destruct (forallb _ l) eqn:Ef.
    - assert (n_del l = length l) as E by now apply A1. assert (errs = 0) as -> by lia. rewrite E, Hl. reflexivity.
    - assert (n_del l <> length l) as E by (intros E; apply A1 in E; discriminate).
      destruct errs as [|q]; [lia|]. destruct (existsb _ l) eqn:Ex.
      + destruct (n_del l); [destruct A2 as [_ A2]; now specialize (A2 eq_refl)|reflexivity].
      + destruct A2 as [A2 _]. rewrite (A2 eq_refl). reflexivity.
  Qed.
  (* going on with the next value *)
  Lemma next_inv a key vs l rest ok errs out s ms m gs :
    a_in a = ms ++ [m] -> Forall2 dealt ms gs -> a_returned a = map reported gs ->
    iskey m key -> get_values m = Some vs -> length l + length rest = length vs ->
    Forall settled l -> Forall (keyed key) l -> ok = n_del l -> ok + errs = length l ->
    out = delivered (vals (gs ++ [Tried l])) -> n_received s = length (a_in a) -> n_sent s = length out ->
    n_decode s = count_unconverted (gs ++ [Tried l]) + count_bad (vals (gs ++ [Tried l])) ->
    n_send s = count_lost (vals (gs ++ [Tried l])) ->
    ainv (next_value a key rest ok errs out s).
  Proof.
    intros. unfold next_value. destruct rest as [|v rest]; unfold ainv; cbn [a_phase].
    - exists (gs ++ [Tried l]). cbn [a_in a_returned]. repeat apply conj; try assumption.
      + rewrite H. apply Forall2_snoc; [assumption|]. exists key, vs. cbn in H4. repeat apply conj; auto; lia.
      + rewrite map_app, H1. cbn [map]. now rewrite (reported_conclude l ok errs).
    - exists ms, m, gs, l, vs. cbn [a_in a_returned]. repeat apply conj; try assumption.
  Qed.
  Lemma ainv_step a e : ainv a -> ainv (step a e).
  Proof.
    intros H. unfold avro_step.
    destruct (a_phase a) as [|key v rest ok errs|key r i rest ok errs|w] eqn:Ep.
    - pose proof H as H0. unfold ainv in H0. rewrite Ep in H0. destruct H0 as (fs & H1 & H2 & H3 & H4 & H5 & H6 & H7).
      destruct e as [m|b|w| | |]; try exact H.
      + cbn [a_in a_out a_returned a_flushed a_stats].
        assert (Hf : dealt m Unconverted ->
          ainv (Avro AIdle (a_in a ++ [m]) (a_out a) (a_returned a ++ [NotConverted]) (a_flushed a) (add_decode (add_received (a_stats a))))).
        { intros Hu. unfold ainv. cbn [a_phase]. exists (fs ++ [Unconverted]). unfold atotals.
          cbn [a_in a_out a_returned a_stats n_received n_sent n_decode n_send add_received add_decode].
          rewrite vals_app, count_unconverted_app, map_app, app_length. cbn. rewrite app_nil_r.
          repeat apply conj; try lia; try assumption; [apply Forall2_snoc; auto|now rewrite H2]. }
        destruct (avro_key get_key to_vec m) as [key|] eqn:Ek.
        2: { apply Hf. right. intros k Hk. apply avro_key_some in Hk. congruence. }
        destruct (get_values m) as [vs|] eqn:Ev; [|apply Hf; left; exact Ev].
        apply avro_key_some in Ek.
        apply (next_inv _ key vs [] vs 0 0 _ _ (a_in a) m fs); cbn [a_in a_returned length]; auto;
          rewrite ?vals_app, ?count_unconverted_app; cbn; rewrite ?app_nil_r, ?app_length, ?Nat.add_0_r; cbn; auto; try lia.
      + unfold ainv. cbn. exists fs. unfold atotals. cbn. auto 10.
      + unfold ainv. cbn. exists fs. unfold atotals. cbn. auto 10.
      + unfold ainv. cbn. exists fs. unfold atotals. cbn. auto 10.
    - pose proof H as H0. unfold ainv in H0. rewrite Ep in H0.
      destruct H0 as (ms & m & gs & l & vs & H1 & H2 & H3 & H4 & H5 & H6 & H7 & H8 & H9 & H10 & T1 & T2 & T3 & T4 & T5).
      destruct e as [m'|b|w| | |]; try exact H.
      destruct b as [b|].
      + unfold ainv. cbn [a_phase]. exists ms, m, gs, l, vs. cbn [a_in a_returned]. repeat apply conj; auto.
      + rewrite vals_app in T1, T4, T5. cbn in T1, T4, T5. rewrite app_nil_r in T1, T4, T5.
        rewrite count_unconverted_app in T4. cbn in T4.
        apply (next_inv _ key vs (l ++ [Bad]) rest ok (S errs) _ _ ms m gs); auto;
          rewrite ?vals_app, ?count_unconverted_app; cbn [vals flat_map values_of]; rewrite ?app_nil_r, ?app_assoc.
        * rewrite app_length. cbn. lia.
        * apply Forall_snoc; auto. exact I.
        * apply Forall_snoc; auto. exact I.
        * unfold n_del. rewrite delivered_app. cbn. rewrite app_nil_r. exact H9.
        * rewrite app_length. cbn. lia.
        * rewrite T1, !delivered_app. cbn. now rewrite app_nil_r.
        * cbn [add_decode n_decode]. rewrite T4, !count_bad_app. cbn. lia.
        * cbn [add_decode n_send]. rewrite T5, !count_lost_app. cbn. lia.
    - pose proof H as H0. unfold ainv in H0. rewrite Ep in H0.
      destruct H0 as (ms & m & gs & l & vs & H1 & H2 & H3 & H4 & H5 & H6 & H7 & H8 & Hk & H9 & H10 & T1 & T2 & T3 & T4 & T5).
      destruct e as [m'|b|w| | |]; try exact H.
      pose proof T1 as T1'.
      rewrite vals_app in T1, T4, T5. cbn in T1, T4, T5. rewrite app_nil_r in T1, T4, T5.
      rewrite count_unconverted_app in T4. cbn in T4.
      destruct (attempt i w) as [|d nx|].
      + apply (next_inv _ key vs (l ++ [Delivered r]) rest (S ok) errs _ _ ms m gs); auto;
          rewrite ?vals_app, ?count_unconverted_app; cbn [vals flat_map values_of]; rewrite ?app_nil_r, ?app_assoc.
        * rewrite app_length. cbn. lia.
        * apply Forall_snoc; auto. exact I.
        * apply Forall_snoc; auto.
        * unfold n_del. rewrite delivered_app, app_length. cbn. rewrite H9. unfold n_del. lia.
        * rewrite app_length. cbn. lia.
        * rewrite T1, !delivered_app. cbn. reflexivity.
        * cbn [add_sent n_sent]. rewrite app_length. cbn. lia.
        * cbn [add_sent n_decode]. rewrite T4, !count_bad_app. cbn. lia.
        * cbn [add_sent n_send]. rewrite T5, !count_lost_app. cbn. lia.
      + unfold ainv. cbn [a_phase]. exists ms, m, gs, l, vs. cbn [a_in a_returned].
        do 11 (split; [assumption|]).
        unfold atotals. cbn [a_out a_in a_stats add_retry n_received n_sent n_decode n_send].
        rewrite vals_app, count_unconverted_app. cbn. rewrite app_nil_r. repeat apply conj; auto.
      + apply (next_inv _ key vs (l ++ [Lost r]) rest ok (S errs) _ _ ms m gs); auto;
          rewrite ?vals_app, ?count_unconverted_app; cbn [vals flat_map values_of]; rewrite ?app_nil_r, ?app_assoc.
        * rewrite app_length. cbn. lia.
        * apply Forall_snoc; auto. exact I.
        * apply Forall_snoc; auto.
        * unfold n_del. rewrite delivered_app. cbn. rewrite app_nil_r. exact H9.
        * rewrite app_length. cbn. lia.
        * rewrite T1, !delivered_app. cbn. now rewrite app_nil_r.
        * cbn [add_send n_decode]. rewrite T4, !count_bad_app. cbn. lia.
        * cbn [add_send n_send]. rewrite T5, !count_lost_app. cbn. lia.
    - destruct e; exact H.
  Qed.
  Lemma ainv_run es : ainv (run avro_init es).
  Proof.
    unfold avro_run. assert (H : ainv (@avro_init T V B)) by (unfold ainv; cbn; exists []; unfold atotals; cbn; auto 10).
    revert H. generalize (@avro_init T V B). induction es as [|e es IH]; intros a H; cbn [fold_left]; [exact H|].
    apply IH, ainv_step, H.
  Qed.
  Lemma avro_run_app a x y : run a (x ++ y) = run (run a x) y.
  Proof. apply fold_left_app. Qed.
  Lemma avro_full a key r rest ok errs k : (k <= 19)%nat -> a_phase a = ATrying key r first_interval rest ok errs ->
    run a (repeat (AAnswer QueueFull) k) =
    Avro (ATrying key r (10 * 2 ^ N.of_nat k)%N rest ok errs) (a_in a) (a_out a) (a_returned a) (a_flushed a)
      (Stats (n_received (a_stats a)) (n_sent (a_stats a)) (n_retries (a_stats a) + k) (n_decode (a_stats a)) (n_send (a_stats a))).
  Proof.
    intros Hk Ep. induction k as [|k IH].
    - cbn. rewrite Nat.add_0_r. destruct a as [p x b c d [s1 s2 s3 s4 s5]]. cbn in *. subst p. reflexivity.
    - replace (S k) with (k + 1)%nat at 1 by lia. rewrite repeat_app, avro_run_app, IH by lia. cbn [repeat avro_run fold_left].
      unfold avro_step. cbn [a_phase attempt].
      assert (Hle : (2 ^ N.of_nat k <= 2 ^ 18)%N) by (apply N.pow_le_mono_r; lia). cbn in Hle.
      replace (max_interval <? 10 * 2 ^ N.of_nat k)%N with false by (symmetry; apply N.ltb_ge; unfold max_interval; lia).
      cbn [a_in a_out a_returned a_flushed a_stats add_retry n_received n_sent n_retries n_decode n_send].
      rewrite Nat2N.inj_succ, N.pow_succ_r'.
      f_equal; [f_equal; lia|unfold add_retry; cbn [n_received n_sent n_retries n_decode n_send]; f_equal; lia].
  Qed.
End Avro.

(* ---- HTTP ---- *)
Section Http.
  Context {T M : Type}.
  Variable converter : T -> list M.
  Variable batch_size : nat.
  Notation step := (http_step converter batch_size).
  Notation run := (http_run converter batch_size).
  Definition hinv (h : http T M) : Prop :=
    flat_map converter (h_in h) = concat (map fst (filter answered (h_posted h))) ++ h_buf h /\
    Forall (fun p => batch_size < length (fst p)) (h_posted h) /\
    h_received h = length (h_in h) /\ h_sent h = length (concat (map fst (filter answered (h_posted h)))) /\
    h_failed h = length (filter (fun p => negb (answered p)) (h_posted h)) /\
    match h_phase h with
    | HPosting b => b = h_buf h /\ batch_size < length b /\ h_failed h = 0
    | HIdle => length (h_buf h) <= batch_size /\ h_failed h = 0
    | HOver ByHttpError => exists p, h_posted h = p ++ [(h_buf h, Failed)] /\ h_failed h = 1
    | HOver _ => length (h_buf h) <= batch_size /\ h_failed h = 0
    end.
  Lemma hinv_step h e : hinv h -> hinv (step h e).
  Proof.
    intros H. pose proof H as (H1 & H2 & H3 & H4 & H5 & H6). unfold http_step.
    destruct (h_phase h) as [|b|w] eqn:Ep.
    - destruct e as [m|r| | |]; try exact H.
      + unfold hinv. cbn [h_in h_posted h_buf h_received h_sent h_failed h_phase].
        rewrite flat_map_app, app_length. cbn [flat_map length]. rewrite app_nil_r, H1, app_assoc.
        split; [reflexivity|]. split; [exact H2|]. split; [lia|]. split; [exact H4|]. split; [exact H5|].
        destruct (Nat.ltb_spec batch_size (length (h_buf h ++ converter m))) as [Hl|Hl].
        * split; [reflexivity|]. split; [exact Hl|apply H6].
        * split; [exact Hl|apply H6].
      + unfold hinv. cbn. auto 10.
      + unfold hinv. cbn. auto 10.
      + unfold hinv. cbn. auto 10.
    - destruct H6 as (-> & Hl & Hf).
      destruct e as [m|[s|]| | |]; try exact H.
      + unfold hinv. cbn [h_in h_posted h_buf h_received h_sent h_failed h_phase].
        rewrite !filter_app, map_app, concat_app, !app_length. cbn. rewrite !app_nil_r, H4.
        repeat apply conj; auto; try lia. apply Forall_snoc; auto.
      + unfold hinv. cbn [h_in h_posted h_buf h_received h_sent h_failed h_phase].
        rewrite !filter_app, map_app, concat_app, !app_length. cbn. rewrite !app_nil_r.
        repeat apply conj; auto; try lia.
        * apply Forall_snoc; auto.
        * exists (h_posted h). split; [reflexivity|lia].
    - destruct e; exact H.
  Qed.
  Lemma hinv_run es : hinv (run http_init es).
  Proof.
    unfold http_run. assert (H : hinv (@http_init T M)) by (unfold hinv; cbn; repeat split; auto; lia).
    revert H. generalize (@http_init T M). induction es as [|e es IH]; intros a H; cbn [fold_left]; [exact H|].
    apply IH, hinv_step, H.
  Qed.
  Lemma http_over h es w : h_phase h = HOver w -> run h es = h.
  Proof.
    intros E. induction es as [|e es IH]; [reflexivity|]. cbn [http_run fold_left]. unfold http_step at 2. rewrite E.
    destruct e; exact IH.
  Qed.
End Http.
