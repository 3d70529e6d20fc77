(* Properties C36 and C67: sampling renormalization. *)
From Verif Require Import Base BaseLemmas RnModel RnSpec RnProofs.

(* ---- C36 ---- *)
(* A record that advertises a usable sampling method, or whose parameters
   imply one, gets every octet and packet counter multiplied by the factor of
   that method in binary64 arithmetic; other fields stay, and the mark is
   added if there was a counter. *)
Theorem C36_counters_scaled : forall fs m, named fs m \/ inferred fs m -> usable m ->
  exists l, Forall2 (counter_by (fun v => f_to_u64 (fmul (f_of v) (factor_of m)))) fs l /\
  (has_counter fs -> renormalize_fields fs = l ++ [FRenorm true]) /\ (~ has_counter fs -> renormalize_fields fs = fs).
Proof.
  intros fs m Hm Hu. apply method_spec in Hm. exists (map (scale (factor_of m)) fs). split; [apply scale_all|].
  unfold renormalize_fields. rewrite factor_method, Hm. rewrite (proj1 (usable_k_spec m) Hu). rewrite <- counts_spec. split.
  - intros ->. reflexivity.
  - intros Hn. destruct (existsb counts fs) eqn:E; [congruence|]. rewrite app_nil_r. clear - E. induction fs as [|f fs IH]; [reflexivity|].
    cbn [existsb] in E. apply orb_false_iff in E as [E1 E2]. cbn [map]. rewrite IH by exact E2. f_equal.
    destruct f as [ie v| | |]; try reflexivity. unfold scale. cbn in E1. now rewrite E1.
Qed.
(* At most one method is advertised or implied. *)
Theorem C36_one_method : forall fs m m', named fs m \/ inferred fs m -> named fs m' \/ inferred fs m' -> m = m'.
Proof. intros fs m m' H H'. apply method_spec in H, H'. congruence. Qed.
(* Without a usable one the record is not touched. *)
Theorem C36_unusable_unchanged : forall fs, (forall m, named fs m \/ inferred fs m -> ~ usable m) -> renormalize_fields fs = fs.
Proof.
  intros fs H. unfold renormalize_fields. rewrite factor_method. destruct (method fs) as [m|] eqn:E; [|reflexivity].
  rewrite (proj2 (usable_k_spec m)); [reflexivity|]. apply H. now apply method_spec.
Qed.
(* The multiplication is exact while the product is below 2^53, for factors
   that are whole numbers: one in n, a whole share of the population, a whole
   ratio of the interval plus space to the interval. *)
Theorem C36_exact_partial : forall m n v, whole_factor m n -> usable m -> params_fit m -> n < 2 ^ 53 -> v < 2 ^ 53 -> v * n < 2 ^ 53 ->
  f_to_u64 (fmul (f_of v) (factor_of m)) = v * n.
Proof.
  intros m n v Hw Hu Hf Hn Hv Hp. change (2 ^ 53) with 9007199254740992 in *. apply scaled_exact; [|exact Hv|exact Hp]. now apply factor_whole.
Qed.
(* so the whole record: *)
Theorem C36_record_exact_partial : forall fs m n, named fs m \/ inferred fs m -> usable m -> params_fit m -> whole_factor m n -> n < 2 ^ 53 ->
  (forall ie v, In (F ie v) fs -> counter_ie ie -> v < 2 ^ 53 /\ v * n < 2 ^ 53) -> has_counter fs ->
  exists l, Forall2 (counter_by (fun v => v * n)) fs l /\ renormalize_fields fs = l ++ [FRenorm true].
Proof.
  intros fs m n Hm Hu Hf Hw Hn Hv Hc. destruct (C36_counters_scaled fs m Hm Hu) as (l & Hl & Hr & _). exists l. split; [|auto].
  clear Hm Hc Hr. induction Hl as [|f f' fs l Hff _ IH]; [constructor|]. constructor.
  - destruct f as [ie v| | |]; try exact Hff. cbn [counter_by] in *. destruct Hff as [H1 H2]. split; [|exact H2]. intros Hie. rewrite H1 by exact Hie.
    destruct (Hv ie v (or_introl eq_refl) Hie) as [Hv1 Hv2]. f_equal. now apply C36_exact_partial.
  - apply IH. intros ie v Hin. apply Hv. now right.
Qed.
(* Packets: data sets and records stay in order; template sets and options
   records are dropped. *)
Theorem C36_packets : forall sets,
  renormalize sets = flat_map (fun s => match s with
    | STemplates => []
    | SData id records => [SData id (flat_map (fun r : record => match fst r with [] => [([], renormalize_fields (snd r))] | _ => [] end) records)]
    end) sets.
Proof.
  induction sets as [|s sets IH]; [reflexivity|]. unfold renormalize in *. cbn [flat_map]. rewrite IH. f_equal. destruct s as [id rs|]; [|reflexivity].
  do 2 f_equal. induction rs as [|[sc fs] rs IHr]; [reflexivity|]. cbn [filter flat_map fst snd]. destruct sc as [|x sc]; cbn [map app fst snd]; rewrite <- IHr; reflexivity.
Qed.

(* A sampling interval of zero, which names no sampling rate, is taken as a
   factor: every counter of the record becomes zero. *)
Theorem C36_zero_interval_erases_counters_refuted : forall v, v < 2 ^ 53 ->
  renormalize_fields [F 1 v; F 2 v; F 34 0] = [F 1 0; F 2 0; F 34 0; FRenorm true].
Proof.
  intros v Hv. destruct (C36_record_exact_partial [F 1 v; F 2 v; F 34 0] (OneIn 0) 0) as (l & Hl & ->).
  - right. apply In_34; cbn; try reflexivity; unfold unnamed, no_pair, lacks, has; cbn; auto.
  - exact Logic.I.
  - reflexivity.
  - reflexivity.
  - reflexivity.
  - intros ie w Hin _. rewrite N.mul_0_r. split; [|reflexivity]. cbn in Hin. destruct Hin as [H|[H|[H|[]]]]; injection H as <- <-; auto. reflexivity.
  - exists 1, v. split; [now left|]. unfold counter_ie. cbn. auto.
  - inversion Hl as [|? ? ? ? H1 Hl1]; subst. inversion Hl1 as [|? ? ? ? H2 Hl2]; subst. inversion Hl2 as [|? ? ? ? H3 Hl3]; subst. inversion Hl3; subst.
    cbn [counter_by] in H1, H2, H3. rewrite (proj1 H1) by (cbn; auto). rewrite (proj1 H2) by (cbn; auto). rewrite (proj2 H3); [now rewrite N.mul_0_r|].
    cbn. intuition discriminate.
Qed.
(* Sampling every packet changes counters of 2^53 and more. *)
Theorem C36_large_counter_changed_refuted :
  renormalize_fields [F 1 (2 ^ 53 + 1); F 50 1] = [F 1 (2 ^ 53); F 50 1; FRenorm true].
Proof. vm_compute. reflexivity. Qed.

(* ---- C67 ---- *)
(* The mark is not looked at: a record that passes twice is scaled twice. *)
Theorem C67_scaled_again_refuted : forall v, v < 2 ^ 40 ->
  renormalize_fields (renormalize_fields [F 1 v; F 50 10]) = [F 1 (v * 100); F 50 10; FRenorm true; FRenorm true].
Proof.
  intros v Hv. change (2 ^ 40) with 1099511627776 in Hv.
  assert (Hstep : forall w t, (t = [] \/ t = [FRenorm true]) -> w < 10995116277760 -> renormalize_fields (F 1 w :: F 50 10 :: t) = F 1 (w * 10) :: F 50 10 :: t ++ [FRenorm true]).
  { intros w t Ht Hw. destruct (C36_record_exact_partial (F 1 w :: F 50 10 :: t) (OneIn 10) 10) as (l & Hl & ->).
    - right. destruct Ht as [-> | ->]; apply In_50; unfold unnamed, no_pair, lacks, has; cbn; auto.
    - exact Logic.I.
    - reflexivity.
    - reflexivity.
    - reflexivity.
    - intros ie x Hin Hie. change (2 ^ 53) with 9007199254740992. destruct Hin as [H|[H|Hin]]; [injection H as <- <-; lia|injection H as <- <-; lia|].
      destruct Ht as [-> | ->]; [destruct Hin|destruct Hin as [H|[]]; discriminate].
    - exists 1, w. split; [now left|]. unfold counter_ie. cbn. auto.
    - inversion Hl as [|? ? ? ? H1 Hl1]; subst. inversion Hl1 as [|? ? ? ? H2 Hl2]; subst. cbn [counter_by] in H1, H2.
      rewrite (proj1 H1) by (cbn; auto). rewrite (proj2 H2) by (cbn; intuition discriminate). cbn [app]. do 2 f_equal. f_equal.
      destruct Ht as [-> | ->]; inversion Hl2 as [|? ? ? ? H3 Hl3]; subst; [reflexivity|]. inversion Hl3; subst. cbn in H3. now subst. }
  rewrite Hstep by (auto; lia). cbn [app]. rewrite Hstep by (auto; lia). cbn [app]. do 2 f_equal. lia.
Qed.

Print Assumptions C36_counters_scaled. Print Assumptions C36_one_method. Print Assumptions C36_unusable_unchanged.
Print Assumptions C36_exact_partial. Print Assumptions C36_record_exact_partial. Print Assumptions C36_packets.
Print Assumptions C36_zero_interval_erases_counters_refuted. Print Assumptions C36_large_counter_changed_refuted. Print Assumptions C67_scaled_again_refuted.

(* ---- the hypotheses are met ---- *)
Example C36_nonvacuous :
  named [F 1 1000; F 304 3; F 309 1; F 310 256; FOther 7] (NoutofN 1 256) /\ usable (NoutofN 1 256) /\ params_fit (NoutofN 1 256) /\ whole_factor (NoutofN 1 256) 256 /\
  renormalize_fields [F 1 1000; F 304 3; F 309 1; F 310 256; FOther 7] = [F 1 256000; F 304 3; F 309 1; F 310 256; FOther 7; FRenorm true] /\
  renormalize_fields [F 85 1000; F 306 2; F 305 3] = [F 85 1666; F 306 2; F 305 3; FRenorm true] /\
  renormalize_fields [F 2 7; FProb (fdiv (f_of 1) (f_of 8))] = [F 2 56; FProb (fdiv (f_of 1) (f_of 8)); FRenorm true] /\
  renormalize_fields [F 2 7; F 304 2; F 34 100] = [F 2 7; F 304 2; F 34 100].
Proof.
  split; [apply Nm_nofn; reflexivity|]. split; [discriminate|]. split; [split; reflexivity|]. split; [reflexivity|]. repeat split; vm_compute; reflexivity.
Qed.
