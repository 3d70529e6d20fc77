From Verif Require Import Base BaseLemmas RnModel RnSpec.
From Coq Require Import ZArith Lia.
Open Scope Z_scope.

(* ---- binary64 on small whole numbers ---- *)
Lemma digits_log2 p : Zpos (digits2_pos p) = Z.log2 (Zpos p) + 1.
Proof.
  induction p as [p IH|p IH|]; cbn [digits2_pos]; [| |reflexivity].
  - rewrite Pos2Z.inj_succ, IH. rewrite (Pos2Z.inj_xI p), Z.log2_succ_double by lia. lia.
  - rewrite Pos2Z.inj_succ, IH. rewrite (Pos2Z.inj_xO p), Z.log2_double by lia. lia.
Qed.
Lemma Zdigits_log2 m : 0 < m -> Zdigits2 m = Z.log2 m + 1.
Proof. intros H. destruct m as [|p|p]; try lia. apply digits_log2. Qed.
Fixpoint niter {A} (f : A -> A) (n : nat) (x : A) : A := match n with O => x | S n' => niter f n' (f x) end.
Lemma niter_add {A} (f : A -> A) a b x : niter f (a + b) x = niter f b (niter f a x).
Proof. revert x. induction a as [|a IH]; intros x; [reflexivity|]. cbn. apply IH. Qed.
Lemma iter_pos_nat {A} (f : A -> A) n : forall x, SpecFloat.iter_pos f n x = niter f (Pos.to_nat n) x.
Proof.
  induction n as [n IH|n IH|]; intros x; cbn [SpecFloat.iter_pos].
  - rewrite !IH. rewrite <- niter_add. rewrite Pos2Nat.inj_xI. cbn [niter]. f_equal. lia.
  - rewrite !IH. rewrite Pos2Nat.inj_xO. rewrite <- niter_add. f_equal. lia.
  - reflexivity.
Qed.
Lemma shr_1_double m : 0 <= m -> shr_1 (Build_shr_record (2 * m) false false) = Build_shr_record m false false.
Proof. intros H. destruct m as [|p|p]; [reflexivity|reflexivity|lia]. Qed.
Lemma shr_iter n : forall m, 0 <= m -> niter shr_1 n (Build_shr_record (m * 2 ^ Z.of_nat n) false false) = Build_shr_record m false false.
Proof.
  induction n as [|n IH]; intros m H; [cbn; f_equal; lia|].
  cbn [niter]. replace (m * 2 ^ Z.of_nat (S n)) with (2 * (m * 2 ^ Z.of_nat n)) by (rewrite Nat2Z.inj_succ, Z.pow_succ_r by lia; ring).
  rewrite shr_1_double by (apply Z.mul_nonneg_nonneg; [exact H|apply Z.pow_nonneg; lia]). now apply IH.
Qed.
Lemma shr_exact m e j : 0 <= m -> 0 <= j -> shr (Build_shr_record (m * 2 ^ j) false false) e j = (Build_shr_record m false false, e + j).
Proof.
  intros Hm Hj. destruct j as [|p|p]; [cbn; do 2 f_equal; lia| |lia]. unfold shr. f_equal. rewrite iter_pos_nat.
  rewrite <- (positive_nat_Z p). now apply shr_iter.
Qed.
(* the mantissa range of normal numbers *)
Definition full (q : Z) : Prop := 2 ^ 52 <= q < 2 ^ 53.
Lemma full_log2 q : full q -> Z.log2 q = 52.
Proof. intros [H1 H2]. apply Z.log2_unique; cbn in *; lia. Qed.
Lemma full_shift q j : full q -> 0 <= j -> Z.log2 (q * 2 ^ j) = 52 + j.
Proof. intros H Hj. rewrite Z.log2_mul_pow2 by (destruct H; cbn in *; lia). rewrite full_log2 by exact H. lia. Qed.
Lemma round_exact q j e : full q -> 0 <= j -> -1074 <= e + j <= 971 ->
  binary_round_aux 53 1024 false (q * 2 ^ j) e loc_Exact = S754_finite false (Z.to_pos q) (e + j).
Proof.
  intros Hq Hj He. assert (Hp : 0 < 2 ^ j) by (apply Z.pow_pos_nonneg; lia). assert (Hq0 : 0 < q) by (destruct Hq; cbn in *; lia).
  unfold binary_round_aux, shr_fexp at 1. rewrite Zdigits_log2 by lia. rewrite full_shift by assumption.
  unfold fexp at 1, emin at 1. replace (Z.max (52 + j + 1 + e - 53) (3 - 1024 - 53) - e) with j by lia.
  cbn [shr_record_of_loc]. rewrite shr_exact by lia. cbn [shr_m loc_of_shr_record round_nearest_even].
  unfold shr_fexp. rewrite Zdigits_log2 by lia. rewrite full_log2 by exact Hq. unfold fexp, emin.
  replace (Z.max (52 + 1 + (e + j) - 53) (3 - 1024 - 53) - (e + j)) with 0 by lia. cbn [shr_record_of_loc shr shr_m].
  destruct q as [|p|p]; try lia. destruct (Zle_bool (e + j) (1024 - 53)) eqn:E; [reflexivity|]. apply Z.leb_gt in E. lia.
Qed.
(* x represents the whole number n *)
Definition lg (n : Z) : Z := Z.log2 n + 1.
Definition rep (x : f64) (n : Z) : Prop :=
  (n = 0 /\ x = S754_zero false) \/ (0 < n /\ lg n <= 53 /\ x = S754_finite false (Z.to_pos (n * 2 ^ (53 - lg n))) (lg n - 53)).
Lemma lg_full n : 0 < n -> lg n <= 53 -> full (n * 2 ^ (53 - lg n)).
Proof.
  intros H Hl. unfold full. destruct (Z.log2_spec n H) as [H1 H2]. fold (lg n) in *. unfold lg in *.
  assert (E : 2 ^ 52 = 2 ^ Z.log2 n * 2 ^ (53 - (Z.log2 n + 1))) by (pose proof (Z.log2_nonneg n); rewrite <- Z.pow_add_r by lia; f_equal; lia).
  assert (E' : 2 ^ 53 = 2 ^ Z.succ (Z.log2 n) * 2 ^ (53 - (Z.log2 n + 1))) by (pose proof (Z.log2_nonneg n); rewrite <- Z.pow_add_r by lia; f_equal; lia).
  assert (Hp : 0 < 2 ^ (53 - (Z.log2 n + 1))) by (apply Z.pow_pos_nonneg; lia). rewrite E, E'. split; [apply Z.mul_le_mono_nonneg_r; lia|apply Z.mul_lt_mono_pos_r; lia].
Qed.
Lemma lg_le n : 0 < n < 2 ^ 53 -> lg n <= 53.
Proof. intros [H1 H2]. unfold lg. assert (Z.log2 n < 53) by (apply Z.log2_lt_pow2; lia). lia. Qed.
Lemma lg_pos n : 0 < n -> 1 <= lg n.
Proof. unfold lg. pose proof (Z.log2_nonneg n). lia. Qed.
(* rounding a whole number times a power of two *)
Lemma round_rep n k e : 0 < n < 2 ^ 53 -> 0 <= k - (53 - lg n) -> k + e = 0 ->
  binary_round_aux 53 1024 false (n * 2 ^ k) e loc_Exact = S754_finite false (Z.to_pos (n * 2 ^ (53 - lg n))) (lg n - 53).
Proof.
  intros Hn Hk He. pose proof (lg_le n Hn) as Hl. pose proof (lg_pos n (proj1 Hn)) as Hl'.
  replace (n * 2 ^ k) with (n * 2 ^ (53 - lg n) * 2 ^ (k - (53 - lg n))) by (rewrite <- Z.mul_assoc, <- Z.pow_add_r by lia; do 2 f_equal; lia).
  rewrite round_exact; [f_equal; lia|apply lg_full; lia|lia|lia].
Qed.
Lemma to_pos_eq z : 0 < z -> Zpos (Z.to_pos z) = z.
Proof. apply Z2Pos.id. Qed.
Lemma shift_pos_mul d m : Zpos (shift_pos d m) = Zpos m * 2 ^ Zpos d.
Proof. rewrite shift_pos_correct. rewrite Z.mul_comm. reflexivity. Qed.
Lemma round_at n : 0 < n < 2 ^ 53 -> binary_round 53 1024 false (Z.to_pos n) 0 = S754_finite false (Z.to_pos (n * 2 ^ (53 - lg n))) (lg n - 53).
Proof.
  intros Hn. pose proof (lg_le n Hn) as Hl. pose proof (lg_pos n (proj1 Hn)) as Hl'. unfold binary_round.
  rewrite digits_log2, to_pos_eq by lia. fold (lg n). unfold fexp, emin. replace (Z.max (lg n + 0 - 53) (3 - 1024 - 53)) with (lg n - 53) by lia.
  unfold shl_align. destruct (lg n - 53 - 0) as [|d|d] eqn:E; [|lia|].
  - rewrite to_pos_eq by lia. rewrite <- (Z.mul_1_r n) at 1. change 1 with (2 ^ 0). apply round_rep; lia.
  - rewrite shift_pos_mul, to_pos_eq by lia. replace (Zpos d) with (53 - lg n) by lia. apply round_rep; lia.
Qed.
Lemma f_of_rep n : Z.of_N n < 2 ^ 53 -> rep (f_of n) (Z.of_N n).
Proof.
  intros H. unfold f_of, rep, binary_normalize. destruct n as [|p]; [now left|]. right. cbn [Z.of_N] in *. split; [lia|]. split; [apply lg_le; lia|].
  apply (round_at (Zpos p)). lia.
Qed.
Lemma rep_pos a x : rep x a -> 0 <= a.
Proof. intros [[-> _]|[H _]]; lia. Qed.
Lemma lg_mul a b : 0 < a -> 0 < b -> lg a + lg b - 1 <= lg (a * b) <= lg a + lg b.
Proof. intros Ha Hb. unfold lg. pose proof (Z.log2_mul_below a b Ha Hb). pose proof (Z.log2_mul_above a b ltac:(lia) ltac:(lia)). lia. Qed.
Lemma mant_pos a : 0 < a -> lg a <= 53 -> 0 < a * 2 ^ (53 - lg a).
Proof. intros H Hl. apply lg_full in Hl; [|exact H]. destruct Hl as [H1 _]. cbn in *. lia. Qed.
Lemma mul_rep x y a b : rep x a -> rep y b -> a * b < 2 ^ 53 -> rep (fmul x y) (a * b).
Proof.
  intros [[-> ->]|(Ha & Hla & ->)] [[-> ->]|(Hb & Hlb & ->)] Hab.
  - left. auto.
  - left. auto.
  - left. split; [lia|reflexivity].
  - right. assert (Hp : 0 < a * b) by (apply Z.mul_pos_pos; assumption). split; [exact Hp|]. split; [apply lg_le; lia|].
    unfold fmul, SFmul. cbn [xorb]. rewrite Pos2Z.inj_mul, !to_pos_eq by now apply mant_pos.
    pose proof (lg_mul a b Ha Hb). pose proof (lg_pos a Ha). pose proof (lg_pos b Hb).
    replace (a * 2 ^ (53 - lg a) * (b * 2 ^ (53 - lg b))) with (a * b * 2 ^ (106 - lg a - lg b)).
    2:{ replace (106 - lg a - lg b) with (53 - lg a + (53 - lg b)) by lia. rewrite Z.pow_add_r by lia. ring. }
    apply round_rep; lia.
Qed.
Lemma to_u64_rep x n : rep x n -> f_to_u64 x = Z.to_N n.
Proof.
  intros [[-> ->]|(Hn & Hl & ->)]; [reflexivity|]. unfold f_to_u64.
  assert (Hb : n < 2 ^ 53).
  { destruct (Z.log2_spec n Hn) as [_ H]. apply (Z.lt_le_trans _ _ _ H). apply Z.pow_le_mono_r; unfold lg in Hl; lia. }
  destruct (lg n - 53) as [|k|k] eqn:E; [|lia|].
  - replace (53 - lg n) with 0 by lia. rewrite Z.mul_1_r. destruct n as [|p|p]; try lia. cbn [Z.to_pos Z.to_N]. apply N.min_r. unfold u64_max. cbn in Hb. lia.
  - replace (53 - lg n) with (Zpos k) by lia.
    assert (Ev : N.pos (Z.to_pos (n * 2 ^ Z.pos k)) = (Z.to_N n * 2 ^ Npos k)%N).
    { apply N2Z.inj. rewrite N2Z.inj_mul, Z2N.id by lia. rewrite N2Z.inj_pow. cbn [Z.of_N]. apply to_pos_eq. apply Z.mul_pos_pos; [lia|]. apply Z.pow_pos_nonneg; lia. }
    rewrite Ev, N.shiftr_div_pow2, N.div_mul by (apply N.pow_nonzero; lia). apply N.min_r. unfold u64_max. cbn in Hb. lia.
Qed.
Lemma rep_fun x n x' : rep x n -> rep x' n -> x = x'.
Proof. intros [[? ->]|(? & _ & ->)] [[? ->]|(? & _ & ->)]; auto; lia. Qed.
Lemma shl_mul m e e' : e' <= e -> Zpos (fst (shl_align m e e')) = Zpos m * 2 ^ (e - e').
Proof.
  intros H. unfold shl_align. destruct (e' - e) as [|d|d] eqn:E; [|lia|]; cbn [fst].
  - replace (e - e') with 0 by lia. lia.
  - rewrite shift_pos_mul. do 2 f_equal. lia.
Qed.
Lemma lg_mono a b : 0 < a <= b -> lg a <= lg b.
Proof. intros H. unfold lg. pose proof (Z.log2_le_mono a b). lia. Qed.
Lemma lg_shift a k : 0 < a -> 0 <= k -> Z.log2 (a * 2 ^ k) + 1 = lg a + k.
Proof. intros Ha Hk. rewrite Z.log2_mul_pow2 by lia. unfold lg. lia. Qed.
Lemma add_rep x y a b : rep x a -> rep y b -> a + b < 2 ^ 53 -> rep (fadd x y) (a + b).
Proof.
  intros [[-> ->]|(Ha & Hla & ->)] [[-> ->]|(Hb & Hlb & ->)] Hab.
  - left. auto.
  - right. rewrite Z.add_0_l. auto.
  - right. rewrite Z.add_0_r. auto.
  - right. split; [lia|]. split; [apply lg_le; lia|]. unfold fadd, SFadd. cbn [cond_Zopp].
    set (ez := Z.min (lg a - 53) (lg b - 53)). rewrite !shl_mul by lia. rewrite !to_pos_eq by now apply mant_pos.
    pose proof (lg_pos a Ha). pose proof (lg_pos b Hb).
    assert (Hs : a * 2 ^ (53 - lg a) * 2 ^ (lg a - 53 - ez) + b * 2 ^ (53 - lg b) * 2 ^ (lg b - 53 - ez) = (a + b) * 2 ^ (- ez)).
    { rewrite <- !Z.mul_assoc, <- !Z.pow_add_r by lia. replace (53 - lg a + (lg a - 53 - ez)) with (- ez) by lia.
      replace (53 - lg b + (lg b - 53 - ez)) with (- ez) by lia. ring. }
    rewrite Hs. assert (Hz : 0 < (a + b) * 2 ^ (- ez)) by (apply Z.mul_pos_pos; [lia|apply Z.pow_pos_nonneg; lia]).
    unfold binary_normalize. destruct ((a + b) * 2 ^ (- ez)) as [|p|p] eqn:Ep; try lia. rewrite <- Ep in *.
    unfold binary_round. assert (Hd : Z.pos (digits2_pos p) = lg (a + b) - ez).
    { rewrite digits_log2, <- Ep. rewrite lg_shift by lia. lia. }
    rewrite Hd. unfold fexp, emin. pose proof (lg_le (a + b) ltac:(lia)). pose proof (lg_pos (a + b) ltac:(lia)).
    pose proof (lg_mono a (a + b) ltac:(lia)). pose proof (lg_mono b (a + b) ltac:(lia)).
    replace (Z.max (lg (a + b) - ez + ez - 53) (3 - 1024 - 53)) with (lg (a + b) - 53) by lia.
    assert (Hal : shl_align p ez (lg (a + b) - 53) = (p, ez)).
    { unfold shl_align. destruct (lg (a + b) - 53 - ez) as [|d|d] eqn:E; [reflexivity|reflexivity|lia]. }
    rewrite Hal. rewrite <- Ep. apply round_rep; lia.
Qed.
Lemma div_eucl_mul q m : m <> 0 -> Z.div_eucl (q * m) m = (q, 0).
Proof.
  intros H. pose proof (Z.div_mul q m H) as H1. pose proof (Z.mod_mul q m H) as H2. unfold Z.div in H1. unfold Z.modulo in H2.
  destruct (Z.div_eucl (q * m) m). now subst.
Qed.
Lemma div_rep x y n b : rep x (n * b) -> rep y b -> 0 < b -> n < 2 ^ 53 -> rep (fdiv x y) n.
Proof.
  intros Hx [[-> _]|(Hb & Hlb & ->)] Hb0 Hn; [lia|]. destruct Hx as [[H0 ->]|(Ha & Hla & ->)].
  - assert (n = 0) by nia. subst n. left. auto.
  - assert (Hn0 : 0 < n) by nia. right. split; [exact Hn0|]. split; [apply lg_le; lia|].
    pose proof (lg_pos _ Ha). pose proof (lg_pos b Hb). pose proof (lg_pos n Hn0). pose proof (lg_le n ltac:(lia)). pose proof (lg_mul n b Hn0 Hb).
    unfold fdiv, SFdiv. cbn [xorb]. unfold SFdiv_core_binary.
    rewrite !to_pos_eq by now apply mant_pos. rewrite !Zdigits_log2 by now apply mant_pos. rewrite !lg_shift by lia.
    unfold fexp, emin.
    replace (Z.min (Z.max (lg (n * b) + (53 - lg (n * b)) + (lg (n * b) - 53) - (lg b + (53 - lg b) + (lg b - 53)) - 53) (3 - 1024 - 53)) (lg (n * b) - 53 - (lg b - 53)))
      with (lg (n * b) - lg b - 53) by lia.
    replace (lg (n * b) - 53 - (lg b - 53) - (lg (n * b) - lg b - 53)) with 53 by lia. cbv iota.
    rewrite Z.shiftl_mul_pow2 by lia.
    assert (Hm : n * b * 2 ^ (53 - lg (n * b)) * 2 ^ 53 = n * 2 ^ (53 - lg (n * b) + lg b) * (b * 2 ^ (53 - lg b))).
    { replace (2 ^ 53) with (2 ^ (lg b) * 2 ^ (53 - lg b)) by (rewrite <- Z.pow_add_r by lia; f_equal; lia). rewrite (Z.pow_add_r 2 (53 - lg (n * b)) (lg b)) by lia. ring. }
    rewrite Hm.
    rewrite div_eucl_mul by (pose proof (mant_pos b Hb Hlb); lia).
    assert (Hloc : new_location (b * 2 ^ (53 - lg b)) 0 = loc_Exact) by (unfold new_location; now destruct (Z.even _)).
    rewrite Hloc. rewrite <- (Z.add_0_l (lg n - 53)). 
    assert (Hbig : n * 2 ^ (53 - lg (n * b) + lg b) = n * 2 ^ (53 - lg n) * 2 ^ (lg n - lg (n * b) + lg b)).
    { rewrite <- Z.mul_assoc, <- Z.pow_add_r by lia. do 2 f_equal. lia. }
    rewrite Hbig. rewrite round_exact; [f_equal; lia|apply lg_full; lia|lia|lia].
Qed.
Close Scope Z_scope.
Open Scope N_scope.

(* ---- parameters ---- *)
Definition orelse {A} (a b : option A) : option A := match a with Some x => Some x | None => b end.
Ltac note_get :=
  let IH := fresh "IH" in
  intros fs; induction fs as [|f fs IH]; intros p; [reflexivity|]; cbn [fold_left]; rewrite IH; clear IH;
  destruct f as [ie v|q|b|x]; cbn [last_value last_probability note]; try reflexivity;
  destruct p as [a b c d e g h i j k]; cbn;
  repeat match goal with
  | |- context [if ?x =? ?y then _ else _] => destruct (N.eqb_spec x y); subst; cbn
  end; try reflexivity; try congruence;
  repeat match goal with |- context [last_value ?a ?b] => destruct (last_value a b) | |- context [last_probability ?b] => destruct (last_probability b) end; cbn; try reflexivity; try congruence.
Lemma get34 : forall fs p, p34 (fold_left note fs p) = orelse (last_value 34 fs) (p34 p). Proof. note_get. Qed.
Lemma get35 : forall fs p, p35 (fold_left note fs p) = orelse (last_value 35 fs) (p35 p). Proof. note_get. Qed.
Lemma get49 : forall fs p, p49 (fold_left note fs p) = orelse (last_value 49 fs) (p49 p). Proof. note_get. Qed.
Lemma get50 : forall fs p, p50 (fold_left note fs p) = orelse (last_value 50 fs) (p50 p). Proof. note_get. Qed.
Lemma get304 : forall fs p, p304 (fold_left note fs p) = orelse (last_value 304 fs) (p304 p). Proof. note_get. Qed.
Lemma get305 : forall fs p, p305 (fold_left note fs p) = orelse (last_value 305 fs) (p305 p). Proof. note_get. Qed.
Lemma get306 : forall fs p, p306 (fold_left note fs p) = orelse (last_value 306 fs) (p306 p). Proof. note_get. Qed.
Lemma get309 : forall fs p, p309 (fold_left note fs p) = orelse (last_value 309 fs) (p309 p). Proof. note_get. Qed.
Lemma get310 : forall fs p, p310 (fold_left note fs p) = orelse (last_value 310 fs) (p310 p). Proof. note_get. Qed.
Lemma get311 : forall fs p, p311 (fold_left note fs p) = orelse (last_probability fs) (p311 p). Proof. note_get. Qed.
Lemma orelse_none {A} (x : option A) : orelse x None = x.
Proof. now destruct x. Qed.
Lemma read_params fs : fold_left note fs params_default =
  mkP (last_value 34 fs) (last_value 35 fs) (last_value 49 fs) (last_value 50 fs) (last_value 304 fs)
      (last_value 305 fs) (last_value 306 fs) (last_value 309 fs) (last_value 310 fs) (last_probability fs).
Proof.
  pose proof (get34 fs params_default) as H34. pose proof (get35 fs params_default) as H35. pose proof (get49 fs params_default) as H49.
  pose proof (get50 fs params_default) as H50. pose proof (get304 fs params_default) as H304. pose proof (get305 fs params_default) as H305.
  pose proof (get306 fs params_default) as H306. pose proof (get309 fs params_default) as H309. pose proof (get310 fs params_default) as H310.
  pose proof (get311 fs params_default) as H311. cbn [params_default p34 p35 p49 p50 p304 p305 p306 p309 p310 p311] in *. rewrite !orelse_none in *.
  destruct (fold_left note fs params_default). cbn in *. now subst.
Qed.
(* ---- methods ---- *)
Definition usable_k (m : meth) : option f64 :=
  match m with
  | CountBased i s => count_based_k i s
  | NoutofN n pop => n_out_of_n_k n pop
  | Probability p => probabilistic_k p
  | OneIn i => Some (f_of i)
  end.
Definition method (fs : list field) : option meth :=
  match last_value 304 fs with
  | Some alg =>
    if alg =? 1 then match last_value 305 fs, last_value 306 fs with Some i, Some s => Some (CountBased i s) | _, _ => None end
    else if alg =? 3 then match last_value 309 fs, last_value 310 fs with Some i, Some s => Some (NoutofN i s) | _, _ => None end
    else if alg =? 4 then match last_probability fs with Some p => Some (Probability p) | None => None end
    else None
  | None =>
    match last_value 49 fs with
    | Some alg => if (alg =? 1) || (alg =? 2) then match last_value 50 fs with Some i => Some (OneIn i) | None => None end else None
    | None =>
      match last_value 35 fs with
      | Some alg => if (alg =? 1) || (alg =? 2) then match last_value 34 fs with Some i => Some (OneIn i) | None => None end else None
      | None =>
        match last_value 305 fs, last_value 306 fs with
        | Some i, Some s => Some (CountBased i s)
        | _, _ =>
          match last_value 309 fs, last_value 310 fs with
          | Some i, Some s => Some (NoutofN i s)
          | _, _ => match last_probability fs with Some p => Some (Probability p) | None =>
            match last_value 50 fs with Some i => Some (OneIn i) | None => match last_value 34 fs with Some i => Some (OneIn i) | None => None end end end
          end
        end
      end
    end
  end.
Lemma factor_method fs : factor (fold_left note fs params_default) = match method fs with Some m => usable_k m | None => None end.
Proof.
  rewrite read_params. unfold factor, method. cbn [p34 p35 p49 p50 p304 p305 p306 p309 p310 p311].
  repeat match goal with
  | |- context [match last_value ?a ?b with _ => _ end] => destruct (last_value a b)
  | |- context [match last_probability ?b with _ => _ end] => destruct (last_probability b)
  | |- context [if ?b then _ else _] => destruct b
  end; reflexivity.
Qed.
Lemma method_spec fs m : (named fs m \/ inferred fs m) <-> method fs = Some m.
Proof.
  split.
  - unfold method. intros [H|H]; destruct H; unfold has, lacks, unnamed, no_pair, lacks in *;
      repeat match goal with
      | H : _ /\ _ |- _ => destruct H
      | H : _ \/ _ |- _ => destruct H
      end; subst;
      repeat match goal with H : last_value _ _ = _ |- _ => rewrite H; clear H | H : last_probability _ = _ |- _ => rewrite H; clear H end; cbn [orb N.eqb];
      try reflexivity;
      repeat match goal with |- context [match last_value ?a ?b with _ => _ end] => destruct (last_value a b) end; reflexivity.
  - unfold method. destruct (last_value 304 fs) as [alg|] eqn:E304.
    + destruct (N.eqb_spec alg 1) as [->|].
      { destruct (last_value 305 fs) eqn:?, (last_value 306 fs) eqn:?; try discriminate. intros H; injection H as <-. left. now apply Nm_count. }
      destruct (N.eqb_spec alg 3) as [->|].
      { destruct (last_value 309 fs) eqn:?, (last_value 310 fs) eqn:?; try discriminate. intros H; injection H as <-. left. now apply Nm_nofn. }
      destruct (N.eqb_spec alg 4) as [->|]; [|discriminate].
      destruct (last_probability fs) eqn:?; try discriminate. intros H; injection H as <-. left. now apply Nm_prob.
    + destruct (last_value 49 fs) as [alg|] eqn:E49.
      { destruct ((alg =? 1) || (alg =? 2)) eqn:Ea; [|discriminate]. apply orb_true_iff in Ea. rewrite !N.eqb_eq in Ea.
        destruct (last_value 50 fs) eqn:?; try discriminate. intros H; injection H as <-. left. now apply (Nm_mode _ alg). }
      destruct (last_value 35 fs) as [alg|] eqn:E35.
      { destruct ((alg =? 1) || (alg =? 2)) eqn:Ea; [|discriminate]. apply orb_true_iff in Ea. rewrite !N.eqb_eq in Ea.
        destruct (last_value 34 fs) eqn:?; try discriminate. intros H; injection H as <-. left. now apply (Nm_alg _ alg). }
      assert (Hu : unnamed fs) by (unfold unnamed, lacks; auto).
      assert (Hpair : forall a b (x : option meth) y, (match last_value a fs, last_value b fs with Some i, Some s => x | _, _ => y end = Some m) -> True) by auto. clear Hpair.
      intros H. right. revert H.
      destruct (last_value 305 fs) as [i|] eqn:E305; [destruct (last_value 306 fs) as [s|] eqn:E306; [intros H; injection H as <-; now apply In_count|]|].
      1: assert (Hp : no_pair fs 305 306) by (right; exact E306).
      2: assert (Hp : no_pair fs 305 306) by (left; exact E305).
      all: (destruct (last_value 309 fs) as [n|] eqn:E309; [destruct (last_value 310 fs) as [pop|] eqn:E310; [intros H; injection H as <-; now apply In_nofn|]|];
        [assert (Hq : no_pair fs 309 310) by (right; exact E310)|assert (Hq : no_pair fs 309 310) by (left; exact E309)];
        (destruct (last_probability fs) eqn:Epr; [intros H; injection H as <-; now apply In_prob|];
         destruct (last_value 50 fs) eqn:E50; [intros H; injection H as <-; now apply In_50|];
         destruct (last_value 34 fs) eqn:E34; [intros H; injection H as <-; now apply In_34|discriminate])).
Qed.
Lemma usable_k_spec m : (usable m -> usable_k m = Some (factor_of m)) /\ (~ usable m -> usable_k m = None).
Proof.
  destruct m as [i s|n pop|p|i]; cbn [usable usable_k factor_of].
  - unfold count_based_k. destruct (N.eqb_spec i 0); split; intros; try reflexivity; exfalso; tauto.
  - unfold n_out_of_n_k. destruct (N.eqb_spec n 0); split; intros; try reflexivity; exfalso; tauto.
  - unfold probabilistic_k. destruct (SFltb (S754_zero false) p), (SFleb p (f_of 1)); cbn; split; intros H; try reflexivity; exfalso; intuition congruence.
  - split; [reflexivity|tauto].
Qed.
Lemma usable_dec m : usable m \/ ~ usable m.
Proof.
  destruct m as [i s|n pop|p|i]; cbn [usable]; [destruct (N.eq_dec i 0); tauto|destruct (N.eq_dec n 0); tauto| |tauto].
  destruct (SFltb (S754_zero false) p), (SFleb p (f_of 1)); auto; right; intuition congruence.
Qed.
Lemma is_counter_spec ie : is_counter ie = true <-> counter_ie ie.
Proof.
  unfold is_counter, counter_ie. rewrite !orb_true_iff, !N.eqb_eq. cbn. intuition congruence.
Qed.
Lemma scale_spec k f : counter_by (fun v => f_to_u64 (fmul (f_of v) k)) f (scale k f).
Proof.
  destruct f as [ie v| | |]; cbn [counter_by scale]; try reflexivity. destruct (is_counter ie) eqn:E.
  - split; [reflexivity|]. apply is_counter_spec in E. tauto.
  - split; [|reflexivity]. intros H. apply is_counter_spec in H. congruence.
Qed.
Lemma scale_all k fs : Forall2 (counter_by (fun v => f_to_u64 (fmul (f_of v) k))) fs (map (scale k) fs).
Proof. induction fs as [|f fs IH]; constructor; [apply scale_spec|exact IH]. Qed.
Lemma counts_spec fs : existsb counts fs = true <-> has_counter fs.
Proof.
  rewrite existsb_exists. unfold has_counter. split.
  - intros (f & Hin & Hc). destruct f as [ie v| | |]; try discriminate. exists ie, v. split; [exact Hin|]. now apply is_counter_spec.
  - intros (ie & v & Hin & Hc). exists (F ie v). split; [exact Hin|]. now apply is_counter_spec.
Qed.
Lemma factor_whole m n : whole_factor m n -> usable m -> params_fit m -> n < 9007199254740992 -> rep (factor_of m) (Z.of_N n).
Proof.
  intros Hw Hu Hf Hn. destruct m as [i s|sz p|p|i]; cbn [whole_factor usable params_fit factor_of] in *; [| |contradiction|].
  - apply (div_rep _ _ _ (Z.of_N i)); [|apply f_of_rep; lia|lia|lia]. replace (Z.of_N n * Z.of_N i)%Z with (Z.of_N s + Z.of_N i)%Z by lia.
    apply add_rep; [apply f_of_rep; lia|apply f_of_rep; lia|lia].
  - apply (div_rep _ _ _ (Z.of_N sz)); [|apply f_of_rep; lia|lia|lia]. rewrite <- N2Z.inj_mul, <- Hw. apply f_of_rep; lia.
  - subst i. apply f_of_rep; lia.
Qed.
Lemma scaled_exact k n v : rep k (Z.of_N n) -> v < 9007199254740992 -> v * n < 9007199254740992 -> f_to_u64 (fmul (f_of v) k) = v * n.
Proof.
  intros Hk Hv Hp. rewrite (to_u64_rep _ (Z.of_N v * Z.of_N n)); [lia|]. apply mul_rep; [apply f_of_rep; lia|exact Hk|lia].
Qed.
