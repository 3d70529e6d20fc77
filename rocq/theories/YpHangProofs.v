(* Texts on which the scanner does not return, panics, or misreads a module. *)
From Coq Require Import String.
From Verif Require Import Base YpModel YpSpec YpFuelProofs YpProofs.

Section U.
Variable u_white u_alpha u_num : N -> bool.
Notation white := (white u_white).
Notation skip_ws_m := (skip_ws_m u_white).
Notation skip_ws := (skip_ws u_white).
Notation read_value := (read_value u_white u_alpha u_num).
Notation match_keyword := (match_keyword u_white u_alpha u_num).
Notation match_any := (match_any u_white u_alpha u_num).
Notation skip_statement_m := (skip_statement_m u_white).
Notation skip_statement := (skip_statement u_white).
Notation span_id := (span_id u_alpha u_num).
Notation read_identifier := (read_identifier u_alpha u_num).
Notation concat_loop := (concat_loop u_white).
Notation skip_one_token := (skip_one_token u_alpha u_num).
Notation expect_char := (expect_char u_white).
Notation value_semi := (value_semi u_white u_alpha u_num).
Notation import_body := (import_body u_white u_alpha u_num).
Notation include_body := (include_body u_white u_alpha u_num).
Notation parse_import := (parse_import u_white u_alpha u_num).
Notation parse_include := (parse_include u_white u_alpha u_num).
Notation parse_loop := (parse_loop u_white u_alpha u_num).
Notation extract_upto := (extract_upto u_white u_alpha u_num).
Notation extract := (extract u_white u_alpha u_num).
Ltac inv H := inversion H; subst; clear H.

(* ---- more turns do not change an answer ---- *)
Definition later {A} (x y : yres A) : Prop := x = Diverge \/ x = y.
Lemma later_refl : forall A (x : yres A), later x x.
Proof. intros. right. reflexivity. Qed.
Lemma later_bind : forall A B (x y : yres A) (f g : A -> yres B),
  later x y -> (forall a, later (f a) (g a)) -> later (rbind x f) (rbind y g).
Proof.
  intros A B x y f g [ -> | -> ] H; [left; reflexivity|].
  destruct y; cbn; [apply H|right; reflexivity|right; reflexivity|left; reflexivity].
Qed.
Lemma import_body_mono : forall n k p v s, later (import_body n p v s) (import_body (n + k) p v s).
Proof.
  induction n as [|n IH]; intros k p v s; [left; reflexivity|].
  cbn [Nat.add YpModel.import_body]. apply later_bind; [apply later_refl|]. intros s1.
  destruct (closing s1); [apply later_refl|].
  apply later_bind; [apply later_refl|]. intros [s2|].
  - apply later_bind; [apply later_refl|]. intros x. apply IH.
  - apply later_bind; [apply later_refl|]. intros [s2|].
    + apply later_bind; [apply later_refl|]. intros x. apply IH.
    + apply later_bind; [apply later_refl|]. intros x. apply IH.
Qed.
Lemma include_body_mono : forall n k v s, later (include_body n v s) (include_body (n + k) v s).
Proof.
  induction n as [|n IH]; intros k v s; [left; reflexivity|].
  cbn [Nat.add YpModel.include_body]. apply later_bind; [apply later_refl|]. intros s1.
  destruct (closing s1); [apply later_refl|].
  apply later_bind; [apply later_refl|]. intros [s2|].
  - apply later_bind; [apply later_refl|]. intros x. apply IH.
  - apply later_bind; [apply later_refl|]. intros x. apply IH.
Qed.
Lemma parse_import_mono : forall n k s, later (parse_import n s) (parse_import (n + k) s).
Proof.
  intros n k s. unfold YpModel.parse_import.
  apply later_bind; [apply later_refl|]. intros s1. apply later_bind; [apply later_refl|].
  intros [[w|] x]; cbn [fst snd]; [|apply later_refl].
  apply later_bind; [apply later_refl|]. intros s2. apply later_bind; [apply later_refl|]. intros s3.
  apply later_bind; [apply import_body_mono|]. intros y. apply later_refl.
Qed.
Lemma parse_include_mono : forall n k s, later (parse_include n s) (parse_include (n + k) s).
Proof.
  intros n k s. unfold YpModel.parse_include.
  apply later_bind; [apply later_refl|]. intros s1. apply later_bind; [apply later_refl|].
  intros [[w|] x]; cbn [fst snd]; [|apply later_refl].
  apply later_bind; [apply later_refl|]. intros [|c r]; [apply later_refl|].
  destruct (c =? 59); [apply later_refl|]. destruct (c =? 123); [|apply later_refl].
  apply later_bind; [apply include_body_mono|]. intros y. apply later_refl.
Qed.
Lemma parse_loop_mono : forall n k b j acc s,
  later (parse_loop n b acc s) (parse_loop (n + k) (b + j) acc s).
Proof.
  induction n as [|n IH]; intros k b j acc s; [left; reflexivity|].
  cbn [Nat.add YpModel.parse_loop]. destruct s as [|c s]; [apply later_refl|].
  apply later_bind; [apply later_refl|]. intros [|c1 s1]; [apply later_refl|].
  apply later_bind; [apply later_refl|]. intros [s2|].
  - apply later_bind; [apply parse_import_mono|]. intros x. apply IH.
  - apply later_bind; [apply later_refl|]. intros [s2|].
    + apply later_bind; [apply parse_include_mono|]. intros x. apply IH.
    + apply later_bind; [apply later_refl|]. intros [|]; [apply later_refl|apply IH].
Qed.
Lemma hang_all : forall t, extract t = Diverge -> forall n, extract_upto n t = Diverge.
Proof.
  intros t H n.
  destruct (parse_loop_mono n (S (length t)) n (S (length t)) (mkDeps [] []) t) as [E|E]; [exact E|].
  unfold YpModel.extract_upto. rewrite E.
  assert (Q : extract_upto (n + S (length t)) t = Diverge)
    by (rewrite (extract_enough u_white u_alpha u_num t (n + S (length t)))%nat by lia; exact H).
  exact Q.
Qed.

(* ---- a text cut inside an import or include block ---- *)
Lemma import_cut : forall g a b b0 l n, gap_ok g -> name_ok a -> blank_ok b -> blank_ok b0 ->
  subs_ok true l ->
  parse_import n (gtext g ++ arg_text a ++ btext b ++ [123] ++ btext b0 ++ subs_text l) = Diverge.
Proof.
  intros g a b b0 l n G A B B0 SB. unfold YpModel.parse_import. rewrite (skip_gap u_white u_alpha u_num g _ G).
  set (body := btext b0 ++ subs_text l).
  change ([123] ++ body) with (123 :: body).
  destruct (name_start u_white u_alpha u_num a (btext b ++ 123 :: body) A) as [c [r [E1 E2]]].
  rewrite E1, (skip_hard u_white u_alpha u_num c r E2), <- E1. cbn [rbind].
  destruct (read_name u_white u_alpha u_num a b 123 body A B eq_refl eq_refl ltac:(discriminate)) as [t [R1 R2]].
  rewrite R1. cbn [rbind fst snd]. rewrite R2. cbn [rbind].
  unfold YpModel.expect_char. rewrite (skip_hard u_white u_alpha u_num 123 body eq_refl). cbn [rbind].
  change (123 =? 123) with true. cbn iota. cbn [rbind].
  assert (D : import_body n None None body = Diverge).
  { destruct (import_body_mono n (length l) None None body) as [E|E]; [exact E|]. rewrite E.
    rewrite Nat.add_comm. unfold body. rewrite <- (app_nil_r (subs_text l)).
    rewrite (import_subs u_white u_alpha u_num l b0 n None None [] B0 SB). apply import_body_eof. }
  rewrite D. reflexivity.
Qed.
Lemma include_cut : forall g a b b0 l n, gap_ok g -> name_ok a -> blank_ok b -> blank_ok b0 ->
  subs_ok false l ->
  parse_include n (gtext g ++ arg_text a ++ btext b ++ [123] ++ btext b0 ++ subs_text l) = Diverge.
Proof.
  intros g a b b0 l n G A B B0 SB. unfold YpModel.parse_include. rewrite (skip_gap u_white u_alpha u_num g _ G).
  set (body := btext b0 ++ subs_text l).
  change ([123] ++ body) with (123 :: body).
  destruct (name_start u_white u_alpha u_num a (btext b ++ 123 :: body) A) as [c [r [E1 E2]]].
  rewrite E1, (skip_hard u_white u_alpha u_num c r E2), <- E1. cbn [rbind].
  destruct (read_name u_white u_alpha u_num a b 123 body A B eq_refl eq_refl ltac:(discriminate)) as [t [R1 R2]].
  rewrite R1. cbn [rbind fst snd]. rewrite R2. cbn [rbind].
  change (123 =? 59) with false. change (123 =? 123) with true. cbn iota.
  assert (D : include_body n None body = Diverge).
  { destruct (include_body_mono n (length l) None body) as [E|E]; [exact E|]. rewrite E.
    rewrite Nat.add_comm. unfold body. rewrite <- (app_nil_r (subs_text l)).
    rewrite (include_subs u_white u_alpha u_num l b0 n None [] B0 SB). apply include_body_eof. }
  rewrite D. reflexivity.
Qed.
Lemma hang_import : forall m g a b b0 l, opening_ok m ->
  gap_ok g -> name_ok a -> blank_ok b -> blank_ok b0 -> subs_ok true l ->
  forall n, extract_upto n (opening_text m ++ chars "import" ++ gtext g ++ arg_text a ++
                            btext b ++ [123] ++ btext b0 ++ subs_text l) = Diverge.
Proof.
  intros m g a b b0 l O G A B B0 SB. apply hang_all.
  set (rest := gtext g ++ arg_text a ++ btext b ++ [123] ++ btext b0 ++ subs_text l).
  destruct (opening_done u_white u_alpha u_num m (chars "import" ++ rest) O) as [j [b1 E]].
  set (t := opening_text m ++ chars "import" ++ rest).
  set (N0 := (j + (1 + (b1 + S (length t))))%nat).
  rewrite <- (extract_enough u_white u_alpha u_num t N0) by (unfold N0; lia).
  unfold YpModel.extract_upto, t. unfold N0 at 1. rewrite E by (unfold N0; lia).
  assert (D : match_keyword (chars "import") (chars "import" ++ rest) = Ok (Some rest))
    by (exact (yeskw_gap u_white u_alpha u_num (chars "import") _ _ g _ eq_refl eq_refl eq_refl G)).
  change (chars "import" ++ rest) with (105 :: [109; 112; 111; 114; 116] ++ rest) in *.
  cbn [Nat.add YpModel.parse_loop]. rewrite (skip_hard u_white u_alpha u_num 105) by reflexivity. cbn [rbind].
  rewrite D. cbn [rbind]. unfold rest. rewrite (import_cut g a b b0 l _ G A B B0 SB). reflexivity.
Qed.
Lemma hang_include : forall m g a b b0 l, opening_ok m ->
  gap_ok g -> name_ok a -> blank_ok b -> blank_ok b0 -> subs_ok false l ->
  forall n, extract_upto n (opening_text m ++ chars "include" ++ gtext g ++ arg_text a ++
                            btext b ++ [123] ++ btext b0 ++ subs_text l) = Diverge.
Proof.
  intros m g a b b0 l O G A B B0 SB. apply hang_all.
  set (rest := gtext g ++ arg_text a ++ btext b ++ [123] ++ btext b0 ++ subs_text l).
  destruct (opening_done u_white u_alpha u_num m (chars "include" ++ rest) O) as [j [b1 E]].
  set (t := opening_text m ++ chars "include" ++ rest).
  set (N0 := (j + (1 + (b1 + S (length t))))%nat).
  rewrite <- (extract_enough u_white u_alpha u_num t N0) by (unfold N0; lia).
  unfold YpModel.extract_upto, t. unfold N0 at 1. rewrite E by (unfold N0; lia).
  assert (D : match_keyword (chars "include") (chars "include" ++ rest) = Ok (Some rest))
    by (exact (yeskw_gap u_white u_alpha u_num (chars "include") _ _ g _ eq_refl eq_refl eq_refl G)).
  assert (D0 : match_keyword (chars "import") (chars "include" ++ rest) = Ok None)
    by (apply nokw; [discriminate|reflexivity|discriminate|apply after_gap, G]).
  change (chars "include" ++ rest) with (105 :: [110; 99; 108; 117; 100; 101] ++ rest) in *.
  cbn [Nat.add YpModel.parse_loop]. rewrite (skip_hard u_white u_alpha u_num 105) by reflexivity. cbn [rbind].
  rewrite D0, D. cbn [rbind]. unfold rest. rewrite (include_cut g a b b0 l _ G A B B0 SB). reflexivity.
Qed.

(* ---- a module named after a meta statement ---- *)
Lemma meta_name : forall b kw g w c rest, blank_ok b -> kw_ok kw -> ~ reserved kw -> gap_ok g ->
  meta_kw w -> blank_char c = true \/ c = 123 ->
  extract (btext b ++ kw ++ gtext g ++ w ++ c :: rest) = Ok (mkDeps [] []).
Proof.
  intros b kw g w c rest B K R G M C.
  set (t := btext b ++ kw ++ gtext g ++ w ++ c :: rest).
  destruct (eats_kw u_white u_alpha u_num kw (gtext g ++ w ++ c :: rest) K R (after_gap g _ G)) as [j1 E1].
  destruct (eats_gap u_white u_alpha u_num g (w ++ c :: rest) G) as [j2 E2].
  rewrite <- (extract_enough u_white u_alpha u_num t (j1 + (j2 + S (S (length t))))) by lia.
  unfold YpModel.extract_upto, t. rewrite (parse_blank u_white u_alpha u_num b _ _ _ _ B), E1, E2.
  apply meta_stop; [exact M|]. destruct C as [C|C]; auto.
Qed.

(* ---- panics ---- *)
Lemma panic_last : forall b c, blank_ok b -> 128 <= c -> u_white c = false ->
  extract (btext b ++ [c]) = Panic.
Proof.
  intros b c B C W. unfold YpModel.extract, YpModel.extract_upto.
  rewrite (parse_blank u_white u_alpha u_num b _ _ _ _ B).
  cbn [YpModel.parse_loop]. unfold YpModel.skip_ws. cbn [YpModel.skip_ws_m].
  unfold YpModel.white. replace (c <? 128) with false by lia. rewrite W. reflexivity.
Qed.
Lemma panic_token : forall b rest, blank_ok b -> u_white 233 = false ->
  extract (btext b ++ 233 :: 32 :: rest) = Panic.
Proof.
  intros b rest B W. unfold YpModel.extract, YpModel.extract_upto.
  rewrite (parse_blank u_white u_alpha u_num b _ _ _ _ B).
  cbn [YpModel.parse_loop]. unfold YpModel.skip_ws. cbn [YpModel.skip_ws_m].
  unfold YpModel.white. change (233 <? 128) with false. cbn iota. rewrite W. reflexivity.
Qed.

(* ---- a string whose last character is a backslash ---- *)
Lemma open_string : forall s d p, ~ In 39 s -> skip_statement_m (StStr 39 p) d s = Ok [].
Proof.
  induction s as [|c r IH]; intros d p H; [reflexivity|]. cbn [YpModel.skip_statement_m].
  destruct (N.eqb_spec c 39) as [->|N0]; [exfalso; apply H; left; reflexivity|]. cbn [andb].
  apply IH. intros K. apply H. right. exact K.
Qed.
Lemma backslash_string : forall t s d p, ~ In 39 t -> ~ In 39 s ->
  skip_statement_m (StStr 39 p) d (t ++ [92; 39] ++ s) = Ok [].
Proof.
  induction t as [|c r IH]; intros s d p H K; [exact (open_string s d 39 K)|].
  cbn [app YpModel.skip_statement_m].
  destruct (N.eqb_spec c 39) as [->|N0]; [exfalso; apply H; left; reflexivity|]. cbn [andb].
  apply IH; [|exact K]. intros J. apply H. right. exact J.
Qed.
Lemma backslash_statement : forall t s, ~ In 39 t -> ~ In 39 s ->
  skip_statement (chars "description" ++ [32; 39] ++ t ++ [92; 39] ++ s) = Ok [].
Proof. intros t s H K. pose proof (backslash_string t s O 39 H K) as Q. destruct t; exact Q. Qed.
Lemma backslash_cut : forall g a b b0 l t rest n, gap_ok g -> name_ok a -> blank_ok b ->
  blank_ok b0 -> subs_ok true l -> ~ In 39 t -> ~ In 39 rest ->
  parse_import n (gtext g ++ arg_text a ++ btext b ++ [123] ++ btext b0 ++ subs_text l ++
                  chars "description" ++ [32; 39] ++ t ++ [92; 39] ++ rest) = Diverge.
Proof.
  intros g a b b0 l t rest n G A B B0 SB T R. unfold YpModel.parse_import.
  rewrite (skip_gap u_white u_alpha u_num g _ G).
  set (last := chars "description" ++ [32; 39] ++ t ++ [92; 39] ++ rest).
  set (body := btext b0 ++ subs_text l ++ last).
  change ([123] ++ body) with (123 :: body).
  destruct (name_start u_white u_alpha u_num a (btext b ++ 123 :: body) A) as [c [r [E1 E2]]].
  rewrite E1, (skip_hard u_white u_alpha u_num c r E2), <- E1. cbn [rbind].
  destruct (read_name u_white u_alpha u_num a b 123 body A B eq_refl eq_refl ltac:(discriminate)) as [q [R1 R2]].
  rewrite R1. cbn [rbind fst snd]. rewrite R2. cbn [rbind].
  unfold YpModel.expect_char. rewrite (skip_hard u_white u_alpha u_num 123 body eq_refl). cbn [rbind].
  change (123 =? 123) with true. cbn iota. cbn [rbind].
  assert (D : import_body n None None body = Diverge).
  { destruct (import_body_mono n (length l + 1) None None body) as [E|E]; [exact E|]. rewrite E.
    replace (n + (length l + 1))%nat with (length l + (S n))%nat by lia. unfold body.
    rewrite (import_subs u_white u_alpha u_num l b0 (S n) None None last B0 SB).
    cbn [YpModel.import_body].
    assert (S1 : skip_ws last = Ok last) by exact (skip_hard u_white u_alpha u_num 100 _ eq_refl).
    rewrite S1. cbn [rbind].
    assert (C : closing last = None) by reflexivity. rewrite C.
    assert (M1 : match_keyword (chars "prefix") last = Ok None)
      by (apply nokw; [discriminate|reflexivity|discriminate|exact (after_gap (mkGap 32 []) _ (conj eq_refl (Forall_nil _)))]).
    assert (M2 : match_keyword (chars "revision-date") last = Ok None)
      by (apply nokw; [discriminate|reflexivity|discriminate|exact (after_gap (mkGap 32 []) _ (conj eq_refl (Forall_nil _)))]).
    rewrite M1, M2. cbn [rbind]. unfold last. rewrite (backslash_statement t rest T R). cbn [rbind].
    apply import_body_eof. }
  rewrite D. reflexivity.
Qed.
Lemma hang_backslash : forall m g a b b0 l t rest, opening_ok m ->
  gap_ok g -> name_ok a -> blank_ok b -> blank_ok b0 -> subs_ok true l -> ~ In 39 t -> ~ In 39 rest ->
  forall n, extract_upto n (opening_text m ++ chars "import" ++ gtext g ++ arg_text a ++
                            btext b ++ [123] ++ btext b0 ++ subs_text l ++
                            chars "description" ++ [32; 39] ++ t ++ [92; 39] ++ rest) = Diverge.
Proof.
  intros m g a b b0 l t0 rest0 O G A B B0 SB T R. apply hang_all.
  set (rest := gtext g ++ arg_text a ++ btext b ++ [123] ++ btext b0 ++ subs_text l ++
               chars "description" ++ [32; 39] ++ t0 ++ [92; 39] ++ rest0).
  destruct (opening_done u_white u_alpha u_num m (chars "import" ++ rest) O) as [j [b1 E]].
  set (t := opening_text m ++ chars "import" ++ rest).
  set (N0 := (j + (1 + (b1 + S (length t))))%nat).
  rewrite <- (extract_enough u_white u_alpha u_num t N0) by (unfold N0; lia).
  unfold YpModel.extract_upto, t. unfold N0 at 1. rewrite E by (unfold N0; lia).
  assert (D : match_keyword (chars "import") (chars "import" ++ rest) = Ok (Some rest))
    by (exact (yeskw_gap u_white u_alpha u_num (chars "import") _ _ g _ eq_refl eq_refl eq_refl G)).
  change (chars "import" ++ rest) with (105 :: [109; 112; 111; 114; 116] ++ rest) in *.
  cbn [Nat.add YpModel.parse_loop]. rewrite (skip_hard u_white u_alpha u_num 105) by reflexivity. cbn [rbind].
  rewrite D. cbn [rbind]. unfold rest. rewrite (backslash_cut g a b b0 l t0 rest0 _ G A B B0 SB T R). reflexivity.
Qed.

(* ---- a node named import ---- *)
Lemma import_node : forall m kw g g' rest, opening_ok m -> kw_ok kw -> ~ reserved kw ->
  gap_ok g -> gap_ok g' ->
  exists e, extract (opening_text m ++ kw ++ gtext g ++ chars "import" ++ gtext g' ++ 123 :: rest) = Err e.
Proof.
  intros m kw g g' rest O K R G G'.
  set (r1 := gtext g' ++ 123 :: rest).
  set (r2 := kw ++ gtext g ++ chars "import" ++ r1).
  destruct (opening_done u_white u_alpha u_num m r2 O) as [j [b1 E]].
  destruct (eats_kw u_white u_alpha u_num kw (gtext g ++ chars "import" ++ r1) K R (after_gap g _ G)) as [j1 E1].
  destruct (eats_gap u_white u_alpha u_num g (chars "import" ++ r1) G) as [j2 E2].
  set (t := opening_text m ++ r2).
  set (N0 := (j + (j1 + (j2 + (1 + (b1 + S (length t))))))%nat).
  rewrite <- (extract_enough u_white u_alpha u_num t N0) by (unfold N0; lia).
  unfold YpModel.extract_upto, t. unfold N0 at 1. rewrite E by (unfold N0; lia).
  unfold r2. rewrite E1, E2.
  assert (D : match_keyword (chars "import") (chars "import" ++ r1) = Ok (Some r1))
    by (exact (yeskw_gap u_white u_alpha u_num (chars "import") _ _ g' _ eq_refl eq_refl eq_refl G')).
  change (chars "import" ++ r1) with (105 :: [109; 112; 111; 114; 116] ++ r1) in *.
  cbn [Nat.add YpModel.parse_loop]. rewrite (skip_hard u_white u_alpha u_num 105) by reflexivity. cbn [rbind].
  rewrite D. cbn [rbind]. unfold YpModel.parse_import, r1.
  rewrite (skip_gap u_white u_alpha u_num g' _ G'), (skip_hard u_white u_alpha u_num 123 rest eq_refl). cbn [rbind].
  unfold YpModel.read_value. rewrite (skip_hard u_white u_alpha u_num 123 rest eq_refl). cbn [rbind].
  change ((123 =? 34) || (123 =? 39)) with false. cbn iota.
  replace (read_identifier (123 :: rest)) with (@None text, 123 :: rest) by reflexivity.
  cbn [rbind fst snd]. eexists. reflexivity.
Qed.

(* ---- where a scan can fail to return ---- *)
Section Suffix.
Variable P : text -> Prop.
Hypothesis tl : forall c r, P (c :: r) -> P r.
Definition keeps {A} (Q : A -> Prop) (x : yres A) : Prop := forall a, x = Ok a -> Q a.
Lemma keeps_bind : forall A B (Q : A -> Prop) (R : B -> Prop) x (f : A -> yres B),
  keeps Q x -> (forall a, Q a -> keeps R (f a)) -> keeps R (rbind x f).
Proof. intros A B Q R [a|e| |] f H K b E; cbn in E; try discriminate E. exact (K a (H a eq_refl) b E). Qed.
Lemma keeps_ok : forall A (Q : A -> Prop) a, Q a -> keeps Q (Ok a).
Proof. intros A Q a H b E. injection E as <-. exact H. Qed.
Lemma keeps_err : forall A (Q : A -> Prop) e, keeps Q (Err e).
Proof. intros A Q e b E. discriminate E. Qed.
Lemma keeps_panic : forall A (Q : A -> Prop), keeps Q Panic.
Proof. intros A Q b E. discriminate E. Qed.
Lemma keeps_div : forall A (Q : A -> Prop), keeps Q Diverge.
Proof. intros A Q b E. discriminate E. Qed.
Hint Resolve keeps_ok keeps_err keeps_panic keeps_div tl : keeps.

Lemma k_nil : forall s, P s -> P [].
Proof. induction s as [|c r IH]; intros H; [exact H|]. exact (IH (tl _ _ H)). Qed.
Lemma k_skip_ws : forall s m, P s -> keeps P (skip_ws_m m s).
Proof.
  intros s. remember (length s) as n eqn:E. revert s E.
  induction n as [n IH] using lt_wf_ind. intros s E m A.
  destruct s as [|c r]; cbn [YpModel.skip_ws_m]; [auto with keeps|].
  cbn in E. pose proof (tl _ _ A) as T.
  assert (IHr : forall m, keeps P (skip_ws_m m r))
    by (intros; eapply (IH (length r)); [lia|reflexivity|exact T]).
  destruct m.
  - destruct (white c); [apply IHr|]. destruct r as [|d r'].
    + destruct (c <? 128); auto with keeps.
    + destruct ((c =? 47) && (d =? 47)); [apply IHr|].
      destruct ((c =? 47) && (d =? 42)); [|auto with keeps].
      eapply (IH (length r')); [cbn in E; lia|reflexivity|exact (tl _ _ T)].
  - destruct (c =? 10); apply IHr.
  - destruct r as [|d r'].
    + destruct (c <? 128); auto with keeps.
    + destruct ((c =? 42) && (d =? 47)); [|apply IHr].
      eapply (IH (length r')); [cbn in E; lia|reflexivity|exact (tl _ _ T)].
Qed.
Lemma k_span : forall s, P s -> P (snd (span_id s)).
Proof.
  induction s as [|c r IH]; cbn; intros A; [exact A|].
  destruct (id_char u_alpha u_num c); [|exact A].
  specialize (IH (tl _ _ A)). destruct (span_id r) as [a b]. exact IH.
Qed.
Lemma k_ident : forall s, P s -> P (snd (read_identifier s)).
Proof.
  intros [|c r] A; cbn; [exact A|]. destruct (id_first u_alpha u_num c); [|exact A].
  pose proof (k_span r (tl _ _ A)) as H. destruct (span_id r) as [a b]. exact H.
Qed.
Lemma k_dq : forall s, P s -> P (snd (dq_body s)).
Proof.
  intros s. remember (length s) as n eqn:E. revert s E.
  induction n as [n IH] using lt_wf_ind. intros s E A.
  destruct s as [|c r]; cbn; [exact A|]. cbn in E. pose proof (tl _ _ A) as T.
  destruct (c =? 34); [exact T|]. destruct (c =? 92).
  - destruct r as [|e r']; [exact T|].
    specialize (IH (length r') ltac:(cbn in E; lia) r' eq_refl (tl _ _ T)).
    destruct (dq_body r') as [v rest]. exact IH.
  - specialize (IH (length r) ltac:(lia) r eq_refl T). destruct (dq_body r) as [v rest]. exact IH.
Qed.
Lemma k_sq : forall s, P s -> P (snd (sq_body s)).
Proof.
  induction s as [|c r IH]; cbn; intros A; [exact A|]. pose proof (tl _ _ A) as T.
  destruct (c =? 39); [exact T|]. specialize (IH T). destruct (sq_body r) as [v rest]. exact IH.
Qed.
Notation PS := (fun x => P (snd x)).
Lemma k_concat : forall f acc s, P s -> @keeps (text * text) PS (concat_loop f acc s).
Proof.
  induction f as [|f IH]; intros acc s A; cbn [YpModel.concat_loop]; [auto with keeps|].
  eapply keeps_bind; [exact (k_skip_ws _ _ A)|]. intros s1 A1.
  destruct s1 as [|c r1]; [auto with keeps|]. destruct (c =? 43); [|auto with keeps].
  eapply keeps_bind; [exact (k_skip_ws _ _ (tl _ _ A1))|]. intros s2 A2.
  destruct s2 as [|q r2]; [auto with keeps|]. pose proof (tl _ _ A2) as T2.
  destruct (q =? 34).
  - pose proof (k_dq r2 T2) as L. destruct (dq_body r2) as [w rest]. apply IH, L.
  - destruct (q =? 39); [|auto with keeps].
    pose proof (k_sq r2 T2) as L. destruct (sq_body r2) as [w rest]. apply IH, L.
Qed.
Lemma k_value : forall s, P s -> @keeps (option text * text) PS (read_value s).
Proof.
  intros s A. unfold YpModel.read_value.
  eapply keeps_bind; [exact (k_skip_ws _ _ A)|]. intros s1 A1.
  destruct s1 as [|c t]; [auto with keeps|]. pose proof (tl _ _ A1) as T.
  destruct ((c =? 34) || (c =? 39)); [|apply keeps_ok; exact (k_ident _ A1)].
  assert (L : P (snd (if c =? 34 then dq_body t else sq_body t)))
    by (destruct (c =? 34); [apply k_dq|apply k_sq]; exact T).
  destruct (if c =? 34 then dq_body t else sq_body t) as [[w|] rest]; [|auto with keeps].
  eapply keeps_bind; [exact (k_concat _ _ _ L)|]. intros x X. apply keeps_ok. exact X.
Qed.
Lemma k_skipn : forall k s, P s -> P (skipn k s).
Proof.
  induction k as [|k IH]; intros s A; [exact A|]. destruct s as [|c r]; [exact A|].
  cbn. apply IH. exact (tl _ _ A).
Qed.
Lemma k_keyword : forall k s, P s ->
  keeps (fun x => match x with Some r => P r | None => True end) (match_keyword k s).
Proof.
  intros k s A x E. unfold YpModel.match_keyword in E.
  destruct (peek_identifier u_alpha u_num s) as [[id|]| | |]; cbn [rbind] in E; try discriminate E;
    [|injection E as <-; exact I].
  destruct (text_eqb id k); [|injection E as <-; exact I].
  pose proof (k_skipn (length k) s A) as K.
  destruct (skipn (length k) s) as [|c r]; [injection E as <-; exact K|].
  destruct (kw_delim u_white c); injection E as <-; [exact K|exact I].
Qed.
Lemma k_statement : forall s m d, P s -> keeps P (skip_statement_m m d s).
Proof.
  intros s. remember (length s) as n eqn:E. revert s E.
  induction n as [n IH] using lt_wf_ind. intros s E m d A.
  destruct s as [|c r]; cbn [YpModel.skip_statement_m]; [auto with keeps|].
  cbn in E. pose proof (tl _ _ A) as T. pose proof (k_nil _ A) as N0.
  assert (IHr : forall m d, keeps P (skip_statement_m m d r))
    by (intros; eapply (IH (length r)); [lia|reflexivity|exact T]).
  destruct m.
  - destruct (white c); [apply IHr|].
    match goal with |- keeps _ (match r with [] => if _ then ?h else _ | _ => _ end) =>
      assert (G : keeps P h) end.
    { destruct ((c =? 34) || (c =? 39)); [apply IHr|].
      destruct (c =? 123); [apply IHr|]. destruct (c =? 125).
      - destruct d as [|[|d']]; [apply keeps_ok; exact A|apply keeps_ok; exact T|apply IHr].
      - destruct (c =? 59); [|apply IHr]. destruct d; [apply keeps_ok; exact T|apply IHr]. }
    destruct r as [|e r'].
    + destruct (c <? 128); [exact G|apply keeps_panic].
    + destruct ((c =? 47) && (e =? 47)); [apply IHr|].
      destruct ((c =? 47) && (e =? 42)); [|exact G].
      eapply (IH (length r')); [cbn in E; lia|reflexivity|exact (tl _ _ T)].
  - destruct (c =? 10); apply IHr.
  - destruct r as [|e r'].
    + destruct (c <? 128); [apply keeps_ok; exact N0|apply keeps_panic].
    + destruct ((c =? 42) && (e =? 47)); [|apply IHr].
      eapply (IH (length r')); [cbn in E; lia|reflexivity|exact (tl _ _ T)].
  - destruct ((c =? q) && negb (p =? 92)); apply IHr.
Qed.
Lemma k_expect : forall c s, P s -> keeps P (expect_char c s).
Proof.
  intros c s A. unfold YpModel.expect_char.
  eapply keeps_bind; [exact (k_skip_ws _ _ A)|]. intros [|d r] A1; [apply keeps_err|].
  destruct (d =? c); [apply keeps_ok; exact (tl _ _ A1)|apply keeps_err].
Qed.
Lemma k_semi : forall e s, P s -> @keeps (text * text) PS (value_semi e s).
Proof.
  intros e s A. unfold YpModel.value_semi.
  eapply keeps_bind; [exact (k_skip_ws _ _ A)|]. intros s1 A1.
  eapply keeps_bind; [exact (k_value _ A1)|]. intros [[w|] x] X; cbn [fst snd] in *; [|apply keeps_err].
  eapply keeps_bind; [exact (k_skip_ws _ _ X)|]. intros s2 A2.
  eapply keeps_bind; [exact (k_expect _ _ A2)|]. intros s3 A3. apply keeps_ok. exact A3.
Qed.
Lemma k_closing : forall s r, P s -> closing s = Some r -> P r.
Proof.
  intros [|c s] r A H; [discriminate H|]. cbn in H. destruct (c =? 125); inv H.
  exact (tl _ _ A).
Qed.
Lemma k_import_body : forall n p v s, P s ->
  @keeps (option text * option text * text) PS (import_body n p v s).
Proof.
  induction n as [|n IH]; intros p v s A; cbn [YpModel.import_body]; [apply keeps_div|].
  eapply keeps_bind; [exact (k_skip_ws _ _ A)|]. intros s1 A1.
  destruct (closing s1) as [r|] eqn:C; [apply keeps_ok; exact (k_closing _ _ A1 C)|].
  eapply keeps_bind; [exact (k_keyword _ _ A1)|]. intros [s2|] A2.
  - eapply keeps_bind; [exact (k_semi _ _ A2)|]. intros x X. apply IH, X.
  - eapply keeps_bind; [exact (k_keyword _ _ A1)|]. intros [s2|] A3.
    + eapply keeps_bind; [exact (k_semi _ _ A3)|]. intros x X. apply IH, X.
    + eapply keeps_bind; [exact (k_statement s1 StOut O A1)|]. intros x X. apply IH, X.
Qed.
Lemma k_include_body : forall n v s, P s ->
  @keeps (option text * text) PS (include_body n v s).
Proof.
  induction n as [|n IH]; intros v s A; cbn [YpModel.include_body]; [apply keeps_div|].
  eapply keeps_bind; [exact (k_skip_ws _ _ A)|]. intros s1 A1.
  destruct (closing s1) as [r|] eqn:C; [apply keeps_ok; exact (k_closing _ _ A1 C)|].
  eapply keeps_bind; [exact (k_keyword _ _ A1)|]. intros [s2|] A3.
  - eapply keeps_bind; [exact (k_semi _ _ A3)|]. intros x X. apply IH, X.
  - eapply keeps_bind; [exact (k_statement s1 StOut O A1)|]. intros x X. apply IH, X.
Qed.
Lemma k_import : forall b s, P s -> @keeps (import * text) PS (parse_import b s).
Proof.
  intros b s A. unfold YpModel.parse_import.
  eapply keeps_bind; [exact (k_skip_ws _ _ A)|]. intros s1 A1.
  eapply keeps_bind; [exact (k_value _ A1)|]. intros [[w|] x] X; cbn [fst snd] in *; [|apply keeps_err].
  eapply keeps_bind; [exact (k_skip_ws _ _ X)|]. intros s2 A2.
  eapply keeps_bind; [exact (k_expect _ _ A2)|]. intros s3 A3.
  eapply keeps_bind; [exact (k_import_body _ _ _ _ A3)|].
  intros [[[p|] v] r] R; [apply keeps_ok; exact R|apply keeps_err].
Qed.
Lemma k_include : forall b s, P s -> @keeps (include * text) PS (parse_include b s).
Proof.
  intros b s A. unfold YpModel.parse_include.
  eapply keeps_bind; [exact (k_skip_ws _ _ A)|]. intros s1 A1.
  eapply keeps_bind; [exact (k_value _ A1)|]. intros [[w|] x] X; cbn [fst snd] in *; [|apply keeps_err].
  eapply keeps_bind; [exact (k_skip_ws _ _ X)|]. intros [|c r] A2; [apply keeps_err|].
  pose proof (tl _ _ A2) as T.
  destruct (c =? 59); [apply keeps_ok; exact T|]. destruct (c =? 123); [|apply keeps_err].
  eapply keeps_bind; [exact (k_include_body _ _ _ T)|]. intros [p q] Q; apply keeps_ok; exact Q.
Qed.
Lemma k_token : forall s, P s -> P (skip_one_token s).
Proof.
  intros [|c r] A; [exact A|]. unfold YpModel.skip_one_token. pose proof (tl _ _ A) as T.
  destruct (c =? 34); [exact (k_dq _ T)|].
  destruct (c =? 39); [exact (k_sq _ T)|].
  destruct (_ || _); [exact (k_ident _ A)|exact T].
Qed.
Lemma id_run_prefix : forall s l, id_run u_alpha u_num s = Ok l -> exists q, s = l ++ q.
Proof.
  induction s as [|c r IH]; intros l H; cbn in H; [inv H; exists []; reflexivity|].
  destruct (utf8 c); [inv H; exists (c :: r); reflexivity|].
  destruct (negb _); [inv H; exists (c :: r); reflexivity|].
  destruct (forallb _ _); [|discriminate H].
  destruct (id_run u_alpha u_num r) as [l'| | |]; cbn in H; try discriminate H. inv H.
  destruct (IH l' eq_refl) as [q ->]. exists q. reflexivity.
Qed.
Lemma keyword_prefix : forall k s r, match_keyword k s = Ok (Some r) -> exists q, s = k ++ q.
Proof.
  intros k s r H. unfold YpModel.match_keyword in H.
  destruct (peek_identifier u_alpha u_num s) as [[id|]| | |] eqn:E; cbn [rbind] in H; try discriminate H.
  destruct (text_eqb id k) eqn:Q; [|discriminate H]. apply text_eqb_eq in Q. subst id.
  destruct s as [|c t]; [discriminate E|]. cbn in E.
  destruct (utf8 c) as [|b0 bs0]; [discriminate E|]. destruct (_ || _); [|discriminate E].
  destruct (forallb _ _); [|discriminate E].
  destruct (id_run u_alpha u_num t) as [l| | |] eqn:R; cbn in E; try discriminate E.
  injection E as <-. destruct (id_run_prefix t l R) as [q ->]. exists q. reflexivity.
Qed.
Lemma diverges_at : forall n b acc s, (length s < n)%nat -> P s ->
  parse_loop n b acc s = Diverge ->
  exists q, P (chars "import" ++ q) \/ P (chars "include" ++ q).
Proof.
  induction n as [|n IH]; intros b acc s L A H; [lia|]. cbn [YpModel.parse_loop] in H.
  destruct s as [|c0 s0]; [discriminate H|]. remember (c0 :: s0) as s eqn:Es. clear Es.
  pose proof (k_skip_ws s SpNormal A) as K1.
  pose proof (skip_ws_nodiv u_white u_alpha u_num s) as D1. pose proof (skip_ws_len u_white u_alpha u_num s) as L1.
  unfold YpModel.skip_ws in *.
  destruct (skip_ws_m SpNormal s) as [s1| | |]; cbn [rbind] in H; try discriminate H; [|congruence].
  specialize (K1 s1 eq_refl). specialize (L1 s1 eq_refl). cbn in K1.
  destruct s1 as [|c r]; [discriminate H|].
  pose proof (match_keyword_nodiv u_white u_alpha u_num (chars "import") (c :: r)) as D2.
  destruct (match_keyword (chars "import") (c :: r)) as [[s2|]| | |] eqn:M1; cbn [rbind] in H; try discriminate H.
  - destruct (keyword_prefix _ _ _ M1) as [q Q]. exists q. left. rewrite <- Q. exact K1.
  - pose proof (match_keyword_nodiv u_white u_alpha u_num (chars "include") (c :: r)) as D3.
    destruct (match_keyword (chars "include") (c :: r)) as [[s2|]| | |] eqn:M2; cbn [rbind] in H; try discriminate H.
    + destruct (keyword_prefix _ _ _ M2) as [q Q]. exists q. right. rewrite <- Q. exact K1.
    + pose proof (match_any_nodiv u_white u_alpha u_num meta_words (c :: r)) as D4.
      destruct (match_any meta_words (c :: r)) as [[|]| | |]; cbn [rbind] in H; try discriminate H; [|congruence].
      pose proof (skip_one_token_lt u_white u_alpha u_num c r) as SL. cbn in L1.
      apply (IH b acc (skip_one_token (c :: r))); [lia|exact (k_token _ K1)|exact H].
    + congruence.
  - congruence.
Qed.
End Suffix.

Lemma returns : forall t,
  (forall p q, t <> p ++ chars "import" ++ q) -> (forall p q, t <> p ++ chars "include" ++ q) ->
  extract t <> Diverge.
Proof.
  intros t H1 H2 D.
  destruct (diverges_at (fun s => exists p, t = p ++ s)
              ltac:(intros c r [p ->]; exists (p ++ [c]); rewrite <- app_assoc; reflexivity)
              (S (length t)) (S (length t)) (mkDeps [] []) t ltac:(lia)
              (ex_intro _ [] eq_refl) D) as [q [[p E]|[p E]]].
  - exact (H1 p q E).
  - exact (H2 p q E).
Qed.
End U.
