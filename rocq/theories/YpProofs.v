(* The scanner reads a well-formed module as the module reads. *)
From Coq Require Import String.
From Verif Require Import Base YpModel YpSpec YpFuelProofs.

(* nested induction on statements *)
Fixpoint stmt_ind2 (P : stmt -> Prop)
  (HS : forall kw a b, P (Semi kw a b))
  (HB : forall kw a b b0 l, Forall (fun x => P (fst x)) l -> P (Block kw a b b0 l))
  (s : stmt) : P s :=
  match s with
  | Semi kw a b => HS kw a b
  | Block kw a b b0 l =>
      HB kw a b b0 l
        ((fix go (l : list (stmt * blank)) : Forall (fun x => P (fst x)) l :=
            match l with
            | [] => Forall_nil _
            | x :: r => Forall_cons x (stmt_ind2 P HS HB (fst x)) (go r)
            end) l)
  end.

Lemma stmt_text_block : forall kw a b b0 l,
  stmt_text (Block kw a b b0 l) =
  kw ++ optarg_text a ++ btext b ++ [123] ++ btext b0 ++ stmts_text l ++ [125].
Proof.
  intros. cbn [stmt_text]. do 5 f_equal. f_equal.
  induction l as [|[x bx] r IH]; [reflexivity|]. cbn [stmts_text flat_map fst snd].
  rewrite <- app_assoc. f_equal. f_equal. exact IH.
Qed.
Definition arg_all (A : arg -> Prop) (a : optarg) : Prop :=
  match a with None => True | Some (g, x) => gap_ok g /\ arg_ok x /\ A x end.
Lemma stmt_all_block : forall K A kw a b b0 l,
  stmt_all K A (Block kw a b b0 l) ->
  (kw_ok kw /\ K kw) /\ arg_all A a /\ blank_ok b /\ blank_ok b0 /\ stmts_all K A l.
Proof.
  intros K A kw a b b0 l H. cbn [stmt_all] in H.
  destruct H as [H1 [H2 [H3 [H4 H5]]]]. repeat split; try assumption; try apply H1.
  clear -H5. induction l as [|[x bx] r IH]; [constructor|].
  destruct H5 as [X [B R]]. constructor; [split; assumption|]. apply IH, R.
Qed.

Section U.
Variable u_white u_alpha u_num : N -> bool.
Notation white := (white u_white).
Notation alpha := (alpha u_alpha).
Notation skip_ws_m := (skip_ws_m u_white).
Notation skip_ws := (skip_ws u_white).
Notation id_run := (id_run u_alpha u_num).
Notation id_byte := (id_byte u_alpha u_num).
Notation id_char := (id_char u_alpha u_num).
Notation span_id := (span_id u_alpha u_num).
Notation read_identifier := (read_identifier u_alpha u_num).
Notation concat_loop := (concat_loop u_white).
Notation read_value := (read_value u_white u_alpha u_num).
Notation peek_identifier := (peek_identifier u_alpha u_num).
Notation match_keyword := (match_keyword u_white u_alpha u_num).
Notation match_any := (match_any u_white u_alpha u_num).
Notation skip_statement_m := (skip_statement_m u_white).
Notation skip_statement := (skip_statement u_white).
Notation skip_one_token := (skip_one_token u_alpha u_num).
Notation expect_char := (expect_char u_white).
Notation value_semi := (value_semi u_white u_alpha u_num).
Notation import_body := (import_body u_white u_alpha u_num).
Notation include_body := (include_body u_white u_alpha u_num).
Notation parse_import := (parse_import u_white u_alpha u_num).
Notation parse_include := (parse_include u_white u_alpha u_num).
Notation parse_loop := (parse_loop u_white u_alpha u_num).
Notation extract_upto := (extract_upto u_white u_alpha u_num).
Notation extract := (extract u_white u_alpha u_num).

Ltac inv H := inversion H; subst; clear H.
Ltac classes :=
  unfold word_char, blank_char, id_start, id_part, letter, digit, kw_delim,
    YpModel.id_byte, YpModel.id_char, YpModel.id_first, alnum, YpModel.white, YpModel.alpha, numeric in *.
Ltac chr c := classes; destruct (c <? 128) eqn:?; [lia|lia].

(* ---- characters ---- *)
Lemma word_white : forall c, word_char c = true -> white c = false.
Proof. intros c H. chr c. Qed.
Lemma blank_white : forall c, blank_char c = true -> white c = true.
Proof. intros c H. chr c. Qed.
Lemma part_word : forall c, id_part c || (c =? 58) = true -> word_char c = true.
Proof. intros c H. chr c. Qed.
Lemma start_part : forall c, id_start c = true -> id_part c = true.
Proof. intros c H. chr c. Qed.
Lemma start_word : forall c, id_start c = true -> word_char c = true.
Proof. intros c H. chr c. Qed.
Lemma word_ascii : forall c, word_char c = true -> (c <? 128) = true.
Proof. intros c H. chr c. Qed.
Lemma start_alpha : forall c, id_start c = true -> alpha c || (c =? 95) = true.
Proof. intros c H. chr c. Qed.
Lemma part_id_char : forall c, id_part c || (c =? 58) = true -> id_char c = true.
Proof. intros c H. chr c. Qed.
Lemma part_id_byte : forall c, id_part c = true -> id_byte c = true.
Proof. intros c H. chr c. Qed.
Lemma first_ok : forall c, id_start c || digit c = true -> id_first u_alpha u_num c = true.
Proof. intros c H. chr c. Qed.
Lemma word_not_delim : forall c, word_char c = true -> kw_delim u_white c = false.
Proof. intros c H. chr c. Qed.
Lemma blank_delim : forall c, blank_char c = true -> kw_delim u_white c = true.
Proof. intros c H. chr c. Qed.

(* a character at which skip_ws stops *)
Definition hard (c : N) : bool := (33 <=? c) && (c <=? 126) && negb (c =? 47).
Lemma hard_white : forall c, hard c = true -> white c = false.
Proof. intros c H. unfold hard in H. chr c. Qed.
Lemma word_hard : forall c, word_char c = true -> hard c = true.
Proof. intros c H. unfold hard. chr c. Qed.
Lemma skip_hard : forall c r, hard c = true -> skip_ws (c :: r) = Ok (c :: r).
Proof.
  intros c r H. unfold YpModel.skip_ws. cbn [YpModel.skip_ws_m]. rewrite (hard_white c H).
  unfold hard in H. destruct r as [|d r].
  - replace (c <? 128) with true by lia. reflexivity.
  - replace (c =? 47) with false by lia. reflexivity.
Qed.

(* ---- layout ---- *)
Lemma skip_line : forall t s, ~ In 10 t -> skip_ws_m SpLine (t ++ 10 :: s) = skip_ws s.
Proof.
  induction t as [|c t IH]; intros s H; cbn [app YpModel.skip_ws_m].
  - reflexivity.
  - replace (c =? 10) with false; [apply IH; intros I; apply H; right; exact I|].
    symmetry. apply N.eqb_neq. intros ->. apply H. left. reflexivity.
Qed.
Lemma skip_block : forall t s, ~ (exists a b, t = a ++ [42; 47] ++ b) ->
  skip_ws_m SpBlock (t ++ 42 :: 47 :: s) = skip_ws s.
Proof.
  induction t as [|c t IH]; intros s H; cbn [app YpModel.skip_ws_m].
  - reflexivity.
  - assert (Ht : ~ (exists a b, t = a ++ [42; 47] ++ b)).
    { intros [a [b ->]]. apply H. exists (c :: a), b. reflexivity. }
    destruct t as [|d t]; cbn [app].
    + replace ((c =? 42) && (42 =? 47)) with false by (rewrite andb_comm; reflexivity).
      exact (IH s Ht).
    + destruct ((c =? 42) && (d =? 47)) eqn:E; [|exact (IH s Ht)].
      exfalso. apply H. exists [], t. apply andb_prop in E. destruct E as [E1 E2].
      apply N.eqb_eq in E1. apply N.eqb_eq in E2. subst. reflexivity.
Qed.
Lemma skip_blank : forall b s, blank_ok b -> skip_ws (btext b ++ s) = skip_ws s.
Proof.
  induction b as [|p b IH]; intros s H; [reflexivity|]. inv H.
  unfold btext. cbn [flat_map]. fold (btext b). rewrite <- app_assoc.
  rewrite <- (IH s H3). destruct p as [c|t|t]; cbn [ptext piece_ok] in *.
  - unfold YpModel.skip_ws. cbn [app YpModel.skip_ws_m]. rewrite (blank_white c H2). reflexivity.
  - rewrite <- !app_assoc. exact (skip_line t _ H2).
  - rewrite <- !app_assoc. exact (skip_block t _ H2).
Qed.
Lemma skip_gap : forall g s, gap_ok g -> skip_ws (gtext g ++ s) = skip_ws s.
Proof.
  intros [c b] s [H1 H2]. unfold gtext. cbn [g_char g_more app].
  unfold YpModel.skip_ws at 1. cbn [YpModel.skip_ws_m]. rewrite (blank_white c H1).
  exact (skip_blank b s H2).
Qed.

(* ---- what may follow a word ---- *)
Definition after_char (h : N) : bool :=
  blank_char h || (h =? 47) || (h =? 59) || (h =? 123) || (h =? 125).
Definition after (s : text) : Prop :=
  match s with [] => True | h :: _ => after_char h = true end.
Lemma after_byte : forall h, after_char h = true -> id_byte h = false.
Proof. intros h H. unfold after_char in H. chr h. Qed.
Lemma after_id_char : forall h, after_char h = true -> id_char h = false.
Proof. intros h H. unfold after_char in H. chr h. Qed.
Lemma after_ascii : forall h, after_char h = true -> (h <? 128) = true.
Proof. intros h H. unfold after_char in H. chr h. Qed.
Lemma after_blank : forall b s, blank_ok b -> after s -> after (btext b ++ s).
Proof.
  intros [|p b] s H A; [exact A|]. inv H. destruct p as [c|t|t]; cbn in *; try reflexivity.
  unfold after_char. rewrite H2. reflexivity.
Qed.
Lemma after_gap : forall g s, gap_ok g -> after (gtext g ++ s).
Proof. intros [c b] s [H _]. cbn in *. unfold after_char. rewrite H. reflexivity. Qed.
Lemma after_optarg : forall a s, arg_all (fun _ => True) a -> after s -> after (optarg_text a ++ s).
Proof.
  intros [[g x]|] s H A; [|exact A]. cbn [optarg_text]. rewrite <- app_assoc.
  apply after_gap. exact (proj1 H).
Qed.

(* ---- identifiers ---- *)
Lemma utf8_ascii : forall c, (c <? 128) = true -> utf8 c = [c].
Proof. intros c H. unfold utf8. rewrite H. reflexivity. Qed.

(* id_run over a word followed by something that ends it *)
Lemma id_run_word : forall r s, forallb word_char r = true -> after s ->
  exists l r', r = l ++ r' /\ id_run (r ++ s) = Ok l /\
    match r' with [] => True | d :: _ => word_char d = true /\ id_byte d = false end.
Proof.
  induction r as [|c r IH]; intros s W A.
  - exists [], []. split; [reflexivity|]. split; [|exact I]. cbn [app].
    destruct s as [|h s]; [reflexivity|]. cbn [YpModel.id_run]. cbn in A.
    rewrite (utf8_ascii h (after_ascii h A)), (after_byte h A). reflexivity.
  - cbn in W. apply andb_prop in W. destruct W as [W1 W2].
    cbn [app YpModel.id_run]. rewrite (utf8_ascii c (word_ascii c W1)).
    destruct (id_byte c) eqn:B; cbn [negb forallb].
    + destruct (IH s W2 A) as [l [r' [E1 [E2 E3]]]].
      exists (c :: l), r'. rewrite E2. cbn. split; [rewrite E1; reflexivity|]. split; [reflexivity|exact E3].
    + exists [], (c :: r). split; [reflexivity|]. split; [reflexivity|]. split; assumption.
Qed.
Lemma text_eqb_eq : forall a b, text_eqb a b = true <-> a = b.
Proof.
  induction a as [|x a IH]; intros [|y b]; cbn; split; intros H; try reflexivity; try discriminate H.
  - apply andb_prop in H. destruct H as [H1 H2]. apply N.eqb_eq in H1. apply IH in H2. subst. reflexivity.
  - inv H. rewrite N.eqb_refl. apply IH. reflexivity.
Qed.
Lemma text_eqb_refl : forall a, text_eqb a a = true.
Proof. intros. apply text_eqb_eq. reflexivity. Qed.
Lemma skipn_exact : forall (a b : text), skipn (length a) (a ++ b) = b.
Proof. induction a as [|x a IH]; intros b; [reflexivity|]. exact (IH b). Qed.

(* a word different from the keyword does not match it *)
Lemma nokw : forall k v s, v <> [] -> forallb word_char v = true -> v <> k -> after s ->
  match_keyword k (v ++ s) = Ok None.
Proof.
  intros k [|c r] s NE W NK A; [congruence|]. cbn in W. apply andb_prop in W. destruct W as [W1 W2].
  unfold YpModel.match_keyword. cbn [app YpModel.peek_identifier].
  rewrite (utf8_ascii c (word_ascii c W1)). cbn [forallb].
  destruct (alpha c || (c =? 95)); [|reflexivity].
  destruct (id_run_word r s W2 A) as [l [r' [E1 [E2 E3]]]]. rewrite E2. cbn [rbind].
  destruct (text_eqb (c :: l) k) eqn:Q; [|reflexivity].
  apply text_eqb_eq in Q. subst k. subst r.
  rewrite <- app_assoc. change (c :: l ++ r' ++ s) with ((c :: l) ++ r' ++ s). rewrite skipn_exact.
  destruct r' as [|d r'].
  - exfalso. apply NK. rewrite app_nil_r. reflexivity.
  - cbn [app]. destruct E3 as [E3 _]. rewrite (word_not_delim d E3). reflexivity.
Qed.
(* a keyword matches itself when a delimiter follows *)
Lemma yeskw : forall c r s, id_start c = true -> forallb id_part r = true ->
  match s with [] => True | h :: _ => kw_delim u_white h = true /\ id_byte h = false /\ (h <? 128) = true end ->
  match_keyword (c :: r) ((c :: r) ++ s) = Ok (Some s).
Proof.
  intros c r s S P D. unfold YpModel.match_keyword. cbn [app YpModel.peek_identifier].
  rewrite (utf8_ascii c (word_ascii c (start_word c S))), (start_alpha c S). cbn [forallb].
  assert (R : id_run (r ++ s) = Ok r).
  { clear -P D. induction r as [|x r IH].
    - destruct s as [|h s]; [reflexivity|]. destruct D as [_ [D1 D2]]. cbn [app YpModel.id_run].
      rewrite (utf8_ascii h D2), D1. reflexivity.
    - cbn in P. apply andb_prop in P. destruct P as [P1 P2]. cbn [app YpModel.id_run].
      rewrite (utf8_ascii x (word_ascii x (part_word x (eq_trans (f_equal (fun b => b || _) P1) eq_refl)))).
      rewrite (part_id_byte x P1). cbn [negb forallb]. rewrite (IH P2). reflexivity. }
  rewrite R. cbn [rbind]. rewrite text_eqb_refl.
  change (c :: r ++ s) with ((c :: r) ++ s). rewrite skipn_exact.
  destruct s as [|h s]; [reflexivity|]. destruct D as [D _]. rewrite D. reflexivity.
Qed.
Lemma gap_delim : forall g s, gap_ok g ->
  match gtext g ++ s with [] => True
  | h :: _ => kw_delim u_white h = true /\ id_byte h = false /\ (h <? 128) = true end.
Proof.
  intros [c b] s [H _]. cbn in *. split; [exact (blank_delim c H)|].
  assert (after_char c = true) by (unfold after_char; rewrite H; reflexivity).
  split; [apply after_byte|apply after_ascii]; assumption.
Qed.
Lemma yeskw_gap : forall k c r g s, k = c :: r -> id_start c = true -> forallb id_part r = true ->
  gap_ok g -> match_keyword k (k ++ gtext g ++ s) = Ok (Some (gtext g ++ s)).
Proof. intros k c r g s -> S P G. apply yeskw; [exact S|exact P|exact (gap_delim g s G)]. Qed.
Lemma nokw_punct : forall k h s, (h <? 128) = true -> alpha h || (h =? 95) = false ->
  match_keyword k (h :: s) = Ok None.
Proof.
  intros k h s A B. unfold YpModel.match_keyword. cbn [YpModel.peek_identifier].
  rewrite (utf8_ascii h A), B. reflexivity.
Qed.

(* ---- strings ---- *)
Lemma dq_body_lit : forall l s, Forall dqc_ok l ->
  dq_body (flat_map dqc_text l ++ 34 :: s) = (Some (map dqc_val l), s).
Proof.
  induction l as [|x l IH]; intros s H; [reflexivity|]. inv H.
  destruct x as [c|c]; cbn [flat_map dqc_text app map dqc_val dqc_ok dq_body] in *.
  - destruct H2 as [A B]. apply N.eqb_neq in A. apply N.eqb_neq in B. rewrite A, B, (IH s H3). reflexivity.
  - change (92 =? 34) with false. change (92 =? 92) with true. cbn iota.
    rewrite (IH s H3). reflexivity.
Qed.
Lemma sq_body_lit : forall t s, ~ In 39 t -> sq_body (t ++ 39 :: s) = (Some t, s).
Proof.
  induction t as [|c t IH]; intros s H; [reflexivity|]. cbn [app sq_body].
  replace (c =? 39) with false.
  - rewrite IH; [reflexivity|]. intros I. apply H. right. exact I.
  - symmetry. apply N.eqb_neq. intros ->. apply H. left. reflexivity.
Qed.
(* a literal starts with its quote, and reading from there gives its value *)
Lemma lit_read : forall l s, lit_ok l ->
  exists q r, lit_text l ++ s = q :: r /\ (q = 34 \/ q = 39) /\
    (if q =? 34 then dq_body r else sq_body r) = (Some (lit_val l), s).
Proof.
  intros [l|t] s H; cbn [lit_text lit_inner lit_ok lit_val] in *; cbn [app].
  - exists 34, (flat_map dqc_text l ++ 34 :: s). rewrite <- app_assoc. split; [reflexivity|].
    split; [left; reflexivity|]. exact (dq_body_lit l s H).
  - exists 39, (t ++ 39 :: s). rewrite <- app_assoc. split; [reflexivity|].
    split; [right; reflexivity|]. exact (sq_body_lit t s H).
Qed.

Lemma concat_joins : forall more f acc s h s',
  Forall join_ok more -> (length more < f)%nat ->
  skip_ws s = Ok (h :: s') -> h <> 43 ->
  concat_loop f acc (flat_map join_text more ++ s) =
    Ok (acc ++ flat_map (fun j : join => lit_val (snd j)) more, h :: s').
Proof.
  induction more as [|[[b1 b2] l] more IH]; intros f acc s h s' K L S P; (destruct f as [|f]; [cbn in L; lia|]).
  - cbn [flat_map app YpModel.concat_loop]. rewrite S. cbn [rbind].
    apply N.eqb_neq in P. rewrite P, app_nil_r. reflexivity.
  - inv K. destruct H1 as [B1 [B2 LK]].
    cbn [flat_map join_text snd]. rewrite <- !app_assoc. cbn [YpModel.concat_loop].
    rewrite (skip_blank b1 _ B1). cbn [app]. rewrite (skip_hard 43) by reflexivity. cbn [rbind].
    change (43 =? 43) with true. cbn iota.
    rewrite (skip_blank b2 _ B2).
    destruct (lit_read l (flat_map join_text more ++ s) LK) as [q [r [E1 [E2 E3]]]].
    rewrite E1. assert (HQ : hard q = true) by (destruct E2; subst; reflexivity).
    rewrite (skip_hard q _ HQ). cbn [rbind].
    cbn in L. destruct E2 as [-> | ->].
    + change (34 =? 34) with true in E3 |- *. cbn iota in E3 |- *. rewrite E3.
      rewrite (IH f (acc ++ lit_val l) s h s' H2 ltac:(lia) S P). rewrite <- app_assoc. reflexivity.
    + change (39 =? 34) with false in E3 |- *. change (39 =? 39) with true. cbn iota in E3 |- *. rewrite E3.
      rewrite (IH f (acc ++ lit_val l) s h s' H2 ltac:(lia) S P). rewrite <- app_assoc. reflexivity.
Qed.
Lemma joins_len : forall more s, (length more <= length (flat_map join_text more ++ s))%nat.
Proof.
  induction more as [|[[b1 b2] l] more IH]; intros s; [cbn; lia|].
  cbn [flat_map join_text length]. rewrite <- !app_assoc. rewrite app_length. cbn [app].
  specialize (IH s). rewrite !app_length in *. cbn [length]. rewrite !app_length in *. lia.
Qed.

Lemma span_word : forall r s, forallb (fun c => id_part c || (c =? 58)) r = true -> after s ->
  span_id (r ++ s) = (r, s).
Proof.
  induction r as [|c r IH]; intros s W A.
  - destruct s as [|h s]; [reflexivity|]. cbn in A |- *. rewrite (after_id_char h A). reflexivity.
  - cbn in W. apply andb_prop in W. destruct W as [W1 W2]. cbn [app YpModel.span_id].
    rewrite (part_id_char c W1), (IH s W2 A). reflexivity.
Qed.

(* the start of an argument is a character at which skip_ws stops *)
Lemma name_start : forall a s, name_ok a -> exists c r, arg_text a ++ s = c :: r /\ hard c = true.
Proof.
  intros [[|c w]|l more] s [H1 H2]; [destruct H2| |].
  - exists c, (w ++ s). split; [reflexivity|]. apply word_hard.
    destruct H1 as [_ H1]. cbn in H1. apply andb_prop in H1. apply H1.
  - cbn [arg_text]. rewrite <- app_assoc. destruct H1 as [H1 _].
    destruct (lit_read l (flat_map join_text more ++ s) H1) as [q [r [E1 [E2 _]]]].
    exists q, r. split; [exact E1|]. destruct E2; subst; reflexivity.
Qed.

Lemma read_name : forall a b h s,
  name_ok a -> blank_ok b -> hard h = true -> after_char h = true -> h <> 43 ->
  exists r, read_value (arg_text a ++ btext b ++ h :: s) = Ok (Some (arg_val a), r) /\
            skip_ws r = Ok (h :: s).
Proof.
  intros a b h s NM B H AC P. unfold YpModel.read_value.
  destruct (name_start a (btext b ++ h :: s) NM) as [c [r [E1 E2]]].
  rewrite E1, (skip_hard c r E2). cbn [rbind].
  assert (SK : skip_ws (btext b ++ h :: s) = Ok (h :: s))
    by (rewrite (skip_blank b _ B); exact (skip_hard h s H)).
  destruct NM as [A1 A2]. destruct a as [[|x w]|l more].
  - destruct A2.
  - cbn [arg_text app arg_val] in *. injection E1 as X1 X2.
    destruct A2 as [A2 A3]. destruct A1 as [_ A1]. cbn in A1. apply andb_prop in A1. destruct A1 as [A1 _].
    assert (Q : (c =? 34) || (c =? 39) = false) by (rewrite <- X1; chr x).
    rewrite Q. exists (btext b ++ h :: s). split; [|exact SK].
    rewrite <- X1, <- X2. cbn [YpModel.read_identifier]. rewrite (first_ok x A2).
    rewrite (span_word w _ A3 (after_blank b (h :: s) B AC)). reflexivity.
  - cbn [arg_text arg_val] in *. destruct A1 as [A1 A4].
    rewrite <- app_assoc in E1.
    destruct (lit_read l (flat_map join_text more ++ btext b ++ h :: s) A1) as [q [r0 [F1 [F2 F3]]]].
    rewrite F1 in E1. injection E1 as X1 X2. subst c r0.
    replace ((q =? 34) || (q =? 39)) with true by (destruct F2; subst; reflexivity).
    rewrite F3. rewrite (concat_joins more _ (lit_val l) (btext b ++ h :: s) h s A4); [|pose proof (joins_len more (btext b ++ h :: s)); lia|exact SK|exact P].
    cbn [rbind fst snd]. exists (h :: s). split; [reflexivity|exact (skip_hard h s H)].
Qed.

Lemma value_semi_name : forall e g a b s,
  gap_ok g -> name_ok a -> blank_ok b ->
  value_semi e (gtext g ++ arg_text a ++ btext b ++ 59 :: s) = Ok (arg_val a, s).
Proof.
  intros e g a b s G A B. unfold YpModel.value_semi. rewrite (skip_gap g _ G).
  destruct (name_start a (btext b ++ 59 :: s) A) as [c [r [E1 E2]]].
  rewrite E1, (skip_hard c r E2), <- E1. cbn [rbind].
  destruct (read_name a b 59 s A B eq_refl eq_refl ltac:(discriminate)) as [t [R1 R2]].
  rewrite R1. cbn [rbind fst snd]. rewrite R2. cbn [rbind].
  unfold YpModel.expect_char. rewrite (skip_hard 59 s eq_refl). reflexivity.
Qed.

(* ---- skip_statement ---- *)
Lemma st_line : forall t d s, ~ In 10 t ->
  skip_statement_m StLine d (t ++ 10 :: s) = skip_statement_m StOut d s.
Proof.
  induction t as [|c t IH]; intros d s H; cbn [app YpModel.skip_statement_m]; [reflexivity|].
  replace (c =? 10) with false; [apply IH; intros I; apply H; right; exact I|].
  symmetry. apply N.eqb_neq. intros ->. apply H. left. reflexivity.
Qed.
Lemma st_block : forall t d s, ~ (exists a b, t = a ++ [42; 47] ++ b) ->
  skip_statement_m StBlock d (t ++ 42 :: 47 :: s) = skip_statement_m StOut d s.
Proof.
  induction t as [|c t IH]; intros d s H; cbn [app YpModel.skip_statement_m]; [reflexivity|].
  assert (Ht : ~ (exists a b, t = a ++ [42; 47] ++ b)).
  { intros [a [b ->]]. apply H. exists (c :: a), b. reflexivity. }
  destruct t as [|e t]; cbn [app].
  - replace ((c =? 42) && (42 =? 47)) with false by (rewrite andb_comm; reflexivity).
    exact (IH d s Ht).
  - destruct ((c =? 42) && (e =? 47)) eqn:E; [|exact (IH d s Ht)].
    exfalso. apply H. exists [], t. apply andb_prop in E. destruct E as [E1 E2].
    apply N.eqb_eq in E1. apply N.eqb_eq in E2. subst. reflexivity.
Qed.
Lemma st_blank : forall b d s, blank_ok b ->
  skip_statement_m StOut d (btext b ++ s) = skip_statement_m StOut d s.
Proof.
  induction b as [|p b IH]; intros d s H; [reflexivity|]. inv H.
  unfold btext. cbn [flat_map]. fold (btext b). rewrite <- app_assoc.
  rewrite <- (IH d s H3). destruct p as [c|t|t]; cbn [ptext piece_ok] in *.
  - cbn [app YpModel.skip_statement_m]. rewrite (blank_white c H2). reflexivity.
  - rewrite <- !app_assoc. cbn [app]. transitivity (skip_statement_m StLine d (47 :: t ++ 10 :: btext b ++ s)).
    + cbn [YpModel.skip_statement_m]. reflexivity.
    + exact (st_line (47 :: t) d _ ltac:(intros [E|I]; [discriminate E|exact (H2 I)])).
  - rewrite <- !app_assoc. cbn [app]. transitivity (skip_statement_m StBlock d (t ++ 42 :: 47 :: btext b ++ s)).
    + cbn [YpModel.skip_statement_m]. reflexivity.
    + exact (st_block t d _ H2).
Qed.
Lemma st_hard : forall c r d, hard c = true -> skip_statement_m StOut d (c :: r) =
  if (c =? 34) || (c =? 39) then skip_statement_m (StStr c c) d r
  else if c =? 123 then skip_statement_m StOut (S d) r
  else if c =? 125
       then match d with O => Ok (c :: r) | S O => Ok r | S e => skip_statement_m StOut e r end
  else if c =? 59 then match d with O => Ok r | _ => skip_statement_m StOut d r end
  else skip_statement_m StOut d r.
Proof.
  intros c r d H. cbn [YpModel.skip_statement_m]. rewrite (hard_white c H). unfold hard in H.
  destruct r as [|e r].
  - replace (c <? 128) with true by lia. reflexivity.
  - replace (c =? 47) with false by lia. reflexivity.
Qed.
Lemma st_word : forall w d s, forallb word_char w = true ->
  skip_statement_m StOut d (w ++ s) = skip_statement_m StOut d s.
Proof.
  induction w as [|c w IH]; intros d s W; [reflexivity|]. cbn in W. apply andb_prop in W. destruct W as [W1 W2].
  cbn [app]. rewrite (st_hard c _ d (word_hard c W1)).
  replace ((c =? 34) || (c =? 39)) with false by (chr c).
  replace (c =? 123) with false by (chr c). replace (c =? 125) with false by (chr c).
  replace (c =? 59) with false by (chr c). apply IH, W2.
Qed.
Lemma st_dq : forall l p d s, Forall dqc_ok l -> last (flat_map dqc_text l) p <> 92 ->
  skip_statement_m (StStr 34 p) d (flat_map dqc_text l ++ 34 :: s) = skip_statement_m StOut d s.
Proof.
  assert (LA : forall (l : text) a b, last (a :: l) b = last l a).
  { induction l as [|x l IH]; intros a b; [reflexivity|]. cbn [last] in *. destruct l; [reflexivity|].
    rewrite <- (IH a b). reflexivity. }
  induction l as [|x l IH]; intros p d s H L.
  - cbn [flat_map app YpModel.skip_statement_m last] in *. apply N.eqb_neq in L. rewrite L. reflexivity.
  - inv H. destruct x as [c|c]; cbn [flat_map dqc_text] in *; rewrite <- app_assoc in *.
    + cbn [app] in *. rewrite LA in L. cbn [YpModel.skip_statement_m].
      destruct H2 as [A _]. apply N.eqb_neq in A. rewrite A. cbn [andb]. exact (IH c d s H3 L).
    + cbn [app] in *. rewrite !LA in L. cbn [YpModel.skip_statement_m].
      change (92 =? 34) with false. cbn [andb]. change (92 =? 92) with true.
      cbn [negb]. rewrite andb_false_r. exact (IH c d s H3 L).
Qed.
Lemma st_sq : forall t p d s, ~ In 39 t -> last t p <> 92 ->
  skip_statement_m (StStr 39 p) d (t ++ 39 :: s) = skip_statement_m StOut d s.
Proof.
  assert (LA : forall (l : text) a b, last (a :: l) b = last l a).
  { induction l as [|x l IH]; intros a b; [reflexivity|]. cbn [last] in *. destruct l; [reflexivity|].
    rewrite <- (IH a b). reflexivity. }
  induction t as [|c t IH]; intros p d s H L.
  - cbn [app YpModel.skip_statement_m last] in *. apply N.eqb_neq in L. rewrite L. reflexivity.
  - rewrite LA in L. cbn [app YpModel.skip_statement_m].
    replace (c =? 39) with false; [cbn [andb]; apply IH; [intros I; apply H; right; exact I|exact L]|].
    symmetry. apply N.eqb_neq. intros ->. apply H. left. reflexivity.
Qed.
Lemma last_default : forall (l : text) a b, a <> 92 -> last l b <> 92 -> last l a <> 92.
Proof.
  induction l as [|x l IH]; intros a b A B; [exact A|].
  cbn [last] in *. destruct l; [exact B|]. exact (IH a b A B).
Qed.
Lemma st_lit : forall l d s, lit_ok l -> last (lit_inner l) 0 <> 92 ->
  skip_statement_m StOut d (lit_text l ++ s) = skip_statement_m StOut d s.
Proof.
  intros [l|t] d s H L; cbn [lit_text lit_inner lit_ok] in *; rewrite <- !app_assoc; cbn [app].
  - rewrite (st_hard 34) by reflexivity. cbn [orb]. change (34 =? 34) with true. cbn [orb].
    apply st_dq; [exact H|]. apply (last_default _ 34 0); [discriminate|exact L].
  - rewrite (st_hard 39) by reflexivity. change ((39 =? 34) || (39 =? 39)) with true. cbn iota.
    apply st_sq; [exact H|]. apply (last_default _ 39 0); [discriminate|exact L].
Qed.
Lemma st_joins : forall more d s, Forall join_ok more ->
  Forall (fun j : join => last (lit_inner (snd j)) 0 <> 92) more ->
  skip_statement_m StOut d (flat_map join_text more ++ s) = skip_statement_m StOut d s.
Proof.
  induction more as [|[[b1 b2] l] more IH]; intros d s H L; [reflexivity|]. inv H. inv L.
  destruct H2 as [B1 [B2 LK]]. cbn [flat_map join_text]. rewrite <- !app_assoc.
  rewrite (st_blank b1 _ _ B1). cbn [app]. rewrite (st_hard 43) by reflexivity.
  change ((43 =? 34) || (43 =? 39)) with false. change (43 =? 123) with false.
  change (43 =? 125) with false. change (43 =? 59) with false. cbn iota.
  rewrite (st_blank b2 _ _ B2). cbn [snd] in H1. rewrite (st_lit l _ _ LK H1). exact (IH d s H3 H4).
Qed.
Lemma st_arg : forall a d s, arg_ok a -> no_final_backslash a ->
  skip_statement_m StOut d (arg_text a ++ s) = skip_statement_m StOut d s.
Proof.
  intros [w|l more] d s H K; cbn [arg_text arg_ok no_final_backslash] in *.
  - apply st_word. apply H.
  - rewrite <- app_assoc. rewrite (st_lit l _ _ (proj1 H) (proj1 K)).
    exact (st_joins more d s (proj2 H) (proj2 K)).
Qed.
Lemma st_gap : forall g d s, gap_ok g ->
  skip_statement_m StOut d (gtext g ++ s) = skip_statement_m StOut d s.
Proof.
  intros [c b] d s [H1 H2]. unfold gtext. cbn [g_char g_more app YpModel.skip_statement_m].
  rewrite (blank_white c H1). exact (st_blank b d s H2).
Qed.
Lemma st_optarg : forall a d s, arg_all no_final_backslash a ->
  skip_statement_m StOut d (optarg_text a ++ s) = skip_statement_m StOut d s.
Proof.
  intros [[g x]|] d s H; [|reflexivity]. destruct H as [G [A K]].
  cbn [optarg_text]. rewrite <- app_assoc, (st_gap g _ _ G). exact (st_arg x d s A K).
Qed.
Lemma kw_word : forall kw, kw_ok kw -> kw <> [] /\ forallb word_char kw = true.
Proof.
  intros [|c r] H; [destruct H|]. destruct H as [H1 H2]. split; [discriminate|].
  cbn. rewrite (start_word c H1). cbn.
  clear H1. induction r as [|x r IH]; [reflexivity|]. cbn in *. apply andb_prop in H2. destruct H2 as [A B].
  rewrite (part_word x A). exact (IH B).
Qed.

(* over a whole statement, at depth d *)
Definition leave (d : nat) (s : text) : yres text :=
  match d with O => Ok s | _ => skip_statement_m StOut d s end.
Lemma st_stmt : forall st, forall K d s, stmt_all K no_final_backslash st ->
  skip_statement_m StOut d (stmt_text st ++ s) = leave d s.
Proof.
  induction st as [kw a b|kw a b b0 l IH] using stmt_ind2; intros K d s H.
  - destruct H as [[H1 _] [H2 H3]]. cbn [stmt_text]. rewrite <- !app_assoc.
    rewrite (st_word kw _ _ (proj2 (kw_word kw H1))), (st_optarg a _ _ H2), (st_blank b _ _ H3).
    cbn [app]. rewrite (st_hard 59) by reflexivity. destruct d; reflexivity.
  - apply stmt_all_block in H. destruct H as [[H1 _] [H2 [H3 [H4 H5]]]].
    rewrite stmt_text_block. rewrite <- !app_assoc.
    rewrite (st_word kw _ _ (proj2 (kw_word kw H1))), (st_optarg a _ _ H2), (st_blank b _ _ H3).
    cbn [app]. rewrite (st_hard 123) by reflexivity.
    change ((123 =? 34) || (123 =? 39)) with false. change (123 =? 123) with true. cbn iota.
    rewrite (st_blank b0 _ _ H4).
    assert (G : skip_statement_m StOut (S d) (stmts_text l ++ 125 :: s) =
                skip_statement_m StOut (S d) (125 :: s)).
    { clear H1 H2 H3 H4. induction l as [|[x bx] r IHr]; [reflexivity|].
      inv H5. inv IH. cbn [stmts_text flat_map fst snd]. rewrite <- !app_assoc.
      cbn [fst snd] in *. destruct H1 as [X BX].
      rewrite (H3 K (S d) _ X). cbn [leave]. rewrite (st_blank bx _ _ BX).
      exact (IHr H4 H2). }
    rewrite G. rewrite (st_hard 125) by reflexivity.
    change ((125 =? 34) || (125 =? 39)) with false. change (125 =? 123) with false.
    change (125 =? 125) with true. cbn iota. destruct d; reflexivity.
Qed.

(* ---- bodies of import and include ---- *)
Lemma chars_prefix : chars "prefix" = 112 :: [114; 101; 102; 105; 120].
Proof. reflexivity. Qed.
Lemma kw_hard : forall kw s, kw_ok kw -> exists c r, kw ++ s = c :: r /\ hard c = true /\ closing (kw ++ s) = None.
Proof.
  intros [|c r] s H; [destruct H|]. destruct H as [H _]. exists c, (r ++ s). split; [reflexivity|].
  pose proof (start_word c H) as W. split; [exact (word_hard c W)|].
  cbn. replace (c =? 125) with false; [reflexivity|]. chr c.
Qed.
Definition orelse (a b : option text) : option text := match a with Some _ => a | None => b end.

Lemma stmt_after : forall st K A s, stmt_all K A st ->
  exists t, stmt_text st ++ s = stmt_kw st ++ t /\ after t /\ kw_ok (stmt_kw st).
Proof.
  intros [kw a b|kw a b b0 l] K A s H.
  - destruct H as [[H1 _] [H2 H3]]. cbn [stmt_text stmt_kw].
    exists (optarg_text a ++ btext b ++ [59] ++ s). rewrite <- !app_assoc. split; [reflexivity|]. split; [|exact H1].
    apply after_optarg; [destruct a as [[g x]|]; [repeat split; apply H2|exact I]|].
    apply after_blank; [exact H3|reflexivity].
  - apply stmt_all_block in H. destruct H as [[H1 _] [H2 [H3 [H4 H5]]]].
    rewrite stmt_text_block. cbn [stmt_kw].
    exists (optarg_text a ++ btext b ++ [123] ++ btext b0 ++ stmts_text l ++ [125] ++ s).
    rewrite <- !app_assoc. split; [reflexivity|]. split; [|exact H1].
    apply after_optarg; [destruct a as [[g x]|]; [repeat split; apply H2|exact I]|].
    apply after_blank; [exact H3|reflexivity].
Qed.

(* one substatement of an import *)
Definition sub_prefix (x : sub) : option text :=
  match x with SubPrefix _ a _ => Some (arg_val a) | _ => None end.
Definition sub_rev (x : sub) : option text :=
  match x with SubRev _ a _ => Some (arg_val a) | _ => None end.
Lemma word_prefix : forallb word_char (chars "prefix") = true.
Proof. reflexivity. Qed.
Lemma word_rev : forallb word_char (chars "revision-date") = true.
Proof. reflexivity. Qed.
Lemma import_sub : forall x f p v s, sub_ok true x ->
  import_body (S f) p v (sub_text x ++ s) =
  import_body f (orelse (sub_prefix x) p) (orelse (sub_rev x) v) s.
Proof.
  intros [g a b|g a b|st] f p v s H; cbn [sub_text sub_prefix sub_rev orelse].
  - destruct H as [_ [G [A B]]]. rewrite <- !app_assoc.
    destruct (kw_hard (chars "prefix") (gtext g ++ arg_text a ++ btext b ++ [59] ++ s)) as [c [r [E1 [E2 E3]]]];
      [split; reflexivity|].
    cbn [YpModel.import_body]. rewrite E1, (skip_hard c r E2). cbn [rbind]. rewrite <- E1, E3.
    rewrite (yeskw_gap (chars "prefix") _ _ g _ eq_refl eq_refl eq_refl G). cbn [rbind].
    rewrite (value_semi_name _ g a b s G A B). reflexivity.
  - destruct H as [G [A B]]. rewrite <- !app_assoc.
    destruct (kw_hard (chars "revision-date") (gtext g ++ arg_text a ++ btext b ++ [59] ++ s)) as [c [r [E1 [E2 E3]]]];
      [split; reflexivity|].
    cbn [YpModel.import_body]. rewrite E1, (skip_hard c r E2). cbn [rbind]. rewrite <- E1, E3.
    rewrite (nokw (chars "prefix") (chars "revision-date") _ ltac:(discriminate) word_rev ltac:(discriminate) (after_gap g _ G)).
    cbn [rbind].
    rewrite (yeskw_gap (chars "revision-date") _ _ g _ eq_refl eq_refl eq_refl G). cbn [rbind].
    rewrite (value_semi_name _ g a b s G A B). reflexivity.
  - destruct H as [H [R P]]. specialize (P eq_refl).
    destruct (stmt_after st _ _ s H) as [t [E1 [E2 E3]]].
    destruct (kw_hard (stmt_kw st) t E3) as [c [r [F1 [F2 F3]]]].
    destruct (kw_word _ E3) as [W1 W2].
    cbn [YpModel.import_body]. rewrite E1, F1, (skip_hard c r F2). cbn [rbind]. rewrite <- F1, F3.
    rewrite (nokw (chars "prefix") _ t W1 W2 P E2). cbn [rbind].
    rewrite (nokw (chars "revision-date") _ t W1 W2 R E2). cbn [rbind].
    unfold YpModel.skip_statement. rewrite <- E1, (st_stmt st _ O s H). reflexivity.
Qed.
Lemma import_skip : forall b f p v s, blank_ok b ->
  import_body f p v (btext b ++ s) = import_body f p v s.
Proof.
  intros b f p v s B. destruct f as [|f]; [reflexivity|].
  cbn [YpModel.import_body]. rewrite (skip_blank b s B). reflexivity.
Qed.
Lemma import_subs : forall l b0 f p v s, blank_ok b0 -> subs_ok true l ->
  import_body (length l + f) p v (btext b0 ++ subs_text l ++ s) =
  import_body f (orelse (last_prefix l) p) (orelse (last_rev l) v) s.
Proof.
  induction l as [|[x bx] l IH]; intros b0 f p v s B H.
  - cbn [subs_text flat_map app length Nat.add last_prefix last_rev orelse]. apply import_skip, B.
  - inv H. destruct H2 as [X BX]. cbn [fst snd] in *.
    rewrite (import_skip b0 _ p v _ B). cbn [subs_text flat_map fst snd length Nat.add].
    rewrite <- !app_assoc. rewrite (import_sub x _ p v _ X).
    fold (subs_text l). rewrite (IH bx f _ _ s BX H3).
    cbn [last_prefix last_rev fst]. f_equal.
    + destruct (last_prefix l); [reflexivity|]. destruct x; reflexivity.
    + destruct (last_rev l); [reflexivity|]. destruct x; reflexivity.
Qed.
Lemma import_close : forall f p v s, import_body (S f) p v (125 :: s) = Ok (p, v, s).
Proof.
  intros. cbn [YpModel.import_body]. rewrite (skip_hard 125) by reflexivity. reflexivity.
Qed.

Lemma include_sub : forall x f v s, sub_ok false x ->
  include_body (S f) v (sub_text x ++ s) = include_body f (orelse (sub_rev x) v) s.
Proof.
  intros [g a b|g a b|st] f v s H; cbn [sub_text sub_rev orelse].
  - destruct H as [H _]. discriminate H.
  - destruct H as [G [A B]]. rewrite <- !app_assoc.
    destruct (kw_hard (chars "revision-date") (gtext g ++ arg_text a ++ btext b ++ [59] ++ s)) as [c [r [E1 [E2 E3]]]];
      [split; reflexivity|].
    cbn [YpModel.include_body]. rewrite E1, (skip_hard c r E2). cbn [rbind]. rewrite <- E1, E3.
    rewrite (yeskw_gap (chars "revision-date") _ _ g _ eq_refl eq_refl eq_refl G). cbn [rbind].
    rewrite (value_semi_name _ g a b s G A B). reflexivity.
  - destruct H as [H [R _]].
    destruct (stmt_after st _ _ s H) as [t [E1 [E2 E3]]].
    destruct (kw_hard (stmt_kw st) t E3) as [c [r [F1 [F2 F3]]]].
    destruct (kw_word _ E3) as [W1 W2].
    cbn [YpModel.include_body]. rewrite E1, F1, (skip_hard c r F2). cbn [rbind]. rewrite <- F1, F3.
    rewrite (nokw (chars "revision-date") _ t W1 W2 R E2). cbn [rbind].
    unfold YpModel.skip_statement. rewrite <- E1, (st_stmt st _ O s H). reflexivity.
Qed.
Lemma include_skip : forall b f v s, blank_ok b ->
  include_body f v (btext b ++ s) = include_body f v s.
Proof.
  intros b f v s B. destruct f as [|f]; [reflexivity|].
  cbn [YpModel.include_body]. rewrite (skip_blank b s B). reflexivity.
Qed.
Lemma include_subs : forall l b0 f v s, blank_ok b0 -> subs_ok false l ->
  include_body (length l + f) v (btext b0 ++ subs_text l ++ s) =
  include_body f (orelse (last_rev l) v) s.
Proof.
  induction l as [|[x bx] l IH]; intros b0 f v s B H.
  - cbn [subs_text flat_map app length Nat.add last_rev orelse]. apply include_skip, B.
  - inv H. destruct H2 as [X BX]. cbn [fst snd] in *.
    rewrite (include_skip b0 _ v _ B). cbn [subs_text flat_map fst snd length Nat.add].
    rewrite <- !app_assoc. rewrite (include_sub x _ v _ X).
    fold (subs_text l). rewrite (IH bx f _ s BX H3).
    cbn [last_rev fst]. f_equal.
    destruct (last_rev l); [reflexivity|]. destruct x; reflexivity.
Qed.
Lemma include_close : forall f v s, include_body (S f) v (125 :: s) = Ok (v, s).
Proof.
  intros. cbn [YpModel.include_body]. rewrite (skip_hard 125) by reflexivity. reflexivity.
Qed.
Lemma orelse_none : forall a, orelse a None = a.
Proof. intros [a|]; reflexivity. Qed.

Lemma import_link : forall g a b b0 l n s, gap_ok g -> name_ok a -> blank_ok b -> blank_ok b0 ->
  subs_ok true l -> (length l < n)%nat ->
  parse_import n (gtext g ++ arg_text a ++ btext b ++ [123] ++ btext b0 ++ subs_text l ++ [125] ++ s) =
  match last_prefix l with
  | Some p => Ok (mkImport (arg_val a) p (last_rev l), s)
  | None => Err MissingPrefix
  end.
Proof.
  intros g a b b0 l n s G A B B0 SB L. unfold YpModel.parse_import. rewrite (skip_gap g _ G).
  set (body := btext b0 ++ subs_text l ++ [125] ++ s).
  change ([123] ++ body) with (123 :: body).
  destruct (name_start a (btext b ++ 123 :: body) A) as [c [r [E1 E2]]].
  rewrite E1, (skip_hard c r E2), <- E1. cbn [rbind].
  destruct (read_name a b 123 body A B eq_refl eq_refl ltac:(discriminate)) as [t [R1 R2]].
  rewrite R1. cbn [rbind fst snd]. rewrite R2. cbn [rbind].
  unfold YpModel.expect_char. rewrite (skip_hard 123 body eq_refl). cbn [rbind].
  change (123 =? 123) with true. cbn iota. cbn [rbind]. unfold body.
  replace n with (length l + S (n - S (length l)))%nat by lia.
  rewrite (import_subs l b0 _ None None _ B0 SB). cbn [app]. rewrite import_close. cbn [rbind].
  rewrite !orelse_none. destruct (last_prefix l); reflexivity.
Qed.
Lemma include_link : forall g a b b0 l n s, gap_ok g -> name_ok a -> blank_ok b -> blank_ok b0 ->
  subs_ok false l -> (length l < n)%nat ->
  parse_include n (gtext g ++ arg_text a ++ btext b ++ [123] ++ btext b0 ++ subs_text l ++ [125] ++ s) =
  Ok (mkInclude (arg_val a) (last_rev l), s).
Proof.
  intros g a b b0 l n s G A B B0 SB L. unfold YpModel.parse_include. rewrite (skip_gap g _ G).
  set (body := btext b0 ++ subs_text l ++ [125] ++ s).
  change ([123] ++ body) with (123 :: body).
  destruct (name_start a (btext b ++ 123 :: body) A) as [c [r [E1 E2]]].
  rewrite E1, (skip_hard c r E2), <- E1. cbn [rbind].
  destruct (read_name a b 123 body A B eq_refl eq_refl ltac:(discriminate)) as [t [R1 R2]].
  rewrite R1. cbn [rbind fst snd]. rewrite R2. cbn [rbind].
  change (123 =? 59) with false. change (123 =? 123) with true. cbn iota. unfold body.
  replace n with (length l + S (n - S (length l)))%nat by lia.
  rewrite (include_subs l b0 _ None _ B0 SB). cbn [app]. rewrite include_close. cbn [rbind fst snd].
  rewrite !orelse_none. reflexivity.
Qed.
Lemma include_semi : forall g a b n s, gap_ok g -> name_ok a -> blank_ok b ->
  parse_include n (gtext g ++ arg_text a ++ btext b ++ [59] ++ s) = Ok (mkInclude (arg_val a) None, s).
Proof.
  intros g a b n s G A B. unfold YpModel.parse_include. rewrite (skip_gap g _ G).
  change ([59] ++ s) with (59 :: s).
  destruct (name_start a (btext b ++ 59 :: s) A) as [c [r [E1 E2]]].
  rewrite E1, (skip_hard c r E2), <- E1. cbn [rbind].
  destruct (read_name a b 59 s A B eq_refl eq_refl ltac:(discriminate)) as [t [R1 R2]].
  rewrite R1. cbn [rbind fst snd]. rewrite R2. reflexivity.
Qed.

(* ---- the main loop ---- *)
Definition words6 : list text := chars "import" :: chars "include" :: meta_words.
Definition quiet (s : text) : Prop := forall k, In k words6 -> match_keyword k s = Ok None.
Lemma quiet_step : forall c r n b acc, hard c = true -> quiet (c :: r) ->
  parse_loop (S n) b acc (c :: r) = parse_loop n b acc (skip_one_token (c :: r)).
Proof.
  intros c r n b acc H Q. cbn [YpModel.parse_loop]. rewrite (skip_hard c r H). cbn [rbind].
  rewrite (Q (chars "import")) by (left; reflexivity). cbn [rbind].
  rewrite (Q (chars "include")) by (right; left; reflexivity). cbn [rbind].
  unfold meta_words. cbn [YpModel.match_any].
  rewrite (Q (chars "organization")) by (do 2 right; left; reflexivity). cbn [rbind].
  rewrite (Q (chars "contact")) by (do 3 right; left; reflexivity). cbn [rbind].
  rewrite (Q (chars "description")) by (do 4 right; left; reflexivity). cbn [rbind].
  rewrite (Q (chars "reference")) by (do 5 right; left; reflexivity). cbn [rbind]. reflexivity.
Qed.
Lemma words6_reserved : forall k, In k words6 <-> reserved k.
Proof.
  intros k. unfold words6, meta_words, reserved, meta_kw. cbn [In]. split; intros H.
  - destruct H as [H|[H|[H|[H|[H|[H|[]]]]]]]; subst; auto 10.
  - destruct H as [H|[H|[H|[H|[H|H]]]]]; subst; auto 10.
Qed.
Lemma quiet_word : forall v s, v <> [] -> forallb word_char v = true -> ~ reserved v -> after s -> quiet (v ++ s).
Proof.
  intros v s NE W R A k K. apply nokw; try assumption. intros ->. apply R, words6_reserved, K.
Qed.
Lemma quiet_punct : forall h s, (h <? 128) = true -> alpha h || (h =? 95) = false -> quiet (h :: s).
Proof. intros h s A B k _. apply nokw_punct; assumption. Qed.

Definition eats (t s : text) : Prop :=
  exists j, forall n b acc, parse_loop (j + n) b acc (t ++ s) = parse_loop n b acc s.
Lemma eats_nil : forall s, eats [] s.
Proof. intros s. exists O. reflexivity. Qed.
Lemma eats_app : forall t1 t2 s, eats t1 (t2 ++ s) -> eats t2 s -> eats (t1 ++ t2) s.
Proof.
  intros t1 t2 s [j1 H1] [j2 H2]. exists (j1 + j2)%nat. intros n b acc.
  rewrite <- app_assoc, <- Nat.add_assoc, H1. apply H2.
Qed.
Lemma parse_blank : forall b n bud acc s, blank_ok b ->
  parse_loop n bud acc (btext b ++ s) = parse_loop n bud acc s.
Proof.
  intros b n bud acc s B. destruct n as [|n]; [reflexivity|].
  cbn [YpModel.parse_loop]. rewrite (skip_blank b s B).
  destruct s as [|c s].
  - rewrite app_nil_r. destruct (btext b); reflexivity.
  - destruct (btext b ++ c :: s) eqn:E; [destruct (btext b); discriminate E|]. reflexivity.
Qed.
Lemma eats_blank : forall b s, blank_ok b -> eats (btext b) s.
Proof. intros b s B. exists O. intros n bud acc. apply parse_blank, B. Qed.
Lemma eats_gap : forall g s, gap_ok g -> eats (gtext g) s.
Proof.
  intros [c b] s [H1 H2]. exists O. intros n bud acc. cbn [Nat.add].
  change (gtext (mkGap c b)) with (btext (PWs c :: b)).
  apply parse_blank. constructor; [exact H1|exact H2].
Qed.
Lemma eats_punct : forall h s, h = 123 \/ h = 125 \/ h = 59 \/ h = 43 -> eats [h] s.
Proof.
  intros h s H. exists 1%nat. intros n b acc. cbn [Nat.add app].
  rewrite quiet_step.
  - destruct H as [H|[H|[H|H]]]; subst; reflexivity.
  - destruct H as [H|[H|[H|H]]]; subst; reflexivity.
  - apply quiet_punct; destruct H as [H|[H|[H|H]]]; subst; reflexivity.
Qed.
Lemma eats_lit : forall l s, lit_ok l -> eats (lit_text l) s.
Proof.
  intros l s H. exists 1%nat. intros n b acc. cbn [Nat.add].
  destruct (lit_read l s H) as [q [r [E1 [E2 E3]]]]. rewrite E1.
  rewrite quiet_step.
  - unfold YpModel.skip_one_token. destruct E2 as [-> | ->].
    + change (34 =? 34) with true in *. cbn iota in *. rewrite E3. reflexivity.
    + change (39 =? 34) with false in *. change (39 =? 39) with true. cbn iota in *. rewrite E3. reflexivity.
  - destruct E2; subst; reflexivity.
  - apply quiet_punct; destruct E2; subst; reflexivity.
Qed.
Lemma eats_joins : forall more s, Forall join_ok more -> eats (flat_map join_text more) s.
Proof.
  induction more as [|[[b1 b2] l] more IH]; intros s H; [apply eats_nil|]. inv H.
  destruct H2 as [B1 [B2 L]]. cbn [flat_map join_text]. rewrite <- !app_assoc.
  apply eats_app; [apply eats_blank, B1|]. apply eats_app; [apply eats_punct; auto|].
  apply eats_app; [apply eats_blank, B2|]. apply eats_app; [apply eats_lit, L|]. apply IH, H3.
Qed.

(* an identifier that is none of the six words *)
Lemma eats_kw : forall kw s, kw_ok kw -> ~ reserved kw -> after s -> eats kw s.
Proof.
  intros kw s K R A. exists 1%nat. intros n b acc. cbn [Nat.add].
  destruct (kw_word kw K) as [W1 W2].
  pose proof (quiet_word kw s W1 W2 R A) as Q.
  destruct kw as [|c r]; [congruence|]. destruct K as [K1 K2]. cbn [app] in *.
  rewrite quiet_step; [|exact (word_hard c (start_word c K1))|exact Q].
  unfold YpModel.skip_one_token.
  replace (c =? 34) with false by (chr c). replace (c =? 39) with false by (chr c).
  rewrite (start_alpha c K1). cbn [YpModel.read_identifier].
  rewrite (first_ok c) by (rewrite K1; reflexivity).
  rewrite (span_word r s K2 A). reflexivity.
Qed.
(* reading an identifier inside a word stays inside the word *)
Lemma span_in_word : forall r s, forallb word_char r = true -> after s ->
  exists a r', r = a ++ r' /\ span_id (r ++ s) = (a, r' ++ s).
Proof.
  induction r as [|c r IH]; intros s W A.
  - exists [], []. split; [reflexivity|]. destruct s as [|h s]; [reflexivity|].
    cbn in A |- *. rewrite (after_id_char h A). reflexivity.
  - cbn in W. apply andb_prop in W. destruct W as [W1 W2]. cbn [app YpModel.span_id].
    destruct (id_char c).
    + destruct (IH s W2 A) as [a [r' [E1 E2]]]. exists (c :: a), r'. rewrite E2. split; [rewrite E1; reflexivity|reflexivity].
    + exists [], (c :: r). split; reflexivity.
Qed.
Lemma eats_word : forall w s, forallb word_char w = true ->
  (forall u v, w = u ++ v -> ~ reserved v) -> after s -> eats w s.
Proof.
  intros w. remember (length w) as n eqn:E. revert w E.
  induction n as [n IH] using lt_wf_ind. intros w E s W R A.
  destruct w as [|c r]; [apply eats_nil|].
  assert (Q : quiet ((c :: r) ++ s)).
  { apply quiet_word; [discriminate|exact W|exact (R [] _ eq_refl)|exact A]. }
  cbn in W. apply andb_prop in W. destruct W as [W1 W2].
  assert (ST : exists a r', r = a ++ r' /\ skip_one_token ((c :: r) ++ s) = r' ++ s).
  { cbn [app]. unfold YpModel.skip_one_token.
    replace (c =? 34) with false by (chr c). replace (c =? 39) with false by (chr c).
    destruct (alpha c || (c =? 95)) eqn:AL.
    - cbn [YpModel.read_identifier]. unfold id_first. rewrite AL. cbn [orb].
      destruct (span_in_word r s W2 A) as [a [r' [E1 E2]]]. exists a, r'. rewrite E2. split; [exact E1|reflexivity].
    - exists [], r. split; reflexivity. }
  destruct ST as [a [r' [E1 E2]]].
  assert (W3 : forallb word_char r' = true) by (rewrite E1, forallb_app in W2; apply andb_prop in W2; apply W2).
  destruct (IH (length r') ltac:(cbn in E; rewrite E1, app_length in E; lia) r' eq_refl s W3
              ltac:(intros u v F; apply (R (c :: a ++ u) v); rewrite E1, F; cbn [app]; rewrite <- app_assoc; reflexivity) A) as [j H].
  exists (S j). intros k b acc. cbn [Nat.add]. cbn [app] in *.
  rewrite (quiet_step c (r ++ s) _ b acc (word_hard c W1) Q), E2. apply H.
Qed.
Lemma eats_arg : forall a s, arg_ok a -> inert_arg a -> after s -> eats (arg_text a) s.
Proof.
  intros [w|l more] s H I A; cbn [arg_text arg_ok inert_arg] in *.
  - destruct I as [[I1 I2]|I]; [apply eats_kw; assumption|]. apply eats_word; [apply H|exact I|exact A].
  - destruct H as [H1 H2]. apply eats_app; [apply eats_lit, H1|apply eats_joins, H2].
Qed.
Lemma eats_optarg : forall a s, arg_all inert_arg a -> after s -> eats (optarg_text a) s.
Proof.
  intros [[g x]|] s H A; [|apply eats_nil]. destruct H as [G [X I]]. cbn [optarg_text].
  apply eats_app; [apply eats_gap, G|apply eats_arg; assumption].
Qed.
Lemma arg_all_true : forall A a, arg_all A a -> arg_all (fun _ => True) a.
Proof. intros A [[g x]|] H; [|exact I]. destruct H as [H1 [H2 _]]. exact (conj H1 (conj H2 I)). Qed.
(* kw arg blank h *)
Lemma eats_lead : forall kw a b h s, kw_ok kw -> ~ reserved kw -> arg_all inert_arg a -> blank_ok b ->
  h = 59 \/ h = 123 -> eats (kw ++ optarg_text a ++ btext b ++ [h]) s.
Proof.
  intros kw a b h s K R A B H.
  assert (AH : after ([h] ++ s)) by (destruct H; subst; reflexivity).
  assert (AB : after (btext b ++ [h] ++ s)) by (apply after_blank; assumption).
  apply eats_app.
  - apply eats_kw; [exact K|exact R|]. rewrite <- !app_assoc. apply after_optarg; [exact (arg_all_true _ _ A)|exact AB].
  - apply eats_app; [apply eats_optarg; [exact A|rewrite <- app_assoc; exact AB]|].
    apply eats_app; [apply eats_blank, B|]. apply eats_punct. destruct H; auto.
Qed.
Lemma eats_stmt : forall st s, inert st -> eats (stmt_text st) s.
Proof.
  induction st as [kw a b|kw a b b0 l IH] using stmt_ind2; intros s H.
  - destruct H as [[H1 HK] [H2 H3]]. cbn [stmt_text]. apply eats_lead; auto.
  - apply stmt_all_block in H. destruct H as [[H1 HK] [H2 [H3 [H4 H5]]]].
    rewrite stmt_text_block.
    replace (kw ++ optarg_text a ++ btext b ++ [123] ++ btext b0 ++ stmts_text l ++ [125])
      with ((kw ++ optarg_text a ++ btext b ++ [123]) ++ btext b0 ++ stmts_text l ++ [125])
      by (rewrite <- !app_assoc; reflexivity).
    apply eats_app; [apply eats_lead; auto|]. apply eats_app; [apply eats_blank, H4|].
    apply eats_app; [|apply eats_punct; auto].
    generalize ([125] ++ s). clear -IH H5. induction l as [|[x bx] r IHr]; intros s; [apply eats_nil|].
    inv H5. inv IH. destruct H1 as [X BX]. cbn [stmts_text flat_map fst snd] in *.
    rewrite <- app_assoc.
    apply eats_app; [apply H3; exact X|]. apply eats_app; [apply eats_blank, BX|]. apply IHr; assumption.
Qed.
Lemma eats_stmts : forall l s, inerts l -> eats (stmts_text l) s.
Proof.
  induction l as [|[x bx] r IH]; intros s H; [apply eats_nil|].
  inv H. destruct H2 as [X BX]. cbn [stmts_text flat_map fst snd] in *. rewrite <- app_assoc.
  apply eats_app; [apply eats_stmt, X|]. apply eats_app; [apply eats_blank, BX|]. apply IH. assumption.
Qed.

(* ---- linkage ---- *)
Definition add_link (acc : deps) (x : link * blank) : deps :=
  mkDeps (d_imports acc ++ imports_of [x]) (d_includes acc ++ includes_of [x]).
Definition link_subs (x : link) : nat :=
  match x with LImport _ _ _ _ l | LIncludeBlock _ _ _ _ l => length l | _ => O end.
Lemma link_step : forall x bx n b acc s, link_ok x -> (link_subs x < b)%nat ->
  parse_loop (S n) b acc (link_text x ++ s) = parse_loop n b (add_link acc (x, bx)) s.
Proof.
  intros x bx n b acc s H L. unfold add_link, imports_of, includes_of. cbn [flat_map fst].
  destruct x as [g a b1 b0 l|g a b1|g a b1 b0 l]; cbn [link_ok link_subs link_text] in *.
  - destruct H as [G [A [B [B0 [SB P]]]]]. rewrite <- !app_assoc.
    remember (gtext g ++ arg_text a ++ btext b1 ++ [123] ++ btext b0 ++ subs_text l ++ [125] ++ s) as rest eqn:ER.
    assert (D : match_keyword (chars "import") (chars "import" ++ rest) = Ok (Some rest)).
    { subst rest. exact (yeskw_gap (chars "import") _ _ g _ eq_refl eq_refl eq_refl G). }
    change (chars "import" ++ rest) with (105 :: [109; 112; 111; 114; 116] ++ rest) in *.
    cbn [YpModel.parse_loop]. rewrite (skip_hard 105) by reflexivity. cbn [rbind].
    rewrite D. cbn [rbind]. rewrite ER, (import_link g a b1 b0 l b s G A B B0 SB L).
    destruct (last_prefix l) as [p|]; [|congruence]. cbn [rbind fst snd].
    rewrite !app_nil_r. reflexivity.
  - destruct H as [G [A B]]. rewrite <- !app_assoc.
    remember (gtext g ++ arg_text a ++ btext b1 ++ [59] ++ s) as rest eqn:ER.
    assert (D : match_keyword (chars "include") (chars "include" ++ rest) = Ok (Some rest)).
    { subst rest. exact (yeskw_gap (chars "include") _ _ g _ eq_refl eq_refl eq_refl G). }
    assert (D0 : match_keyword (chars "import") (chars "include" ++ rest) = Ok None).
    { subst rest. apply nokw; [discriminate|reflexivity|discriminate|apply after_gap, G]. }
    change (chars "include" ++ rest) with (105 :: [110; 99; 108; 117; 100; 101] ++ rest) in *.
    cbn [YpModel.parse_loop]. rewrite (skip_hard 105) by reflexivity. cbn [rbind].
    rewrite D0, D. cbn [rbind]. rewrite ER, (include_semi g a b1 b s G A B). cbn [rbind fst snd].
    rewrite !app_nil_r. reflexivity.
  - destruct H as [G [A [B [B0 SB]]]]. rewrite <- !app_assoc.
    remember (gtext g ++ arg_text a ++ btext b1 ++ [123] ++ btext b0 ++ subs_text l ++ [125] ++ s) as rest eqn:ER.
    assert (D : match_keyword (chars "include") (chars "include" ++ rest) = Ok (Some rest)).
    { subst rest. exact (yeskw_gap (chars "include") _ _ g _ eq_refl eq_refl eq_refl G). }
    assert (D0 : match_keyword (chars "import") (chars "include" ++ rest) = Ok None).
    { subst rest. apply nokw; [discriminate|reflexivity|discriminate|apply after_gap, G]. }
    change (chars "include" ++ rest) with (105 :: [110; 99; 108; 117; 100; 101] ++ rest) in *.
    cbn [YpModel.parse_loop]. rewrite (skip_hard 105) by reflexivity. cbn [rbind].
    rewrite D0, D. cbn [rbind]. rewrite ER, (include_link g a b1 b0 l b s G A B B0 SB L). cbn [rbind fst snd].
    rewrite !app_nil_r. reflexivity.
Qed.
Lemma links_step : forall l acc s, Forall (fun x => link_ok (fst x) /\ blank_ok (snd x)) l ->
  exists b0, forall n b, (b0 <= b)%nat ->
    parse_loop (length l + n) b acc (links_text l ++ s) =
    parse_loop n b (mkDeps (d_imports acc ++ imports_of l) (d_includes acc ++ includes_of l)) s.
Proof.
  induction l as [|[x bx] l IH]; intros acc s H.
  - exists O. intros n b _. cbn. rewrite !app_nil_r. destruct acc; reflexivity.
  - inv H. destruct H2 as [X BX]. cbn [fst snd] in *.
    destruct (IH (add_link acc (x, bx)) s H3) as [b0 E].
    exists (Nat.max b0 (S (link_subs x))). intros n b L.
    cbn [length Nat.add links_text flat_map fst snd]. rewrite <- !app_assoc.
    rewrite (link_step x bx _ b acc _ X) by lia. rewrite (parse_blank bx _ b _ _ BX).
    fold (links_text l). rewrite (E n b ltac:(lia)). unfold add_link. cbn [d_imports d_includes].
    rewrite <- !app_assoc.
    replace (imports_of ((x, bx) :: l)) with (imports_of [(x, bx)] ++ imports_of l)
      by (unfold imports_of; cbn [flat_map]; rewrite app_nil_r; reflexivity).
    replace (includes_of ((x, bx) :: l)) with (includes_of [(x, bx)] ++ includes_of l)
      by (unfold includes_of; cbn [flat_map]; rewrite app_nil_r; reflexivity).
    reflexivity.
Qed.

(* ---- a whole module ---- *)
Lemma meta_stop : forall kw c rest n b acc, meta_kw kw ->
  blank_char c = true \/ c = 34 \/ c = 39 \/ c = 123 \/ c = 59 ->
  parse_loop (S n) b acc (kw ++ c :: rest) = Ok acc.
Proof.
  intros kw c rest n b acc M C.
  assert (D : kw_delim u_white c = true /\ id_byte c = false /\ (c <? 128) = true).
  { destruct C as [C|[C|[C|[C|C]]]]; [|subst; repeat split; reflexivity..].
    split; [exact (blank_delim c C)|].
    assert (after_char c = true) by (unfold after_char; rewrite C; reflexivity).
    split; [apply after_byte|apply after_ascii]; assumption. }
  assert (SH : exists x y, kw = x :: y /\ hard x = true /\ id_start x = true /\ forallb id_part y = true).
  { destruct M as [M|[M|[M|M]]]; subst; do 2 eexists; repeat split; reflexivity. }
  destruct SH as [x [y [E [HX [SX PY]]]]].
  assert (Y : match_keyword kw (kw ++ c :: rest) = Ok (Some (c :: rest))).
  { rewrite E. exact (yeskw x y (c :: rest) SX PY D). }
  assert (NO : forall k, k <> kw -> match_keyword k (kw ++ c :: rest) = Ok None).
  { intros k K. unfold YpModel.match_keyword in Y |- *.
    destruct (peek_identifier (kw ++ c :: rest)) as [[id|]| | |]; cbn [rbind] in *; try discriminate Y.
    destruct (text_eqb id kw) eqn:Q; [|discriminate Y]. apply text_eqb_eq in Q. subst id.
    destruct (text_eqb kw k) eqn:Q; [|reflexivity]. apply text_eqb_eq in Q. congruence. }
  cbn [YpModel.parse_loop].
  assert (S1 : skip_ws (kw ++ c :: rest) = Ok (kw ++ c :: rest)).
  { rewrite E. cbn [app]. exact (skip_hard x _ HX). }
  rewrite S1. cbn [rbind].
  rewrite (NO (chars "import")) by (destruct M as [M|[M|[M|M]]]; rewrite M; discriminate).
  rewrite (NO (chars "include")) by (destruct M as [M|[M|[M|M]]]; rewrite M; discriminate).
  cbn [rbind].
  assert (MA : match_any meta_words (kw ++ c :: rest) = Ok true).
  { unfold meta_words. cbn [YpModel.match_any].
    destruct M as [M|[M|[M|M]]].
    - rewrite <- M, Y. reflexivity.
    - rewrite (NO (chars "organization")) by (rewrite M; discriminate). cbn [rbind].
      rewrite <- M, Y. reflexivity.
    - rewrite (NO (chars "organization")) by (rewrite M; discriminate). cbn [rbind].
      rewrite (NO (chars "contact")) by (rewrite M; discriminate). cbn [rbind].
      rewrite <- M, Y. reflexivity.
    - rewrite (NO (chars "organization")) by (rewrite M; discriminate). cbn [rbind].
      rewrite (NO (chars "contact")) by (rewrite M; discriminate). cbn [rbind].
      rewrite (NO (chars "description")) by (rewrite M; discriminate). cbn [rbind].
      rewrite <- M, Y. reflexivity. }
  rewrite MA. cbn [rbind]. rewrite E. reflexivity.
Qed.
Lemma tail_done : forall t, tail_ok t ->
  exists j, forall n b acc, parse_loop (j + n) b acc (tail_text t) = Ok acc.
Proof.
  induction t as [b|kw c rest|st b t IH|kw a b b0 t IH]; intros H; cbn [tail_text tail_ok] in *.
  - destruct (eats_punct 125 (btext b) ltac:(auto)) as [j E]. exists (j + 1)%nat. intros n bud acc.
    rewrite <- Nat.add_assoc, E. rewrite <- (app_nil_r (btext b)), (parse_blank b _ _ _ _ H). reflexivity.
  - destruct H as [M C]. exists 1%nat. intros n b acc.
    cbn [Nat.add]. cbn [app]. apply meta_stop; [exact M|]. destruct C as [C|[C|C]]; auto 10.
  - destruct H as [I [B T]]. destruct (IH T) as [j E].
    destruct (eats_stmt st (btext b ++ tail_text t) I) as [j1 E1].
    exists (j1 + j)%nat. intros n bud acc. rewrite <- Nat.add_assoc, E1, (parse_blank b _ _ _ _ B). apply E.
  - destruct H as [K [R [A [B [B0 T]]]]]. destruct (IH T) as [j E].
    destruct (eats_lead kw a b 123 (btext b0 ++ tail_text t) K R A B ltac:(auto)) as [j1 E1].
    exists (j1 + j)%nat. intros n bud acc. rewrite <- Nat.add_assoc.
    replace (kw ++ optarg_text a ++ btext b ++ [123] ++ btext b0 ++ tail_text t)
      with ((kw ++ optarg_text a ++ btext b ++ [123]) ++ btext b0 ++ tail_text t)
      by (rewrite <- !app_assoc; reflexivity).
    rewrite E1, (parse_blank b0 _ _ _ _ B0). apply E.
Qed.
Lemma opening_done : forall m s, opening_ok m ->
  exists j b0, forall n b, (b0 <= b)%nat ->
    parse_loop (j + n) b (mkDeps [] []) (opening_text m ++ s) =
    parse_loop n b (mkDeps (imports_of (m_links m)) (includes_of (m_links m))) s.
Proof.
  intros m s [H1 [H2 [H3 [H4 [H5 [H6 [H7 [H8 [H9 H10]]]]]]]]]. unfold opening_text.
  destruct (eats_lead (m_kw m) (Some (m_gap m, m_arg m)) (m_b m) 123
     (btext (m_b0 m) ++ stmts_text (m_head m) ++ links_text (m_links m) ++ s) H2 H3
     (conj H4 (conj H5 H6)) H7 ltac:(auto)) as [j1 E1].
  destruct (eats_stmts (m_head m) (links_text (m_links m) ++ s) H9) as [j2 E2].
  destruct (links_step (m_links m) (mkDeps [] []) s H10) as [b0 E3].
  exists (j1 + (j2 + length (m_links m)))%nat, b0. intros n b L.
  rewrite <- !app_assoc, (parse_blank (m_lead m) _ _ _ _ H1).
  cbn [optarg_text] in E1. rewrite <- !app_assoc in E1.
  rewrite <- !Nat.add_assoc, E1, (parse_blank (m_b0 m) _ _ _ _ H8), E2. apply E3, L.
Qed.

Theorem extract_module : forall m, mod_ok m ->
  extract (mod_text m) = Ok (mkDeps (imports_of (m_links m)) (includes_of (m_links m))).
Proof.
  intros m [O T]. destruct (opening_done m (tail_text (m_tail m)) O) as [j1 [b0 E1]].
  destruct (tail_done (m_tail m) T) as [j2 E2].
  unfold mod_text. set (t := opening_text m ++ tail_text (m_tail m)).
  set (N0 := (j1 + (j2 + (b0 + S (length t))))%nat).
  rewrite <- (extract_enough u_white u_alpha u_num t N0) by (unfold N0; lia).
  unfold YpModel.extract_upto, t. unfold N0 at 1. rewrite E1 by (unfold N0; lia). apply E2.
Qed.
End U.
