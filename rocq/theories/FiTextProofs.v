From Verif Require Import Base MapLib EnModel EnSpec EnProofs FiModel FiSpec.
From Coq Require Import Permutation String List.

Lemma text_eqb_spec a b : reflect (a = b) (text_eqb a b).
Proof. apply list_eqb_spec, N.eqb_spec. Qed.

Lemma ws_space c : is_ws c = true <-> space c.
Proof.
  unfold is_ws, space. rewrite !orb_true_iff, !andb_true_iff, !N.leb_le, !N.eqb_eq. tauto.
Qed.
Lemma ws_nonspace c : is_ws c = false <-> ~ space c.
Proof. rewrite <- ws_space. destruct (is_ws c); split; congruence. Qed.

(* ---- trim ---- *)
Lemma trim_start_split t : exists u, t = u ++ trim_start t /\ blank u /\ (forall c l, trim_start t = c :: l -> ~ space c).
Proof.
  induction t as [|c t (u & H1 & H2 & H3)]; cbn [trim_start].
  - exists []. repeat split; [constructor|discriminate].
  - destruct (is_ws c) eqn:E.
    + exists (c :: u). split; [cbn; now f_equal|]. split; [|exact H3]. constructor; [now apply ws_space|exact H2].
    + exists []. split; [reflexivity|]. split; [constructor|]. intros d l Hl. injection Hl as <- <-. now apply ws_nonspace.
Qed.
Lemma trim_stripped t : stripped t (trim t).
Proof.
  destruct (trim_start_split t) as (u & Hu & Bu & Su). destruct (trim_start_split (rev (trim_start t))) as (v & Hv & Bv & Sv).
  unfold trim. set (m := trim_start (rev (trim_start t))) in *.
  assert (Ht : trim_start t = rev m ++ rev v) by (rewrite <- rev_app_distr, <- Hv, rev_involutive; reflexivity).
  exists u, (rev v). split; [rewrite <- Ht; exact Hu|]. split; [exact Bu|]. split; [apply Forall_rev; exact Bv|]. split.
  - intros c l' Hl. rewrite Hl in Ht. apply (Su c (l' ++ rev v)). rewrite Ht. reflexivity.
  - intros c l' Hl. apply (Sv c (rev l')). fold m. rewrite <- (rev_involutive m), Hl, rev_app_distr. reflexivity.
Qed.
Lemma trim_start_blank u t : blank u -> trim_start (u ++ t) = trim_start t.
Proof. induction 1 as [|c u Hc _ IH]; [reflexivity|]. cbn. apply ws_space in Hc. now rewrite Hc. Qed.
Lemma trim_start_id t : (forall c l, t = c :: l -> ~ space c) -> trim_start t = t.
Proof. destruct t as [|c t]; intros H; [reflexivity|]. cbn. specialize (H c t eq_refl). apply ws_nonspace in H. now rewrite H. Qed.
Lemma stripped_trim t l : stripped t l -> trim t = l.
Proof.
  intros (u & v & -> & Hu & Hv & Hf & Hl). unfold trim. rewrite trim_start_blank by exact Hu.
  destruct l as [|c l].
  - cbn [app]. assert (E : trim_start v = []). { rewrite <- (app_nil_r v). now rewrite trim_start_blank. } now rewrite E.
  - rewrite (trim_start_id ((c :: l) ++ v)) by (intros d l' E; injection E as <- <-; exact (Hf _ _ eq_refl)).
    rewrite rev_app_distr, trim_start_blank by (apply Forall_rev; exact Hv).
    rewrite trim_start_id; [apply rev_involutive|]. intros d l' E. apply (Hl d (rev l')). rewrite <- (rev_involutive (c :: l)), E. cbn [rev]. reflexivity.
Qed.
Lemma blank_trim u : blank u -> trim u = [].
Proof. intros H. apply stripped_trim. exists u, []. rewrite app_nil_r. split; [reflexivity|]. split; [exact H|]. split; [constructor|]. split; intros c l'; [discriminate|destruct l'; discriminate]. Qed.

Lemma starts_with_spec p t : starts_with p t = true <-> exists t', t = p ++ t'.
Proof.
  revert t. induction p as [|a p IH]; intros t; cbn; [split; [intros _; now exists t|reflexivity]|].
  destruct t as [|b t]; [split; [discriminate|intros (t' & H); discriminate]|].
  rewrite andb_true_iff, N.eqb_eq, IH. split.
  - intros [-> (t' & ->)]. now exists t'.
  - intros (t' & H). injection H as -> ->. eauto.
Qed.

(* ---- lines ---- *)
Lemma lines_sound t : forall cur a, ~ In 10 cur -> (a = [] \/ exists a', a = a' ++ [10]) ->
  forall raw, In raw (lines_from cur t) -> raw_line (a ++ rev cur ++ t) raw.
Proof.
  induction t as [|c t IH]; intros cur a Hc Ha raw Hi; cbn [lines_from] in Hi.
  - destruct cur as [|x cur]; [destruct Hi|]. destruct Hi as [<-|[]]. exists a, []. repeat split; auto. rewrite <- in_rev. exact Hc.
  - destruct (N.eqb_spec c 10) as [->|Hn].
    + destruct Hi as [<-|Hi].
      * exists a, (10 :: t). repeat split; eauto. rewrite <- in_rev. exact Hc.
      * specialize (IH [] (a ++ rev cur ++ [10]) (fun x => x)). cbn [rev app] in IH.
        replace (a ++ rev cur ++ 10 :: t) with ((a ++ rev cur ++ [10]) ++ t) by (rewrite <- !app_assoc; reflexivity).
        apply IH; [|exact Hi]. right. exists (a ++ rev cur). now rewrite app_assoc.
    + specialize (IH (c :: cur) a). cbn [rev] in IH. rewrite <- app_assoc in IH. cbn [app] in IH. apply IH; auto. intros [->|H]; [congruence|tauto].
Qed.
Lemma lines_skip a t : forall cur raw, In raw (lines_from [] t) -> In raw (lines_from cur (a ++ 10 :: t)).
Proof.
  induction a as [|c a IH]; intros cur raw H; cbn [app lines_from].
  - change (10 =? 10) with true. cbn. now right.
  - destruct (c =? 10); [right|]; apply IH, H.
Qed.
Lemma lines_head raw b : forall cur, ~ In 10 raw -> rev cur ++ raw <> [] -> (b = [] \/ exists b', b = 10 :: b') -> In (rev cur ++ raw) (lines_from cur (raw ++ b)).
Proof.
  induction raw as [|c raw IH]; intros cur Hr Hn Hb.
  - rewrite app_nil_r in *. cbn [app]. destruct Hb as [->|(b' & ->)]; cbn [lines_from].
    + destruct cur as [|x cur]; [now destruct Hn|now left].
    + change (10 =? 10) with true. cbn. now left.
  - cbn [app lines_from]. destruct (N.eqb_spec c 10) as [->|Hc]; [exfalso; apply Hr; now left|].
    replace (rev cur ++ c :: raw) with (rev (c :: cur) ++ raw) in * by (cbn [rev]; rewrite <- app_assoc; reflexivity).
    apply IH; auto. intros H; apply Hr; now right.
Qed.
Lemma raw_lines t raw : raw <> [] -> (In raw (lines_from [] t) <-> raw_line t raw).
Proof.
  intros Hn. split.
  - intros H. apply (lines_sound t [] [] (fun x => x) (or_introl eq_refl) raw H).
  - intros (a & b & -> & Hr & Ha & Hb). destruct Ha as [->|(a' & ->)].
    + apply (lines_head raw b []); auto.
    + rewrite <- app_assoc. cbn [app]. apply lines_skip, (lines_head raw b []); auto.
Qed.

Lemma existsb_text x l : existsb (text_eqb x) l = true <-> In x l.
Proof.
  rewrite existsb_exists. split.
  - intros (y & H & E). destruct (text_eqb_spec x y) as [->|]; [exact H|discriminate].
  - intros H. exists x. split; [exact H|]. now destruct (text_eqb_spec x x).
Qed.
Lemma dedup_In x l : In x (dedup l) <-> In x l.
Proof.
  induction l as [|y l IH]; [tauto|]. cbn [dedup]. destruct (existsb (text_eqb y) l) eqn:E.
  - apply existsb_text in E. rewrite IH. split; [now right|]. intros [<-|H]; assumption.
  - cbn. rewrite IH. tauto.
Qed.
Lemma dedup_NoDup l : NoDup (dedup l).
Proof.
  induction l as [|y l IH]; [constructor|]. cbn [dedup]. destruct (existsb (text_eqb y) l) eqn:E; [exact IH|].
  constructor; [|exact IH]. rewrite dedup_In. intros H. apply existsb_text in H. congruence.
Qed.
Lemma comment_spec l : comment l = true <-> is_comment l.
Proof.
  unfold comment, is_comment. rewrite !orb_true_iff, !starts_with_spec. split.
  - intros [[(l' & H)|(l' & H)]|(l' & H)]; exists l'; tauto.
  - intros (l' & [H|[H|H]]); [left; left|left; right|right]; eauto.
Qed.
Lemma file_lines_holds t l : l <> [] -> (In l (file_lines t) <-> holds_line t l).
Proof.
  intros Hn. unfold file_lines, holds_line. rewrite dedup_In, filter_In, in_map_iff, negb_true_iff.
  assert (Hc : comment l = false <-> ~ is_comment l) by (rewrite <- comment_spec; destruct (comment l); split; congruence). rewrite Hc. split.
  - intros [(raw & Hr & Hi) Hx]. split; [exact Hn|]. split; [exact Hx|]. exists raw. split; [|rewrite <- Hr; apply trim_stripped].
    apply raw_lines; [|exact Hi]. intros ->. apply Hn. rewrite <- Hr. reflexivity.
  - intros (_ & Hx & raw & Hr & Hs). split; [|exact Hx]. exists raw. split; [now apply stripped_trim|].
    apply raw_lines; [|exact Hr]. intros ->. apply Hn. destruct Hs as (u & v & E & _). symmetry in E. apply app_eq_nil in E as [_ E]. now apply app_eq_nil in E as [? _].
Qed.
Lemma difference_In l a b : In l (difference a b) <-> In l a /\ ~ In l b.
Proof.
  unfold difference. rewrite filter_In, negb_true_iff. rewrite <- (existsb_text l b). destruct (existsb (text_eqb l) b); intuition congruence.
Qed.
Lemma difference_NoDup a b : NoDup a -> NoDup (difference a b).
Proof. apply NoDup_filter. Qed.

(* ---- words ---- *)
Lemma words_space u t ws : blank u -> words t ws -> words (u ++ t) ws.
Proof.
  intros Hu H. inversion H; subst.
  - constructor. unfold blank in *. rewrite Forall_app. tauto.
  - rewrite app_assoc. constructor; auto. unfold blank in *. rewrite Forall_app. tauto.
Qed.
Lemma words_from_words t : words t (words_from [] t) /\ forall cur, cur <> [] -> Forall (fun c => ~ space c) cur -> words (rev cur ++ t) (words_from cur t).
Proof.
  induction t as [|c t [IH1 IH2]].
  - split; [constructor; constructor|]. intros cur Hn Hf. cbn [words_from]. destruct cur as [|x cur]; [now destruct Hn|].
    change (rev (x :: cur) ++ []) with ([] ++ rev (x :: cur) ++ []). constructor; auto; try constructor.
    + intros E. apply (f_equal (@rev _)) in E. rewrite rev_involutive in E. discriminate.
    + now apply Forall_rev.
    + constructor.
  - assert (Hc : forall cur, cur <> [] -> Forall (fun c => ~ space c) cur -> words (rev cur ++ c :: t) (words_from cur (c :: t))).
    { intros cur Hn Hf. cbn [words_from]. destruct (is_ws c) eqn:E.
      - destruct cur as [|x cur]; [now destruct Hn|]. apply ws_space in E.
        change (rev (x :: cur) ++ c :: t) with ([] ++ rev (x :: cur) ++ c :: t). constructor.
        + constructor.
        + intros E'. apply (f_equal (@rev _)) in E'. rewrite rev_involutive in E'. discriminate.
        + now apply Forall_rev.
        + right. eauto.
        + apply (words_space [c] t); [constructor; [exact E|constructor]|exact IH1].
      - apply ws_nonspace in E. specialize (IH2 (c :: cur)). cbn [rev] in IH2. rewrite <- app_assoc in IH2. apply IH2; [discriminate|]. constructor; assumption. }
    split; [|exact Hc]. cbn [words_from]. destruct (is_ws c) eqn:E.
    + apply ws_space in E. apply (words_space [c] t); [constructor; [exact E|constructor]|exact IH1].
    + apply ws_nonspace in E. apply (IH2 [c]); [discriminate|]. constructor; [exact E|constructor].
Qed.
Lemma words_from_blank u t : blank u -> words_from [] (u ++ t) = words_from [] t.
Proof. induction 1 as [|c u Hc _ IH]; [reflexivity|]. cbn [app words_from]. apply ws_space in Hc. now rewrite Hc. Qed.
Lemma words_from_word w t : forall cur, Forall (fun c => ~ space c) w -> words_from cur (w ++ t) = words_from (rev w ++ cur) t.
Proof.
  induction w as [|c w IH]; intros cur H; [reflexivity|]. inversion H as [|? ? Hc Hw]; subst. cbn [app words_from]. apply ws_nonspace in Hc. rewrite Hc, IH by exact Hw.
  cbn [rev]. now rewrite <- app_assoc.
Qed.
Lemma words_unique t ws : words t ws -> words_from [] t = ws.
Proof.
  induction 1 as [t H|u w t ws Hu Hn Hw Ht _ IH].
  - rewrite <- (app_nil_r t). now rewrite words_from_blank.
  - rewrite words_from_blank, words_from_word, app_nil_r by assumption.
    assert (Hr : exists x r, rev w = x :: r) by (destruct (rev w) eqn:E; [apply (f_equal (@rev _)) in E; rewrite rev_involutive in E; now destruct Hn|eauto]).
    destruct Hr as (x & r & Hr). destruct Ht as [->|(c & t' & -> & Hc)].
    + cbn [words_from] in *. rewrite Hr, <- IH, <- Hr, rev_involutive. reflexivity.
    + apply ws_space in Hc. cbn [words_from] in *. rewrite Hc in *. rewrite Hr, <- Hr, rev_involutive, IH. reflexivity.
Qed.
Lemma words_from_tail v : blank v -> forall t cur, words_from cur (t ++ v) = words_from cur t.
Proof.
  intros Hv. induction t as [|c t IH]; intros cur.
  - cbn [app]. assert (E : words_from [] v = []) by (rewrite <- (app_nil_r v); now rewrite words_from_blank).
    destruct cur as [|x cur]; [exact E|]. destruct v as [|c v]; [reflexivity|]. inversion Hv as [|? ? Hc Hv']; subst. apply ws_space in Hc. cbn [words_from]. rewrite Hc.
    f_equal. cbn [words_from] in E. rewrite Hc in E. exact E.
  - cbn [app words_from]. destruct (is_ws c); [destruct cur; [apply IH|f_equal; apply IH]|apply IH].
Qed.
Lemma words_trim l : words_from [] (trim l) = words_from [] l.
Proof. destruct (trim_stripped l) as (u & v & E & Hu & Hv & _). rewrite E at 2. rewrite words_from_blank, words_from_tail by assumption. reflexivity. Qed.
Lemma words_iff l ws : words l ws <-> words_from [] l = ws.
Proof. split; [apply words_unique|]. intros <-. apply words_from_words. Qed.

(* ---- splitting ---- *)
Lemma split_once_spec sep t : match split_once sep t with Some (a, b) => t = a ++ sep :: b /\ ~ In sep a | None => ~ In sep t end.
Proof.
  induction t as [|c t IH]; [exact (fun x => x)|]. cbn [split_once]. destruct (N.eqb_spec c sep) as [->|Hc]; [split; [reflexivity|exact (fun x => x)]|].
  destruct (split_once sep t) as [[a b]|].
  - destruct IH as [-> H]. split; [reflexivity|]. intros [E|E]; [congruence|tauto].
  - intros [E|E]; [congruence|tauto].
Qed.
Lemma split_once_at sep a b : ~ In sep a -> split_once sep (a ++ sep :: b) = Some (a, b).
Proof.
  induction a as [|c a IH]; intros H; cbn [app split_once]; [now rewrite N.eqb_refl|].
  destruct (N.eqb_spec c sep) as [->|Hc]; [exfalso; apply H; now left|]. rewrite IH; [reflexivity|]. intros Hi; apply H; now right.
Qed.
Lemma split_from_ne sep t : forall cur, split_from sep cur t <> [].
Proof. induction t as [|c t IH]; intros cur; cbn; [discriminate|]. destruct (c =? sep); [discriminate|apply IH]. Qed.
Lemma joined_cons sep p ps : ps <> [] -> joined sep (p :: ps) = p ++ sep :: joined sep ps.
Proof. destruct ps; [congruence|reflexivity]. Qed.
Lemma split_from_joined sep t : forall cur, ~ In sep cur -> joined sep (split_from sep cur t) = rev cur ++ t /\ without sep (split_from sep cur t).
Proof.
  induction t as [|c t IH]; intros cur Hc; cbn [split_from].
  - cbn [joined]. rewrite app_nil_r. split; [reflexivity|]. constructor; [rewrite <- in_rev; exact Hc|constructor].
  - destruct (N.eqb_spec c sep) as [->|Hn].
    + destruct (IH [] (fun x => x)) as [H1 H2]. split.
      * rewrite joined_cons by apply split_from_ne. rewrite H1. reflexivity.
      * constructor; [rewrite <- in_rev; exact Hc|exact H2].
    + destruct (IH (c :: cur)) as [H1 H2]; [intros [E|E]; [congruence|tauto]|]. split; [|exact H2]. rewrite H1. cbn [rev]. now rewrite <- app_assoc.
Qed.
Lemma split_from_skip sep p t : forall cur, ~ In sep p -> split_from sep cur (p ++ sep :: t) = (rev cur ++ p) :: split_from sep [] t.
Proof.
  induction p as [|c p IH]; intros cur H; cbn [app split_from]; [rewrite N.eqb_refl, app_nil_r; reflexivity|].
  destruct (N.eqb_spec c sep) as [->|Hc]; [exfalso; apply H; now left|]. rewrite IH by (intros Hi; apply H; now right). cbn [rev]. now rewrite <- app_assoc.
Qed.
Lemma split_from_last sep p : forall cur, ~ In sep p -> split_from sep cur p = [rev cur ++ p].
Proof.
  induction p as [|c p IH]; intros cur H; cbn [split_from]; [now rewrite app_nil_r|].
  destruct (N.eqb_spec c sep) as [->|Hc]; [exfalso; apply H; now left|]. rewrite IH by (intros Hi; apply H; now right). cbn [rev]. now rewrite <- app_assoc.
Qed.
Lemma split_joined sep parts : parts <> [] -> without sep parts -> split_from sep [] (joined sep parts) = parts.
Proof.
  intros Hn Hw. induction parts as [|p ps IH]; [congruence|]. inversion Hw as [|? ? Hp Hps]; subst. destruct ps as [|q ps].
  - cbn [joined]. now rewrite split_from_last.
  - rewrite joined_cons by discriminate. rewrite split_from_skip by exact Hp. cbn [rev app]. rewrite (IH ltac:(discriminate) Hps). reflexivity.
Qed.
Lemma split_iff sep parts t : parts <> [] -> (split_from sep [] t = parts <-> t = joined sep parts /\ without sep parts).
Proof.
  intros Hn. split.
  - intros <-. destruct (split_from_joined sep t [] (fun x => x)) as [H1 H2]. split; [symmetry; exact H1|exact H2].
  - intros [-> Hw]. now apply split_joined.
Qed.

(* ---- numbers ---- *)
Lemma value_mono ds : forall a, a <= fold_left (fun a c => a * 10 + (c - 48)) ds a.
Proof. induction ds as [|c ds IH]; intros a; cbn [fold_left]; [lia|]. specialize (IH (a * 10 + (c - 48))). lia. Qed.
Lemma digits_from_spec max ds : forall acc n, acc <= max ->
  (digits_from max acc ds = Some n <-> Forall digit ds /\ fold_left (fun a c => a * 10 + (c - 48)) ds acc = n /\ n <= max).
Proof.
  induction ds as [|c ds IH]; intros acc n Ha; cbn [digits_from fold_left].
  - split; [intros H; injection H as <-; repeat split; auto|intros (_ & -> & _); reflexivity].
  - destruct (andb (48 <=? c) (c <=? 57)) eqn:E.
    + apply andb_true_iff in E as [E1 E2]. apply N.leb_le in E1, E2. destruct (N.leb_spec (acc * 10 + (c - 48)) max) as [Hm|Hm].
      * rewrite IH by exact Hm. split; intros (H1 & H2 & H3); (split; [|split; assumption]).
        -- constructor; [split; assumption|exact H1].
        -- now inversion H1.
      * split; [discriminate|]. intros (_ & H2 & H3). pose proof (value_mono ds (acc * 10 + (c - 48))) as Hv. rewrite H2 in Hv. lia.
    + split; [discriminate|]. intros (H1 & _). inversion H1 as [|? ? [Hc1 Hc2] _]; subst. apply andb_false_iff in E as [E|E]; apply N.leb_gt in E; lia.
Qed.
Lemma parse_uint_spec max t n : parse_uint max t = Some n <-> numeral t n /\ n <= max.
Proof.
  unfold parse_uint, numeral. destruct t as [|c t].
  - split; [discriminate|]. intros [(ds & [H|H] & Hn & _) _]; [now destruct Hn|discriminate].
  - assert (Hs : str "+" = [43]) by reflexivity. rewrite Hs. destruct (N.eqb_spec c 43) as [->|Hc].
    + destruct t as [|d t].
      * split; [discriminate|]. intros [(ds & [H|H] & Hn & Hd & _) _].
        -- subst ds. inversion Hd as [|? ? [? ?] _]. lia.
        -- injection H as <-. now destruct Hn.
      * rewrite digits_from_spec by lia. split.
        -- intros (H1 & H2 & H3). split; [|exact H3]. exists (d :: t). repeat split; auto. discriminate.
        -- intros [(ds & [H|H] & Hn & Hd & Hv) H3].
           ++ subst ds. inversion Hd as [|? ? [? ?] _]. lia.
           ++ injection H as <-. auto.
    + rewrite digits_from_spec by lia. split.
      * intros (H1 & H2 & H3). split; [|exact H3]. exists (c :: t). repeat split; auto. discriminate.
      * intros [(ds & [H|H] & Hn & Hd & Hv) H3]; [subst ds; auto|]. injection H as -> _. congruence.
Qed.
Lemma numeral_fun t n n' : numeral t n -> numeral t n' -> n = n'.
Proof.
  intros H H'. assert (E : parse_uint (N.max n n') t = Some n) by (apply parse_uint_spec; split; [exact H|lia]).
  assert (E' : parse_uint (N.max n n') t = Some n') by (apply parse_uint_spec; split; [exact H'|lia]). congruence.
Qed.
Lemma digits_len ds : Forall digit ds -> hd 0 ds <> 48 -> dec_value ds < 256 -> (length ds <= 3)%nat.
Proof.
  intros Hd Hh Hv. destruct ds as [|a [|b [|c [|d ds]]]]; cbn [length]; try lia. exfalso.
  unfold dec_value in Hv. cbn [fold_left] in Hv. cbn [hd] in Hh. pose proof (value_mono ds ((((0 * 10 + (a - 48)) * 10 + (b - 48)) * 10 + (c - 48)) * 10 + (d - 48))) as Hm.
  inversion Hd as [|? ? [? ?] _]; subst. lia.
Qed.
Lemma parse_octet_spec t n : parse_octet t = Some n <-> octet_text t n.
Proof.
  unfold parse_octet, octet_text. destruct t as [|c t]; [split; [discriminate|intros [H _]; now destruct H]|].
  destruct ((c =? 48) && negb (is_nil t)) eqn:E.
  - apply andb_true_iff in E as [E1 E2]. apply N.eqb_eq in E1. subst. split; [discriminate|]. intros (_ & _ & _ & _ & H). specialize (H eq_refl). injection H as ->. discriminate.
  - assert (Hz : hd 0 (c :: t) = 48 -> c :: t = str "0").
    { cbn [hd]. intros ->. destruct t; [reflexivity|]. discriminate. }
    destruct (N.ltb_spec 3 (blen (c :: t))) as [Hl|Hl].
    + split; [discriminate|]. intros (_ & Hd & Hv & Hr & _). exfalso. unfold blen in Hl.
      assert (Hne : hd 0 (c :: t) <> 48) by (intros H; specialize (Hz H); assert (length (c :: t) = 1%nat) by (rewrite Hz; reflexivity); lia).
      pose proof (digits_len (c :: t) Hd Hne). lia.
    + rewrite digits_from_spec by lia. unfold dec_value. split.
      * intros (H1 & H2 & H3). repeat split; auto; [discriminate|lia].
      * intros (_ & H1 & H2 & H3 & _). repeat split; auto. lia.
Qed.
Lemma octet_nodot t n : octet_text t n -> ~ In 46 t.
Proof. intros (_ & H & _) Hi. rewrite Forall_forall in H. specialize (H _ Hi). unfold digit in H. lia. Qed.
Lemma parse_v4_spec t l : parse_v4 t = Some l <-> exists a b c d, l = [a; b; c; d] /\ dotted t a b c d.
Proof.
  unfold parse_v4. split.
  - destruct (split_from 46 [] t) as [|ta [|tb [|tc [|td [|? ?]]]]] eqn:Es; try discriminate.
    apply split_iff in Es as [Ht _]; [|discriminate].
    destruct (parse_octet ta) as [a|] eqn:Ea; [|discriminate]. destruct (parse_octet tb) as [b|] eqn:Eb; [|discriminate].
    destruct (parse_octet tc) as [c|] eqn:Ec; [|discriminate]. destruct (parse_octet td) as [d|] eqn:Ed; [|discriminate].
    intros H. injection H as <-. apply parse_octet_spec in Ea, Eb, Ec, Ed. exists a, b, c, d. split; [reflexivity|]. exists ta, tb, tc, td. auto.
  - intros (a & b & c & d & -> & ta & tb & tc & td & -> & Ha & Hb & Hc & Hd).
    rewrite split_joined; [|discriminate|repeat (constructor; [eapply octet_nodot; eauto|]); constructor].
    apply parse_octet_spec in Ha, Hb, Hc, Hd. now rewrite Ha, Hb, Hc, Hd.
Qed.
Lemma dotted_fun t a b c d a' b' c' d' : dotted t a b c d -> dotted t a' b' c' d' -> [a; b; c; d] = [a'; b'; c'; d'].
Proof.
  intros H H'. assert (E : parse_v4 t = Some [a; b; c; d]) by (apply parse_v4_spec; eauto 8).
  assert (E' : parse_v4 t = Some [a'; b'; c'; d']) by (apply parse_v4_spec; eauto 8). congruence.
Qed.
Lemma dotted_range t a b c d : dotted t a b c d -> a < 256 /\ b < 256 /\ c < 256 /\ d < 256.
Proof. intros (ta & tb & tc & td & _ & Ha & Hb & Hc & Hd). unfold octet_text in *. tauto. Qed.

Lemma rd_value0 a b : a < 65536 -> b < 4294967296 -> be_val (be_enc 2 0 ++ be_enc 2 a ++ be_enc 4 b) = a * 4294967296 + b.
Proof. intros Ha Hb. unfold be_val. cbn [be_enc app fold_left]. lia. Qed.
Lemma rd_value1 a b c d n : a < 256 -> b < 256 -> c < 256 -> d < 256 -> n < 65536 ->
  be_val (be_enc 2 1 ++ [a; b; c; d] ++ be_enc 2 n) = 1 * 281474976710656 + (a * 16777216 + b * 65536 + c * 256 + d) * 65536 + n.
Proof. intros. unfold be_val. cbn [be_enc app fold_left]. lia. Qed.
Lemma rd_value2 a b : a < 4294967296 -> b < 65536 -> be_val (be_enc 2 2 ++ be_enc 4 a ++ be_enc 2 b) = 2 * 281474976710656 + a * 65536 + b.
Proof. intros. unfold be_val. cbn [be_enc app fold_left]. lia. Qed.
Lemma parse_rd_spec t v : parse_rd t = Some v <-> rd_said t v.
Proof.
  unfold parse_rd, rd_said. split.
  - destruct (split_from 58 [] t) as [|p0 [|p1 [|p2 [|? ?]]]] eqn:Es; try discriminate.
    apply split_iff in Es as [Ht Hw]; [|discriminate]. intros H. exists p0, p1, p2. split; [exact Ht|]. split; [exact Hw|].
    destruct (parse_uint U16 p0) as [k|] eqn:E0; [|discriminate]. apply parse_uint_spec in E0 as [E0 _].
    destruct k as [|[k|[k|k|]|]]; try discriminate.
    + destruct (parse_uint U16 p1) as [a|] eqn:E1; [|discriminate]. destruct (parse_uint U32 p2) as [b|] eqn:E2; [|discriminate].
      apply parse_uint_spec in E1 as [E1 Ha], E2 as [E2 Hb]. unfold U16, U32 in *. rewrite rd_value0 in H by lia. injection H as <-. left. exists a, b.
      repeat split; auto; lia.
    + destruct (parse_uint U32 p1) as [a|] eqn:E1; [|discriminate]. destruct (parse_uint U16 p2) as [b|] eqn:E2; [|discriminate].
      apply parse_uint_spec in E1 as [E1 Ha], E2 as [E2 Hb]. unfold U16, U32 in *. rewrite rd_value2 in H by lia. injection H as <-. right; right. exists a, b.
      repeat split; auto; lia.
    + destruct (parse_v4 p1) as [l|] eqn:E1; [|discriminate]. destruct (parse_uint U16 p2) as [n|] eqn:E2; [|discriminate].
      apply parse_uint_spec in E2 as [E2 Hb]. apply parse_v4_spec in E1 as (a & b & c & d & -> & E1). unfold U16, U32 in *.
      pose proof (dotted_range _ _ _ _ _ E1) as (? & ? & ? & ?). rewrite rd_value1 in H by lia. injection H as <-. right; left. exists a, b, c, d, n.
      repeat split; auto; lia.
  - intros (p0 & p1 & p2 & -> & Hw & H). rewrite split_joined by (exact Hw || discriminate).
    destruct H as [(a & n & H0 & H1 & Ha & H2 & Hn & ->)|[(a & b & c & d & n & H0 & H1 & H2 & Hn & ->)|(a & n & H0 & H1 & Ha & H2 & Hn & ->)]].
    + rewrite (proj2 (parse_uint_spec U16 p0 0)) by (split; [exact H0|unfold U16; lia]).
      rewrite (proj2 (parse_uint_spec U16 p1 a)) by (split; [exact H1|unfold U16; lia]).
      rewrite (proj2 (parse_uint_spec U32 p2 n)) by (split; [exact H2|unfold U32; lia]). now rewrite rd_value0.
    + rewrite (proj2 (parse_uint_spec U16 p0 1)) by (split; [exact H0|unfold U16; lia]).
      rewrite (proj2 (parse_v4_spec p1 [a; b; c; d])) by eauto 8. pose proof (dotted_range _ _ _ _ _ H1) as (? & ? & ? & ?).
      rewrite (proj2 (parse_uint_spec U16 p2 n)) by (split; [exact H2|unfold U16; lia]). now rewrite rd_value1.
    + rewrite (proj2 (parse_uint_spec U16 p0 2)) by (split; [exact H0|unfold U16; lia]).
      rewrite (proj2 (parse_uint_spec U32 p1 a)) by (split; [exact H1|unfold U32; lia]).
      rewrite (proj2 (parse_uint_spec U16 p2 n)) by (split; [exact H2|unfold U16; lia]). now rewrite rd_value2.
Qed.
Lemma parse_field_spec ie t f : parse_field ie t = Some f <-> exists v, f = (ie, v) /\ identifier ie t v.
Proof.
  unfold parse_field, identifier, IE_mplsVpnRouteDistinguisher, IE_samplerRandomInterval. destruct (N.eqb_spec ie 90) as [->|H1].
  - destruct (parse_rd t) as [v|] eqn:E.
    + split.
      * intros H. injection H as <-. exists v. split; [reflexivity|]. left. split; [reflexivity|]. now apply parse_rd_spec.
      * intros (v' & -> & [[_ H]|[H _]]); [|discriminate]. apply parse_rd_spec in H. rewrite E in H. injection H as ->. reflexivity.
    + split; [discriminate|]. intros (v' & _ & [[_ H]|[H _]]); [|discriminate]. apply parse_rd_spec in H. congruence.
  - destruct (N.eqb_spec ie 50) as [->|H2].
    + destruct (parse_uint U32 t) as [v|] eqn:E.
      * split.
        -- intros H. injection H as <-. exists v. split; [reflexivity|]. right. apply parse_uint_spec in E as [E Hv]. unfold U32 in Hv. repeat split; auto. lia.
        -- intros (v' & -> & [[H _]|(_ & H & Hv)]); [discriminate|].
           assert (E' : parse_uint U32 t = Some v') by (apply parse_uint_spec; split; [exact H|unfold U32; lia]). rewrite E in E'. injection E' as ->. reflexivity.
      * split; [discriminate|]. intros (v' & _ & [[H _]|(_ & H & Hv)]); [discriminate|].
        assert (E' : parse_uint U32 t = Some v') by (apply parse_uint_spec; split; [exact H|unfold U32; lia]). congruence.
    + split; [discriminate|]. intros (v' & _ & [[H _]|[H _]]); congruence.
Qed.

(* ---- pmacct lines ---- *)
Fixpoint lastv (k : text) (ws : list text) : option text :=
  match ws with
  | [] => None
  | w :: ws' =>
    match lastv k ws' with
    | Some v => Some v
    | None => match split_once 61 w with Some (k', v) => if text_eqb k' k then Some v else None | None => None end
    end
  end.
Lemma assigns k w v : ~ In 61 k -> (split_once 61 w = Some (k, v) <-> w = assignment k v).
Proof.
  intros Hk. split.
  - intros E. pose proof (split_once_spec 61 w) as H. rewrite E in H. exact (proj1 H).
  - intros ->. now apply split_once_at.
Qed.
Lemma lastv_spec k ws : ~ In 61 k -> match lastv k ws with Some v => last_is k ws v | None => never_set k ws end.
Proof.
  intros Hk. induction ws as [|w ws IH]; [intros v H; exact H|]. cbn [lastv]. destruct (lastv k ws) as [v|].
  - destruct IH as (l1 & l2 & -> & H). exists (w :: l1), l2. split; [reflexivity|exact H].
  - destruct (split_once 61 w) as [[k' v]|] eqn:E.
    + destruct (text_eqb_spec k' k) as [->|Hn].
      * apply assigns in E; [|exact Hk]. exists [], ws. split; [now rewrite E|exact IH].
      * intros v' [H|H]; [|exact (IH v' H)]. apply assigns in H; [|exact Hk]. congruence.
    + intros v' [H|H]; [|exact (IH v' H)]. apply assigns in H; [|exact Hk]. congruence.
Qed.
Lemma last_is_lastv k ws v : ~ In 61 k -> last_is k ws v -> lastv k ws = Some v.
Proof.
  intros Hk (l1 & l2 & -> & H). induction l1 as [|w l1 IH]; cbn [app lastv].
  - pose proof (lastv_spec k l2 Hk) as Hs. destruct (lastv k l2) as [v'|].
    + destruct Hs as (m1 & m2 & -> & _). exfalso. apply (H v'). apply in_or_app. right. now left.
    + unfold assignment. rewrite split_once_at by exact Hk. now destruct (text_eqb_spec k k).
  - now rewrite IH.
Qed.
Lemma never_set_lastv k ws : ~ In 61 k -> never_set k ws -> lastv k ws = None.
Proof.
  intros Hk H. pose proof (lastv_spec k ws Hk) as Hs. destruct (lastv k ws) as [v|]; [|reflexivity].
  destruct Hs as (m1 & m2 & -> & _). exfalso. apply (H v). apply in_or_app. right. now left.
Qed.

Section Env.
Variable parse_v6 : text -> option N.
Variable parse_json : text -> option payload.
Notation parse_ip := (parse_ip parse_v6).
Notation parse_word := (parse_word parse_v6).
Notation parse_words := (parse_words parse_v6).

Lemma parse_ip_spec t a : parse_ip t = Some a <-> address parse_v6 t a.
Proof.
  unfold FiModel.parse_ip, address. destruct (parse_v4 t) as [l|] eqn:E.
  - apply parse_v4_spec in E as (b & c & d & e & -> & Hd).
    assert (Hv : be_val [b; c; d; e] = b * 16777216 + c * 65536 + d * 256 + e) by (unfold be_val; cbn [fold_left]; lia). rewrite Hv. split.
    + intros H. injection H as <-. left. exists b, c, d, e. auto.
    + intros [(b' & c' & d' & e' & H & ->)|[H _]]; [|now destruct (H b c d e)].
      pose proof (dotted_fun _ _ _ _ _ _ _ _ _ Hd H) as Hf. injection Hf as -> -> -> ->. reflexivity.
  - assert (Hn : forall b c d e, ~ dotted t b c d e).
    { intros b c d e H. assert (E' : parse_v4 t = Some [b; c; d; e]) by (apply parse_v4_spec; eauto 8). congruence. }
    destruct (parse_v6 t) as [n|].
    + split.
      * intros H. injection H as <-. right. split; [exact Hn|]. exists n. split; [reflexivity|unfold U32; lia].
      * intros [(b & c & d & e & H & _)|[_ (n' & H & ->)]]; [now destruct (Hn b c d e)|]. injection H as <-. f_equal; unfold U32; lia.
    + split; [discriminate|]. intros [(b & c & d & e & H & _)|[_ (n' & H & ->)]]; [now destruct (Hn b c d e)|discriminate].
Qed.

Definition final (x : vars) (ws : list text) : vars :=
  mkVars (match lastv (str "id") ws with Some v => Some v | None => x_id x end)
         (match lastv (str "ip") ws with Some v => parse_ip v | None => x_ip x end)
         (match lastv (str "in") ws with Some v => parse_uint U32 v | None => x_in x end)
         (match lastv (str "out") ws with Some v => parse_uint U32 v | None => x_out x end)
         (match lastv (str "mpls_vpn_id") ws with Some v => parse_uint U32 v | None => x_vpn x end).
Lemma keys_clean : ~ In 61 (str "id") /\ ~ In 61 (str "ip") /\ ~ In 61 (str "in") /\ ~ In 61 (str "out") /\ ~ In 61 (str "mpls_vpn_id").
Proof. repeat split; cbn; intros H; repeat (destruct H as [H|H]; [discriminate|]); exact H. Qed.
Lemma word_fine_parse w x : word_fine parse_v6 w <-> exists x', parse_word x w = Some x'.
Proof.
  unfold FiModel.parse_word, word_fine. pose proof (split_once_spec 61 w) as Hs. destruct keys_clean as (K1 & K2 & K3 & K4 & K5). split.
  - intros [H|(k & v & -> & Hk & H)].
    + destruct (split_once 61 w) as [[k v]|]; [|eauto]. destruct Hs as [-> _]. exfalso. apply H. apply in_or_app. right. now left.
    + unfold assignment. rewrite split_once_at by exact Hk. destruct H as [->|[[-> (a & Ha)]|[Hkk (i & Hi & Hr)]]].
      * change (text_eqb (str "id") (str "id")) with true. cbn iota. eauto.
      * change (text_eqb (str "ip") (str "id")) with false. change (text_eqb (str "ip") (str "ip")) with true. cbn iota. apply parse_ip_spec in Ha. rewrite Ha. eauto.
      * assert (E : parse_uint U32 v = Some i) by (apply parse_uint_spec; split; [exact Hi|unfold U32; lia]).
        destruct Hkk as [->|[->| ->]]; rewrite E;
          repeat match goal with |- context [text_eqb (str ?a) (str ?b)] => let r := eval vm_compute in (text_eqb (str a) (str b)) in change (text_eqb (str a) (str b)) with r end; cbn iota; eauto.
  - intros (x' & H). destruct (split_once 61 w) as [[k v]|]; [|left; exact Hs]. right. exists k, v. destruct Hs as [-> Hk]. split; [reflexivity|]. split; [exact Hk|].
    destruct (text_eqb_spec k (str "id")) as [->|N1]; [now left|]. right.
    destruct (text_eqb_spec k (str "ip")) as [->|N2]; [left; split; [reflexivity|]; destruct (parse_ip v) as [a|] eqn:E; [exists a; now apply parse_ip_spec|discriminate]|]. right.
    destruct (text_eqb_spec k (str "in")) as [->|N3]; [|destruct (text_eqb_spec k (str "out")) as [->|N4]; [|destruct (text_eqb_spec k (str "mpls_vpn_id")) as [->|N5]; [|discriminate]]].
    + split; [tauto|]. destruct (parse_uint U32 v) as [i|] eqn:E; [|discriminate]. apply parse_uint_spec in E as [E Hi]. exists i. split; [exact E|unfold U32 in Hi; lia].
    + split; [tauto|]. destruct (parse_uint U32 v) as [i|] eqn:E; [|discriminate]. apply parse_uint_spec in E as [E Hi]. exists i. split; [exact E|unfold U32 in Hi; lia].
    + split; [tauto|]. destruct (parse_uint U32 v) as [i|] eqn:E; [|discriminate]. apply parse_uint_spec in E as [E Hi]. exists i. split; [exact E|unfold U32 in Hi; lia].
Qed.
Lemma final_word x w x1 ws : parse_word x w = Some x1 -> final x1 ws = final x (w :: ws).
Proof.
  unfold FiModel.parse_word, final. cbn [lastv]. destruct (split_once 61 w) as [[k v]|].
  - destruct (text_eqb_spec k (str "id")) as [->|N1].
    { intros H. injection H as <-. cbn [x_id x_ip x_in x_out x_vpn]. f_equal.
      all: match goal with |- context [lastv ?k ?l] => destruct (lastv k l) end; reflexivity. }
    destruct (text_eqb_spec k (str "ip")) as [->|N2].
    { destruct (parse_ip v) as [a|] eqn:Ea; [|discriminate]. intros H. injection H as <-. cbn [x_id x_ip x_in x_out x_vpn]. f_equal.
      all: match goal with |- context [lastv ?k ?l] => destruct (lastv k l) end; try reflexivity. cbn. now rewrite Ea. }
    destruct (text_eqb_spec k (str "in")) as [->|N3].
    { destruct (parse_uint U32 v) as [a|] eqn:Ea; [|discriminate]. intros H. injection H as <-. cbn [x_id x_ip x_in x_out x_vpn]. f_equal.
      all: match goal with |- context [lastv ?k ?l] => destruct (lastv k l) end; try reflexivity. cbn. now rewrite Ea. }
    destruct (text_eqb_spec k (str "out")) as [->|N4].
    { destruct (parse_uint U32 v) as [a|] eqn:Ea; [|discriminate]. intros H. injection H as <-. cbn [x_id x_ip x_in x_out x_vpn]. f_equal.
      all: match goal with |- context [lastv ?k ?l] => destruct (lastv k l) end; try reflexivity. cbn. now rewrite Ea. }
    destruct (text_eqb_spec k (str "mpls_vpn_id")) as [->|N5]; [|discriminate].
    destruct (parse_uint U32 v) as [a|] eqn:Ea; [|discriminate]. intros H. injection H as <-. cbn [x_id x_ip x_in x_out x_vpn]. f_equal.
    all: match goal with |- context [lastv ?k ?l] => destruct (lastv k l) end; try reflexivity. cbn. now rewrite Ea.
  - intros H. injection H as <-. f_equal. all: match goal with |- context [lastv ?k ?l] => destruct (lastv k l) end; reflexivity.
Qed.
Lemma parse_words_spec ws : forall x x', parse_words x ws = Some x' <-> Forall (word_fine parse_v6) ws /\ x' = final x ws.
Proof.
  induction ws as [|w ws IH]; intros x x'; cbn [FiModel.parse_words].
  - split; [intros H; injection H as <-; split; [constructor|destruct x; reflexivity]|]. intros [_ ->]. destruct x; reflexivity.
  - destruct (parse_word x w) as [x1|] eqn:E.
    + rewrite IH, (final_word _ _ _ ws E). split; intros [H1 H2]; (split; [|exact H2]).
      * constructor; [apply (word_fine_parse w x); eauto|exact H1].
      * now inversion H1.
    + split; [discriminate|]. intros [H _]. inversion H as [|? ? Hw _]; subst. apply (word_fine_parse w x) in Hw as (x1 & Hw). congruence.
Qed.

Lemma first_word l : match trim l with [] => words_from [] l = [] | c :: _ => exists w ws, words_from [] l = (c :: w) :: ws end.
Proof.
  rewrite <- words_trim. destruct (trim_stripped l) as (u & v & _ & _ & _ & Hf & _). destruct (trim l) as [|c t]; [reflexivity|].
  specialize (Hf c t eq_refl). apply ws_nonspace in Hf. cbn [words_from]. rewrite Hf.
  clear u v Hf. assert (G : forall t cur d, exists w ws, words_from (cur ++ [d]) t = (d :: w) :: ws).
  { induction t0 as [|e t0 IH]; intros cur d; cbn [words_from].
    - destruct (cur ++ [d]) as [|y z] eqn:E; [destruct cur; discriminate|]. rewrite <- E, rev_app_distr. cbn. eauto.
    - destruct (is_ws e).
      + destruct (cur ++ [d]) as [|y z] eqn:E; [destruct cur; discriminate|]. rewrite <- E, rev_app_distr. cbn. eauto.
      + apply (IH (e :: cur) d). }
  apply (G t [] c).
Qed.
(* number of an optional key *)
Lemma number_said_lastv k ws o : ~ In 61 k -> (match lastv k ws with Some v => exists i, numeral v i /\ i < 4294967296 | None => True end) ->
  (match lastv k ws with Some v => parse_uint U32 v | None => None end = o <-> number_said k ws o).
Proof.
  intros Hk Hv. pose proof (lastv_spec k ws Hk) as Hs. unfold number_said. destruct (lastv k ws) as [v|] eqn:E.
  - destruct Hv as (i & Hi & Hr). rewrite (proj2 (parse_uint_spec U32 v i)) by (split; [exact Hi|unfold U32; lia]). split.
    + intros <-. eauto.
    + destruct o as [j|].
      * intros (v' & Hl & Hj & _). apply last_is_lastv in Hl; [|exact Hk]. rewrite E in Hl. injection Hl as <-. f_equal. eapply numeral_fun; eauto.
      * intros Hn. apply never_set_lastv in Hn; [congruence|exact Hk].
  - split.
    + intros <-. exact Hs.
    + destruct o as [j|]; [|reflexivity]. intros (v' & Hl & _). apply last_is_lastv in Hl; [congruence|exact Hk].
Qed.
Lemma fine_last k ws v : ~ In 61 k -> Forall (word_fine parse_v6) ws -> lastv k ws = Some v ->
  k = str "id" \/ (k = str "ip" /\ exists a, address parse_v6 v a) \/
   ((k = str "in" \/ k = str "out" \/ k = str "mpls_vpn_id") /\ exists i, numeral v i /\ i < 4294967296).
Proof.
  intros Hk Hf E. pose proof (lastv_spec k ws Hk) as Hs. rewrite E in Hs. destruct Hs as (l1 & l2 & -> & _).
  rewrite Forall_forall in Hf. specialize (Hf (assignment k v) ltac:(apply in_or_app; right; now left)). destruct Hf as [H|(k' & v' & He & Hk' & H)].
  - exfalso. apply H. unfold assignment. apply in_or_app. right. now left.
  - apply assigns in He; [|exact Hk']. unfold assignment in He. rewrite split_once_at in He by exact Hk. injection He as <- <-. exact H.
Qed.
Lemma parse_line_spec l e : parse_line parse_v6 l = Some (Some e) <-> describes parse_v6 l e.
Proof.
  destruct keys_clean as (K1 & K2 & K3 & K4 & K5).
  unfold parse_line, describes. rewrite words_trim.
  assert (Hmark : forall m, is_nil (trim l) = false -> (starts_with [m] (trim l) = true <-> exists w ws', words_from [] l = (m :: w) :: ws')).
  { intros m Hn. pose proof (first_word l) as Hf. destruct (trim l) as [|c t]; [discriminate|]. destruct Hf as (w & ws & ->). cbn [starts_with]. rewrite andb_true_r, N.eqb_eq. split.
    - intros ->. eauto.
    - intros (w' & ws' & H). now injection H as <- _ _. }
  change (str "!") with [33] in *. change (str "#") with [35] in *. cbn [app].
  destruct (is_nil (trim l)) eqn:En.
  - cbn [orb]. split; [discriminate|]. intros (ws & Hw & _ & _ & _ & (l1 & l2 & H & _) & _). apply words_iff in Hw. pose proof (first_word l) as Hf.
    apply is_nil_eq in En. rewrite En in Hf. rewrite Hf in Hw. subst ws. destruct l1; discriminate.
  - destruct (starts_with [33] (trim l)) eqn:E1.
    { cbn [orb]. split; [discriminate|]. intros (ws & Hw & H & _). apply words_iff in Hw. apply Hmark in E1 as (w & ws' & E1); [|reflexivity]. subst ws. exfalso. now apply (H w ws'). }
    destruct (starts_with [35] (trim l)) eqn:E2.
    { cbn [orb]. split; [discriminate|]. intros (ws & Hw & _ & H & _). apply words_iff in Hw. apply Hmark in E2 as (w & ws' & E2); [|reflexivity]. subst ws. exfalso. now apply (H w ws'). }
    cbn [orb]. set (ws := words_from [] l) in *.
    assert (Hx : forall o, parse_words (mkVars None None None None None) ws = Some o -> Forall (word_fine parse_v6) ws /\ o = final (mkVars None None None None None) ws) by (intros o; apply parse_words_spec).
    split.
    + destruct (parse_words (mkVars None None None None None) ws) as [x|] eqn:Ep; [|discriminate]. destruct (Hx x eq_refl) as [Hf Hfin]. clear Hx.
      subst x. cbn [final x_id x_ip x_in x_out x_vpn].
      assert (Fi := fun v => fine_last (str "in") ws v K3 Hf). assert (Fo := fun v => fine_last (str "out") ws v K4 Hf). assert (Fm := fun v => fine_last (str "mpls_vpn_id") ws v K5 Hf).
      assert (Gi : match lastv (str "in") ws with Some v => exists i, numeral v i /\ i < 4294967296 | None => True end).
      { destruct (lastv (str "in") ws) as [v|]; [|exact I]. destruct (Fi v eq_refl) as [H|[[H _]|[_ H]]]; [discriminate H|discriminate H|exact H]. }
      assert (Go : match lastv (str "out") ws with Some v => exists i, numeral v i /\ i < 4294967296 | None => True end).
      { destruct (lastv (str "out") ws) as [v|]; [|exact I]. destruct (Fo v eq_refl) as [H|[[H _]|[_ H]]]; [discriminate H|discriminate H|exact H]. }
      assert (Gm : match lastv (str "mpls_vpn_id") ws with Some v => exists i, numeral v i /\ i < 4294967296 | None => True end).
      { destruct (lastv (str "mpls_vpn_id") ws) as [v|]; [|exact I]. destruct (Fm v eq_refl) as [H|[[H _]|[_ H]]]; [discriminate H|discriminate H|exact H]. }
      clear Fi Fo Fm.
      pose proof (lastv_spec (str "id") ws K1) as Hid. destruct (lastv (str "id") ws) as [id|] eqn:Eid; [|discriminate].
      pose proof (lastv_spec (str "ip") ws K2) as Hip. destruct (lastv (str "ip") ws) as [vip|] eqn:Eip; [|discriminate].
      destruct (parse_ip vip) as [ip|] eqn:Ea; [|discriminate]. apply parse_ip_spec in Ea.
      set (oi := match lastv (str "in") ws with Some v => parse_uint U32 v | None => None end).
      set (oo := match lastv (str "out") ws with Some v => parse_uint U32 v | None => None end).
      set (om := match lastv (str "mpls_vpn_id") ws with Some v => parse_uint U32 v | None => None end).
      intros H.
      assert (He : e_id e = id /\ e_ip e = ip /\ scope_numbers (e_scope e) = (oi, oo, om)).
      { destruct oi, oo, om; try discriminate H; injection H as <-; cbn; auto. }
      destruct He as (Hei & Hea & Hes). exists ws. split; [now apply words_iff|].
      split; [intros w ws' Hw; assert (starts_with [33] (trim l) = true) by (apply Hmark; eauto); congruence|].
      split; [intros w ws' Hw; assert (starts_with [35] (trim l) = true) by (apply Hmark; eauto); congruence|].
      split; [exact Hf|]. rewrite Hei, Hea, Hes. split; [exact Hid|]. split; [eauto|].
      split; [apply number_said_lastv; auto|]. split; apply number_said_lastv; auto.
    + intros (ws0 & Hw & _ & _ & Hf & Hid & (vip & Hip & Ha) & Hsc). apply words_iff in Hw. fold ws in Hw. subst ws0.
      assert (Ep : parse_words (mkVars None None None None None) ws = Some (final (mkVars None None None None None) ws)) by (apply parse_words_spec; auto).
      rewrite Ep. cbn [final x_id x_ip x_in x_out x_vpn]. apply last_is_lastv in Hid, Hip; try assumption. rewrite Hid, Hip. apply parse_ip_spec in Ha. rewrite Ha.
      assert (Fi := fun v => fine_last (str "in") ws v K3 Hf). assert (Fo := fun v => fine_last (str "out") ws v K4 Hf). assert (Fm := fun v => fine_last (str "mpls_vpn_id") ws v K5 Hf).
      assert (Gi : match lastv (str "in") ws with Some v => exists i, numeral v i /\ i < 4294967296 | None => True end).
      { destruct (lastv (str "in") ws) as [v|]; [|exact I]. destruct (Fi v eq_refl) as [H|[[H _]|[_ H]]]; [discriminate H|discriminate H|exact H]. }
      assert (Go : match lastv (str "out") ws with Some v => exists i, numeral v i /\ i < 4294967296 | None => True end).
      { destruct (lastv (str "out") ws) as [v|]; [|exact I]. destruct (Fo v eq_refl) as [H|[[H _]|[_ H]]]; [discriminate H|discriminate H|exact H]. }
      assert (Gm : match lastv (str "mpls_vpn_id") ws with Some v => exists i, numeral v i /\ i < 4294967296 | None => True end).
      { destruct (lastv (str "mpls_vpn_id") ws) as [v|]; [|exact I]. destruct (Fm v eq_refl) as [H|[[H _]|[_ H]]]; [discriminate H|discriminate H|exact H]. }
      clear Fi Fo Fm. destruct (scope_numbers (e_scope e)) as [[oi oo] om] eqn:Es. destruct Hsc as (Hi & Ho & Hm).
      apply (number_said_lastv _ _ oi K3 Gi) in Hi. apply (number_said_lastv _ _ oo K4 Go) in Ho. apply (number_said_lastv _ _ om K5 Gm) in Hm. rewrite Hi, Ho, Hm.
      destruct e as [id ip [[i|i|i]|]]; cbn in Es; injection Es as <- <- <-; reflexivity.
Qed.

Lemma line_payloads_provides fmt l ip dom scope w fs :
  provides parse_v6 parse_json fmt l ip dom scope w fs <-> exists ps, line_payloads parse_v6 parse_json fmt l = Some ps /\ In (mkPayload ip dom scope w fs) ps.
Proof.
  destruct fmt as [ie weight| |]; cbn [provides line_payloads].
  - split.
    + intros (e & v & Hd & Hv & -> & -> & -> & H). apply parse_line_spec in Hd. rewrite Hd.
      assert (Ef : parse_field ie (e_id e) = Some (ie, v)) by (apply parse_field_spec; eauto). rewrite Ef. eexists. split; [reflexivity|].
      unfold entry_payloads, directed. cbn [fst snd]. change IE_mplsVpnRouteDistinguisher with 90.
      destruct (e_scope e) as [[i|i|i]|].
      * destruct H as [-> ->]. left. destruct (ie =? 90); reflexivity.
      * destruct H as [-> ->]. left. destruct (ie =? 90); reflexivity.
      * destruct H as [[-> ->]|[-> ->]]; [left|right; left]; destruct (ie =? 90); reflexivity.
      * destruct H as [-> ->]. left. reflexivity.
    + intros (ps & H & Hi). destruct (parse_line parse_v6 l) as [[e|]|] eqn:Ep; [|injection H as <-; destruct Hi|discriminate].
      destruct (parse_field ie (e_id e)) as [f|] eqn:Ef; [|discriminate]. injection H as <-. apply parse_field_spec in Ef as (v & -> & Hv).
      apply parse_line_spec in Ep. exists e, v. unfold entry_payloads, directed in Hi. cbn [fst snd] in Hi. change IE_mplsVpnRouteDistinguisher with 90 in Hi.
      destruct (e_scope e) as [[i|i|i]|]; cbn [In] in Hi.
      * destruct Hi as [Hi|[]]. destruct (ie =? 90); inversion Hi; subst; repeat split; auto.
      * destruct Hi as [Hi|[]]. destruct (ie =? 90); inversion Hi; subst; repeat split; auto.
      * destruct Hi as [Hi|[Hi|[]]]; destruct (ie =? 90); inversion Hi; subst; repeat split; auto.
      * destruct Hi as [Hi|[]]. inversion Hi; subst; repeat split; auto.
  - split.
    + intros [Hn H]. rewrite H. cbn [p_fields]. destruct fs as [|f fs]; [now destruct Hn|]. cbn [is_nil]. eexists. split; [reflexivity|now left].
    + intros (ps & H & Hi). destruct (parse_json l) as [p|] eqn:E; [|discriminate]. injection H as <-. destruct (p_fields p) as [|f fs'] eqn:Ef; [destruct Hi|]. destruct Hi as [->|[]].
      cbn in Ef. split; [rewrite Ef; discriminate|reflexivity].
  - split; [intros []|]. intros (ps & H & _). discriminate.
Qed.
End Env.
