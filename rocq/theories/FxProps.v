(* Properties C215-C220: YANG-Push and subscribed-notification filters in XML. *)
From Coq Require Import List Bool Arith String Ascii Lia.
From Verif Require Import FxModel FxSpec FxProofs FxProofs2 FxProofs3.
Import ListNotations.
Local Open Scope string_scope.
Local Open Scope list_scope.

(* ---- C215: what is written is read back ---- *)
Definition example_filters : filters :=
  Filters [Filter "a<b" (XPath [("if", "urn:if")] "/if:interfaces[if:name='x:y']");
           Filter "tree" (Subtree [("q", "urn:q"); ("r", "urn:r")] [Start (Elem "q" "top" []); Text "1"; Empty (Elem "r" "leaf" []); End "q" "top"])]
          [Filter "s" (XPath [] "/*")].
Theorem C215_faithful_filters_come_back_partial : forall x, faithful_filters x -> round_trips x.
Proof. exact filters_back. Qed.
Print Assumptions C215_faithful_filters_come_back_partial.
Theorem C215_two_prefixes_for_a_namespace_refuted :
  exists x w x' p, write_filters x writer_new = Some w /\ read_filters (parser_new (out w)) = Ok x' p
  /\ x = Filters [Filter "n" (XPath [("a", "urn:a"); ("b", "urn:a")] "/a:x/b:y")] []
  /\ x' = Filters [Filter "n" (XPath [("b", "urn:a")] "/a:x/b:y")] [].
Proof. exists (Filters [Filter "n" (XPath [("a", "urn:a"); ("b", "urn:a")] "/a:x/b:y")] []). do 3 eexists. split; [lazy; reflexivity|]. split; [lazy; reflexivity|split; reflexivity]. Qed.
Print Assumptions C215_two_prefixes_for_a_namespace_refuted.
Theorem C215_default_namespace_refuted :
  exists x w, write_filters x writer_new = Some w /\ read_filters (parser_new (out w)) = Err WrongToken
  /\ x = Filters [Filter "n" (Subtree [("", "urn:a")] [Empty (Elem "" "top" [])])] [].
Proof. exists (Filters [Filter "n" (Subtree [("", "urn:a")] [Empty (Elem "" "top" [])])] []). eexists. split; [lazy; reflexivity|]. split; [lazy; reflexivity|reflexivity]. Qed.
Print Assumptions C215_default_namespace_refuted.
Theorem C215_no_namespace_gains_one_refuted :
  exists x w x' p, write_filters x writer_new = Some w /\ read_filters (parser_new (out w)) = Ok x' p
  /\ x = Filters [Filter "n" (Subtree [] [Empty (Elem "" "top" [])])] []
  /\ x' = Filters [Filter "n" (Subtree [("", SUBSCRIBED_NOTIFICATIONS_NS)] [Empty (Elem "" "top" [])])] [].
Proof. exists (Filters [Filter "n" (Subtree [] [Empty (Elem "" "top" [])])] []). do 3 eexists. split; [lazy; reflexivity|]. split; [lazy; reflexivity|split; reflexivity]. Qed.
Print Assumptions C215_no_namespace_gains_one_refuted.
Theorem C215_blanks_around_a_name_refuted :
  exists x w x' p, write_filters x writer_new = Some w /\ read_filters (parser_new (out w)) = Ok x' p
  /\ x = Filters [] [Filter " n" (XPath [] "/*")] /\ x' = Filters [] [Filter "n" (XPath [] "/*")].
Proof. exists (Filters [] [Filter " n" (XPath [] "/*")]). do 3 eexists. split; [lazy; reflexivity|]. split; [lazy; reflexivity|split; reflexivity]. Qed.
Print Assumptions C215_blanks_around_a_name_refuted.
Lemma last_of s : forall c r, s = (r ++ String c "")%string ->
  (fix last (s : string) : option ascii := match s with EmptyString => None | String c EmptyString => Some c | String _ r => last r end) s = Some c.
Proof.
  induction s as [|d s IH]; intros c r H; [destruct r; discriminate|].
  destruct r as [|d' r]; cbn in H; injection H as -> H; [rewrite H; reflexivity|].
  specialize (IH c r H). destruct s; [destruct r; discriminate|exact IH].
Qed.
Ltac outer := split; [intros c r H; injection H as <- <-; lazy; lia
  |intros c r H; apply last_of in H; lazy in H; injection H as <-; lazy; lia].
Example C215_nonvacuous : faithful_filters example_filters.
Proof.
  unfold faithful_filters, example_filters. cbn [stream_filters selection_filters map f_name].
  split; [repeat constructor; cbn; intuition discriminate|]. split; [repeat constructor; cbn; intuition|].
  split; [apply Forall_cons; [split|apply Forall_cons; [split|apply Forall_nil]]|apply Forall_cons; [split|apply Forall_nil]].
  - cbn [f_name]. outer.
  - cbn [f_spec faithful]. split; [split; [repeat constructor; cbn; tauto|split; [repeat constructor; cbn; tauto|]]|split].
    + intros p n [H|[]]. injection H as <- <-. split; discriminate.
    + outer.
    + exists [LSymbol "/"; LQName "if" "interfaces"; LSymbol "["; LQName "if" "name"; LSymbol "="; LString1 "x:y"; LSymbol "]"].
      split; [|split; [reflexivity|intros p [<-|[]]; cbn; tauto]].
      assert (L : forall c, name_start c = false -> ~ letter c) by (intros c H X; apply letter_iff in X; congruence).
      assert (M : forall c, name_char c = false -> ~ in_name c) by (intros c H X; apply in_name_iff in X; congruence).
      assert (P : forall c, name_start c = true -> letter c) by (intros c X; apply letter_iff; exact X).
      assert (Q : forall c, name_char c = true -> in_name c) by (intros c X; apply in_name_iff; exact X).
      cbn [well_formed well_formed1 ends_in_name ascii_name all_chars].
      repeat match goal with
      | |- _ /\ _ => split
      | |- True => exact I
      | |- letter _ => apply P; reflexivity
      | |- in_name _ => apply Q; reflexivity
      | |- ~ letter _ => apply L; reflexivity
      | |- ~ in_name _ => apply M; reflexivity
      | |- _ <> _ => discriminate
      | |- false = true -> _ => discriminate
      | |- true = true -> _ => intros _; cbn [render render1 append separates]
      end.
  - cbn [f_name]. outer.
  - cbn [f_spec faithful]. split; [split; [repeat constructor; cbn; intuition discriminate|split; [repeat constructor; cbn; intuition discriminate|]]|].
    + intros p n [H|[H|[]]]; injection H as <- <-; split; discriminate.
    + repeat split.
      * intros e H. cbn in H. destruct H as [H|H]; repeat (destruct H as [H|H]; [try discriminate; injection H as <-; reflexivity|]); destruct H.
      * cbn in H. repeat (destruct H as [H|H]; [try discriminate; injection H as <- <-; discriminate|]). destruct H.
      * cbn in H. repeat (destruct H as [H|H]; [try discriminate; injection H as <- <-; discriminate|]). destruct H.
  - cbn [f_name]. outer.
  - cbn [f_spec faithful]. split; [split; [constructor|split; [constructor|intros p n []]]|split].
    + outer.
    + exists [LSymbol "/"; LSymbol "*"]. split; [|split; [reflexivity|intros p []]].
      assert (L : forall c, name_start c = false -> ~ letter c) by (intros c H X; apply letter_iff in X; congruence).
      cbn [well_formed well_formed1 ends_in_name].
      repeat match goal with
      | |- _ /\ _ => split
      | |- True => exact I
      | |- ~ letter _ => apply L; reflexivity
      | |- _ <> _ => discriminate
      | |- false = true -> _ => discriminate
      end.
Qed.

(* ---- C216: reading ends ---- *)
Theorem C216_reading_a_complete_document_ends_partial : forall ts, ends_with_end ts -> read_filters (parser_new ts) <> Hang.
Proof.
  intros ts H E. assert (G := read_filters_good (parser_new ts) (or_intror H)). rewrite E in G. exact G.
Qed.
Print Assumptions C216_reading_a_complete_document_ends_partial.
Theorem C216_a_document_cut_in_a_text_refuted : forall o ps text, Forall is_leaf text ->
  tag_string (at_events text o (true :: ps)) = Hang.
Proof.
  intros o ps text H. unfold tag_string. cbn [at_events parent_has_child parents toks].
  assert (R : forall acc, read_string text acc = RForever).
  { induction H as [|t text Ht _ IH]; intros acc; [reflexivity|]. destruct t; try destruct Ht; apply IH. }
  rewrite R. reflexivity.
Qed.
Print Assumptions C216_a_document_cut_in_a_text_refuted.
Theorem C216_filters_cut_in_a_name_refuted : forall w, write_filters example_filters writer_new = Some w ->
  exists rest, out w = firstn 4 (out w) ++ rest /\ rest <> [] /\ read_filters (parser_new (firstn 4 (out w))) = Hang.
Proof.
  intros w H. assert (E : out w = match write_filters example_filters writer_new with Some w => out w | None => [] end) by (rewrite H; reflexivity).
  rewrite E. eexists. split; [symmetry; apply firstn_skipn|]. split; [lazy; discriminate|lazy; reflexivity].
Qed.
Print Assumptions C216_filters_cut_in_a_name_refuted.
Example C216_nonvacuous : exists w, write_filters example_filters writer_new = Some w /\ ends_with_end (out w) /\ 4 < List.length (out w).
Proof.
  eexists. split; [lazy; reflexivity|]. split; [|cbn; lia]. exists (removelast (match write_filters example_filters writer_new with Some w => out w | None => [] end)), "", "filters".
  lazy. reflexivity.
Qed.

(* ---- C217: the order of a filter's parts ---- *)
Theorem C217_a_selection_filter_in_either_order : forall o e b0 b1 b2 n s r ps,
  named o e YANG_PUSH_NS "selection-filter" -> Forall white b0 -> Forall white b1 -> Forall white b2 ->
  name_document (e_decls e :: o) selection_kind n -> spec_document (e_decls e :: o) selection_kind s ->
  exists f, read_filter selection_kind (at_events (element e (b0 ++ n ++ b1 ++ s ++ b2) ++ r) o ps) = Ok f (at_events r o ps)
  /\ read_filter selection_kind (at_events (element e (b0 ++ s ++ b1 ++ n ++ b2) ++ r) o ps) = Ok f (at_events r o ps).
Proof.
  intros o e b0 b1 b2 n s r ps N W0 W1 W2 [ne ts x Nn Sn] Ds. assert (K : known_kind selection_kind) by (right; reflexivity).
  destruct (spec_read _ _ s K Ds) as (sp & Hs). eexists. split.
  - exact (read_filter_at selection_kind o e b0 ne ts x b1 s sp b2 r ps K N W0 W1 W2 Nn Sn Ds Hs).
  - exact (read_filter_late_at selection_kind o e b0 ne ts x b1 s sp b2 r ps K N W0 W1 W2 Nn Sn Ds Hs).
Qed.
Print Assumptions C217_a_selection_filter_in_either_order.
Theorem C217_a_stream_filter_with_its_name_first_partial : forall o d r ps, filter_document o stream_kind d ->
  exists f, read_filter stream_kind (at_events (d ++ r) o ps) = Ok f (at_events r o ps).
Proof.
  intros o d r ps H. destruct (document_block stream_kind o d (or_introl eq_refl) H) as (f & B & _). exists f. apply B.
Qed.
Print Assumptions C217_a_stream_filter_with_its_name_first_partial.
Theorem C217_a_stream_filter_with_its_name_last_refuted : forall o e b0 b1 b2 n s r ps,
  named o e SUBSCRIBED_NOTIFICATIONS_NS "stream-filter" -> Forall white b0 -> Forall white b1 -> Forall white b2 ->
  name_document (e_decls e :: o) stream_kind n -> spec_document (e_decls e :: o) stream_kind s ->
  read_filter stream_kind (at_events (element e (b0 ++ s ++ b1 ++ n ++ b2) ++ r) o ps) = Err WrongToken.
Proof.
  intros o e b0 b1 b2 n s r ps N W0 W1 W2 [ne ts x Nn Sn] Ds. assert (K : known_kind stream_kind) by (left; reflexivity).
  destruct (spec_read _ _ s K Ds) as (sp & Hs). destruct (spec_head _ _ s K Ds) as [(es & cs & ->) Hn].
  unfold read_filter. rewrite skip_text_element, element_app.
  rewrite (is_tag_start _ _ _ _ _ _ N), (open_start _ _ _ _ _ _ N). cbn [bind]. rewrite <- !app_assoc.
  rewrite (skip_text_white b0 _ _ _ W0 (drop_element _ _ _)). rewrite Hn, Hs. cbn [bind].
  rewrite (skip_text_white b1 _ _ _ W1 (drop_element _ _ _)). rewrite (element_app ne).
  unfold read_name, open. unfold at_events at 1. cbn [toks].
  rewrite (is_tag_other ne _ _ _ _ _ _ _ Nn); [reflexivity|left; discriminate].
Qed.
Print Assumptions C217_a_stream_filter_with_its_name_last_refuted.
Definition example_outer : list (list (string * string)) := [[("y", YANG_PUSH_NS); ("", SUBSCRIBED_NOTIFICATIONS_NS)]].
Example C217_nonvacuous :
  named example_outer (Elem "y" "selection-filter" []) YANG_PUSH_NS "selection-filter" /\
  name_document ([] :: example_outer) selection_kind (element (Elem "y" "filter-id" []) [Text "a"; Ref "amp"]) /\
  spec_document ([] :: example_outer) selection_kind (element (Elem "y" "datastore-xpath-filter" []) [CData "/x"]) /\
  named example_outer (Elem "" "stream-filter" []) SUBSCRIBED_NOTIFICATIONS_NS "stream-filter" /\
  name_document ([] :: example_outer) stream_kind (element (Elem "" "name" []) [Text "a"]) /\
  spec_document ([] :: example_outer) stream_kind (element (Elem "" "stream-subtree-filter" []) [Empty (Elem "z" "x" [])]).
Proof.
  split; [split; reflexivity|]. split.
  { eapply (nd _ _ _ _ ("a" ++ "&" ++ "")%string); [split; reflexivity|]. constructor. constructor; [cbn; tauto|constructor]. }
  split. { eapply sd_xpath; [split; reflexivity|]. constructor. constructor. }
  split; [split; reflexivity|]. split.
  { eapply nd; [split; reflexivity|]. constructor. constructor. }
  apply sd_subtree; [split; reflexivity|reflexivity|]. intros p n [H|[]]. discriminate.
Qed.

(* ---- C218: text ---- *)
Theorem C218_text_is_what_it_stands_for_partial : forall ts x a b r o ps, stands_for ts x ->
  tag_string (at_events (ts ++ End a b :: r) o (true :: ps)) = Ok x (at_events (End a b :: r) o (true :: ps)).
Proof. exact tag_string_at. Qed.
Print Assumptions C218_text_is_what_it_stands_for_partial.
Theorem C218_any_text_is_written_as_itself : forall s, stands_for (escaped s) s.
Proof. exact escaped_stands. Qed.
Print Assumptions C218_any_text_is_written_as_itself.
Theorem C218_names_are_read_without_outer_blanks : forall ns key e ts x r o ps, named o e ns key -> stands_for ts x -> no_outer_blanks x ->
  read_name ns key (at_events (element e ts ++ r) o ps) = Ok x (at_events r o ps).
Proof. intros ns key e ts x r o ps N S B. rewrite (read_name_at ns key e ts x r o ps N S), (trim_id _ B). reflexivity. Qed.
Print Assumptions C218_names_are_read_without_outer_blanks.
Theorem C218_character_references_refuted : forall d1 d2 a b r o ps, 3 <= d1 <= 9 -> d2 <= 9 ->
  exists s, tag_string (at_events (char_ref d1 d2 :: End a b :: r) o (true :: ps)) = Ok s (at_events (End a b :: r) o (true :: ps))
  /\ s = String "#" (digits2 d1 d2) /\ s <> named_char d1 d2.
Proof. intros d1 d2 a b r o ps H1 H2. eexists. split; [reflexivity|]. split; [reflexivity|discriminate]. Qed.
Print Assumptions C218_character_references_refuted.
Example C218_nonvacuous : stands_for [Text "a "; Ref "lt"; CData "<b>"; Comment; Ref "quot"] "a <<b>""".
Proof.
  apply (sf_text "a " _ "<<b>"""). apply (sf_ref "lt" "<" _ "<b>"""); [cbn; tauto|]. apply (sf_cdata "<b>" _ """").
  apply sf_comment. apply (sf_ref "quot" """" _ ""); [cbn; tauto|constructor].
Qed.

(* ---- C219: the namespaces an XPath uses ---- *)
Theorem C219_an_xpath_is_read_with_the_namespaces_it_uses_partial : forall ts ls a b r o ps,
  stands_for ts (render ls) -> well_formed ls -> declared_once o ->
  exists m, read_xpath_with_namespaces (at_events (ts ++ End a b :: r) o (true :: ps)) = Ok (render ls, m) (at_events (End a b :: r) o (true :: ps)) /\
  forall p n, In (p, n) m <-> In p (prefixes ls) /\ in_force o p n.
Proof. exact xpath_namespaces. Qed.
Print Assumptions C219_an_xpath_is_read_with_the_namespaces_it_uses_partial.
(* the prefix is e with an acute accent, in UTF-8 *)
Definition accented : string := String "195" (String "169" "").
Theorem C219_prefixes_outside_ascii_refuted : forall ns a b r ps, ns <> "" ->
  exists q, read_xpath_with_namespaces (at_events (Text (accented ++ ":x")%string :: End a b :: r) [[(accented, ns)]] (true :: ps)) = Ok ((accented ++ ":x")%string, []) q
  /\ in_force [[(accented, ns)]] accented ns.
Proof.
  intros ns a b r ps H. eexists. split.
  - unfold read_xpath_with_namespaces. cbn [at_events scopes enter]. unfold tag_string. cbn [parent_has_child parents at_events toks read_string].
    cbn [bind]. replace (filter _ _) with (@nil (string * string)); [reflexivity|].
    unfold all_namespaces. cbn [rev app fold_left map_insert fst snd filter]. destruct (negb (String.eqb ns "")); reflexivity.
  - constructor; [left; reflexivity|exact H].
Qed.
Print Assumptions C219_prefixes_outside_ascii_refuted.
Example C219_nonvacuous :
  well_formed [LAxis "child"; LQName "a" "b"; LSymbol " "; LName "or"; LSymbol " "; LAny "c"; LSymbol "="; LString2 "d:e"]
  /\ declared_once [[("a", "urn:1")]; [("a", "urn:2"); ("c", "urn:3")]] /\ in_force [[("a", "urn:1")]; [("a", "urn:2"); ("c", "urn:3")]] "c" "urn:3".
Proof.
  split; [|split].
  - assert (L : forall c, name_start c = false -> ~ letter c) by (intros c H X; apply letter_iff in X; congruence).
    assert (M : forall c, name_char c = false -> ~ in_name c) by (intros c H X; apply in_name_iff in X; congruence).
    assert (P : forall c, name_start c = true -> letter c) by (intros c X; apply letter_iff; exact X).
    assert (Q : forall c, name_char c = true -> in_name c) by (intros c X; apply in_name_iff; exact X).
    cbn [well_formed well_formed1 ends_in_name ascii_name all_chars].
    repeat match goal with
    | |- _ /\ _ => split
    | |- True => exact I
    | |- letter _ => apply P; reflexivity
    | |- in_name _ => apply Q; reflexivity
    | |- ~ letter _ => apply L; reflexivity
    | |- ~ in_name _ => apply M; reflexivity
    | |- _ <> _ => discriminate
    | |- false = true -> _ => discriminate
    | |- true = true -> _ => intros _; cbn [render render1 append separates]
    end.
  - repeat constructor; cbn; intuition discriminate.
  - apply if_outer; [cbn; intuition discriminate|]. apply if_here; [cbn; tauto|discriminate].
Qed.

(* ---- C220: what is not known is passed over ---- *)
Theorem C220_unknown_elements_change_nothing_partial : forall e w v, filters_element e -> extends [e_decls e] w v ->
  exists x p q, read_filters (parser_new (element e w)) = Ok x p /\ read_filters (parser_new (element e v)) = Ok x q /\ toks p = [] /\ toks q = [].
Proof.
  intros e w v N H. destruct (extends_seq _ _ _ H) as (a & b & A & B).
  pose proof (read_filters_at e w a b [] [] N A) as Q1. pose proof (read_filters_at e v a b [] [] N B) as Q2. rewrite app_nil_r in Q1, Q2.
  exists (filters_new a b). do 2 eexists. split; [exact Q1|]. split; [exact Q2|]. split; reflexivity.
Qed.
Print Assumptions C220_unknown_elements_change_nothing_partial.
Theorem C220_an_element_is_skipped_with_all_it_holds : forall t r o ps, proper t ->
  skip (at_events (events t ++ r) o ps) = Ok tt (at_events r o ps).
Proof. intros t r o ps H. exact (skip_tree t r o ps H). Qed.
Print Assumptions C220_an_element_is_skipped_with_all_it_holds.
Definition example_tag : elem := Elem "" "filters" [("", SUBSCRIBED_NOTIFICATIONS_NS)].
Theorem C220_an_empty_filters_element_refuted :
  read_filters (parser_new [Empty example_tag]) = Err EofError /\
  exists p, read_filters (parser_new (element example_tag [])) = Ok (Filters [] []) p.
Proof. split; [lazy; reflexivity|eexists; lazy; reflexivity]. Qed.
Print Assumptions C220_an_empty_filters_element_refuted.
Definition a_stream_filter (xml : list tok) : list tok :=
  element example_tag (element (Elem "" "stream-filter" []) (element (Elem "" "name" []) [Text "n"] ++ xml)).
Theorem C220_an_empty_subtree_filter_refuted :
  read_filters (parser_new (a_stream_filter [Empty (Elem "" "stream-subtree-filter" [])])) = Err EofError /\
  exists p, read_filters (parser_new (a_stream_filter (element (Elem "" "stream-subtree-filter" []) []))) = Ok (Filters [Filter "n" (Subtree [] [])] []) p.
Proof. split; [lazy; reflexivity|eexists; lazy; reflexivity]. Qed.
Print Assumptions C220_an_empty_subtree_filter_refuted.
Theorem C220_an_inner_element_of_the_same_name_refuted :
  read_filters (parser_new (a_stream_filter (element (Elem "" "stream-subtree-filter" [])
    (element (Elem "v" "stream-subtree-filter" [("v", "urn:v")]) [Text "1"] ++ element (Elem "v" "y" [("v", "urn:v")]) [])))) = Err WrongToken /\
  exists f p, read_filters (parser_new (a_stream_filter (element (Elem "" "stream-subtree-filter" [])
    (element (Elem "v" "x" [("v", "urn:v")]) [Text "1"] ++ element (Elem "v" "y" [("v", "urn:v")]) [])))) = Ok f p.
Proof. split; [lazy; reflexivity|do 2 eexists; lazy; reflexivity]. Qed.
Print Assumptions C220_an_inner_element_of_the_same_name_refuted.
Example C220_nonvacuous : filters_element example_tag /\
  extends [e_decls example_tag]
    (Comment :: events (Node (Elem "v" "filters" [("v", "urn:v")]) [Leaf (Text "1"); EmptyNode (Elem "v" "filters" [])]) ++
     element (Elem "" "stream-filter" []) (element (Elem "" "name" []) [] ++ element (Elem "" "stream-xpath-filter" []) []) ++ [])
    (Comment :: element (Elem "" "stream-filter" []) (element (Elem "" "name" []) [] ++ element (Elem "" "stream-xpath-filter" []) []) ++ []).
Proof.
  split; [split; reflexivity|]. apply ex_white; [exact I|]. apply ex_unknown; [cbn; tauto| |].
  - split; intros [H _]; discriminate.
  - apply ex_stream; [|constructor].
    replace (element (Elem "" "name" []) [] ++ element (Elem "" "stream-xpath-filter" []) [])
      with ([] ++ element (Elem "" "name" []) [] ++ [] ++ element (Elem "" "stream-xpath-filter" []) [] ++ []) by reflexivity.
    apply fd; [split; reflexivity|constructor|constructor|constructor| |].
    + eapply nd; [split; reflexivity|constructor].
    + eapply sd_xpath; [split; reflexivity|constructor].
Qed.
