(* Proofs about the YANG-Push filters of FxModel. *)
From Coq Require Import List Bool Arith String Ascii Lia.
From Verif Require Import FxModel FxSpec.
Import ListNotations.
Local Open Scope string_scope.
Local Open Scope list_scope.

Lemma append_nil_r s : (s ++ "")%string = s.
Proof. induction s; cbn; [|rewrite IHs]; reflexivity. Qed.
Lemma append_assoc' a b c : ((a ++ b) ++ c = a ++ (b ++ c))%string.
Proof. induction a; cbn; [|rewrite IHa]; reflexivity. Qed.
Lemma eqb_refl' s : String.eqb s s = true.
Proof. apply String.eqb_refl. Qed.

(* ---- XPath ---- *)
Lemma between_iff lo hi c : between lo hi c = true <-> lo <= nat_of_ascii c <= hi.
Proof. unfold between. rewrite andb_true_iff, !Nat.leb_le. tauto. Qed.
Lemma letter_iff c : name_start c = true <-> letter c.
Proof.
  unfold name_start, letter. rewrite !orb_true_iff, !between_iff, Ascii.eqb_eq. tauto.
Qed.
Lemma in_name_iff c : name_char c = true <-> in_name c.
Proof.
  unfold name_char, in_name. rewrite !orb_true_iff, letter_iff, between_iff, !Ascii.eqb_eq. tauto.
Qed.
Lemma letter_no_quote c : letter c -> c <> "'"%char /\ c <> """"%char /\ c <> ":"%char.
Proof.
  intros H. repeat split; intros ->; destruct H as [H|[H|H]]; vm_compute in H; try lia; discriminate.
Qed.
Lemma in_name_no_quote c : in_name c -> c <> "'"%char /\ c <> """"%char /\ c <> ":"%char.
Proof.
  intros [H|[H|[H|H]]].
  - exact (letter_no_quote _ H).
  - repeat split; intros ->; vm_compute in H; lia.
  - subst. repeat split; discriminate.
  - subst. repeat split; discriminate.
Qed.
Lemma ascii_neq a b : a <> b -> Ascii.eqb a b = false.
Proof. intros H. destruct (Ascii.eqb_spec a b); congruence. Qed.
Lemma plain_letter c : letter c -> plain c = Name (String c "").
Proof.
  intros H. destruct (letter_no_quote _ H) as (A & B & C). unfold plain.
  rewrite (ascii_neq _ _ A), (ascii_neq _ _ B). apply letter_iff in H. rewrite H. reflexivity.
Qed.
Lemma scan_rest n m s : all_chars in_name m -> xpath_prefixes (Name n) (m ++ s)%string = xpath_prefixes (Name (n ++ m)%string) s.
Proof.
  revert n. induction m as [|c m IH]; intros n H.
  - cbn [append]. rewrite append_nil_r. reflexivity.
  - destruct H as [Hc Hm]. cbn [append xpath_prefixes]. rewrite (proj2 (in_name_iff c) Hc), (IH _ Hm).
    rewrite append_assoc'. reflexivity.
Qed.
Lemma scan_name n s : ascii_name n -> xpath_prefixes Plain (n ++ s)%string = xpath_prefixes (Name n) s.
Proof.
  destruct n as [|c m]; [intros []|]. intros [Hc Hm]. cbn [append xpath_prefixes].
  rewrite (plain_letter _ Hc), (scan_rest _ _ _ Hm). reflexivity.
Qed.
Lemma scan_separated n s : separates s -> xpath_prefixes (Name n) s = xpath_prefixes Plain s.
Proof.
  destruct s as [|c s]; [reflexivity|]. intros [A B]. cbn [xpath_prefixes].
  destruct (name_char c) eqn:E; [apply in_name_iff in E; contradiction|].
  rewrite (ascii_neq _ _ B). reflexivity.
Qed.
Lemma scan_single s r : all_chars (fun c => c <> "'"%char) s ->
  xpath_prefixes Single (s ++ "'" ++ r)%string = xpath_prefixes Plain r.
Proof.
  induction s as [|c s IH]; intros H; [reflexivity|]. destruct H as [A B]. cbn [append xpath_prefixes].
  rewrite (ascii_neq _ _ A). exact (IH B).
Qed.
Lemma scan_double s r : all_chars (fun c => c <> """"%char) s ->
  xpath_prefixes Double (s ++ """" ++ r)%string = xpath_prefixes Plain r.
Proof.
  induction s as [|c s IH]; intros H; [reflexivity|]. destruct H as [A B]. cbn [append xpath_prefixes].
  rewrite (ascii_neq _ _ A). exact (IH B).
Qed.
Lemma colon_not_name : name_char ":" = false.
Proof. reflexivity. Qed.
Lemma scan_lexemes ls : well_formed ls -> xpath_prefixes Plain (render ls) = prefixes ls.
Proof.
  induction ls as [|l r IH]; [reflexivity|]. intros (A & B & C). specialize (IH C).
  cbn [render]. unfold prefixes in *. cbn [flat_map].
  destruct l as [n|p n|p|n|s|s|c]; cbn [render1 prefix_of well_formed1 ends_in_name app] in *.
  - rewrite (scan_name _ _ A), (scan_separated _ _ (B eq_refl)). exact IH.
  - destruct A as [A1 A2]. rewrite append_assoc', (scan_name _ _ A1). cbn [append xpath_prefixes].
    rewrite colon_not_name. cbn [Ascii.eqb Bool.eqb].
    destruct n as [|c m]; [destruct A2|].
    cbn [append]. change (String c (m ++ render r)%string) with (String c m ++ render r)%string.
    destruct A2 as [A3 A4]. destruct (letter_no_quote _ A3) as (_ & _ & D).
    rewrite (ascii_neq _ _ D), (scan_name (String c m) _ (conj A3 A4)), (scan_separated _ _ (B eq_refl)), IH. reflexivity.
  - rewrite append_assoc', (scan_name _ _ A). transitivity (p :: xpath_prefixes Plain (render r)); [reflexivity|]. rewrite IH. reflexivity.
  - rewrite append_assoc', (scan_name _ _ A). transitivity (xpath_prefixes Plain (render r)); [reflexivity|exact IH].
  - cbn. rewrite append_assoc'. rewrite (scan_single _ _ A). exact IH.
  - cbn. rewrite append_assoc'. rewrite (scan_double _ _ A). exact IH.
  - destruct A as (A1 & A2 & A3). cbn [append xpath_prefixes]. unfold plain.
    rewrite (ascii_neq _ _ A2), (ascii_neq _ _ A3).
    destruct (name_start c) eqn:E; [apply letter_iff in E; contradiction|]. exact IH.
Qed.
Lemma prefixes_not_empty ls : well_formed ls -> ~ In "" (prefixes ls).
Proof.
  induction ls as [|l r IH]; [intros _ []|]. intros (A & _ & C) H. unfold prefixes in H. cbn [flat_map] in H.
  apply in_app_or in H. destruct H as [H|H]; [|exact (IH C H)].
  destruct l; cbn in H; try contradiction; destruct H as [->|[]]; destruct A; contradiction.
Qed.

(* ---- text ---- *)
Definition text_like (t : tok) : Prop := match t with Start _ | Empty _ | End _ _ => False | _ => True end.
Lemma stands_leaf ts x : stands_for ts x -> Forall is_leaf ts.
Proof. induction 1; constructor; cbn; auto. Qed.
Lemma read_string_stands ts x acc a b r : stands_for ts x ->
  read_string (ts ++ End a b :: r) acc = RText (acc ++ x)%string (End a b :: r).
Proof.
  intros H. revert acc. induction H; intros acc; cbn [app read_string].
  - rewrite append_nil_r. reflexivity.
  - rewrite IHstands_for, append_assoc'. reflexivity.
  - rewrite IHstands_for, append_assoc'. reflexivity.
  - apply IHstands_for.
  - apply IHstands_for.
  - rewrite IHstands_for, append_assoc'. cbn [In] in H.
    repeat (destruct H as [H|H]; [injection H as <- <-; reflexivity|]). destruct H.
Qed.
Lemma escaped_head c r : special c = None ->
  escaped (String c r) = match escaped r with Text t :: ts => Text (String c t) :: ts | ts => Text (String c "") :: ts end.
Proof. intros H. cbn. rewrite H. reflexivity. Qed.
Lemma add_char c ts x : stands_for ts x ->
  stands_for (match ts with Text t :: ts => Text (String c t) :: ts | ts => Text (String c "") :: ts end) (String c x).
Proof.
  intros H. destruct H.
  - apply (sf_text (String c "") [] ""). constructor.
  - apply (sf_text (String c s) r x). assumption.
  - apply (sf_text (String c "") _ (s ++ x)%string). constructor. assumption.
  - apply (sf_text (String c "")). constructor. assumption.
  - apply (sf_text (String c "")). constructor. assumption.
  - apply (sf_text (String c "") _ (c0 ++ x)%string). constructor; assumption.
Qed.
Lemma escaped_stands s : stands_for (escaped s) s.
Proof.
  induction s as [|c r IH]; [constructor|]. cbn [escaped].
  unfold special. 
  destruct (Ascii.eqb_spec c "<"); [subst; apply (sf_ref "lt" "<"); [cbn; tauto|exact IH]|].
  destruct (Ascii.eqb_spec c ">"); [subst; apply (sf_ref "gt" ">"); [cbn; tauto|exact IH]|].
  destruct (Ascii.eqb_spec c "&"); [subst; apply (sf_ref "amp" "&"); [cbn; tauto|exact IH]|].
  destruct (Ascii.eqb_spec c "'"); [subst; apply (sf_ref "apos" "'"); [cbn; tauto|exact IH]|].
  destruct (Ascii.eqb_spec c """"); [subst; apply (sf_ref "quot" """"); [cbn; tauto|exact IH]|].
  pose proof (add_char c _ _ IH) as Q. destruct (escaped r) as [|[]]; exact Q.
Qed.

(* ---- trimming ---- *)
Lemma blank_iff c : blank c = true <-> is_blank c.
Proof.
  unfold blank, is_blank. rewrite orb_true_iff, between_iff, Ascii.eqb_eq. cbn [In].
  split.
  - intros [H| ->]; [lia|right; right; right; right; right; left; reflexivity].
  - intros H. assert (D : 9 <= nat_of_ascii c <= 13 \/ nat_of_ascii c = 32) by lia.
    destruct D as [D|D]; [tauto|right]. rewrite <- (ascii_nat_embedding c), D. reflexivity.
Qed.
Lemma trim_end_id s : (forall c r, s = (r ++ String c "")%string -> ~ is_blank c) -> trim_end s = s.
Proof.
  induction s as [|c r IH]; intros H; [reflexivity|]. cbn [trim_end].
  rewrite IH by (intros d q ->; apply (H d (String c q)); reflexivity).
  destruct r; [|reflexivity].
  destruct (blank c) eqn:E; [|reflexivity]. apply blank_iff in E. destruct (H c "" eq_refl E).
Qed.
Lemma trim_id s : no_outer_blanks s -> trim s = s.
Proof.
  intros [A B]. unfold trim. assert (D : trim_start s = s).
  { destruct s as [|c r]; [reflexivity|]. cbn. destruct (blank c) eqn:E; [|reflexivity].
    apply blank_iff in E. destruct (A c r eq_refl E). }
  rewrite D. exact (trim_end_id s B).
Qed.

(* ---- the parser in front of some events ---- *)
Lemma next_start e r o ps : next_event (at_events (Start e :: r) o ps) = at_events r (e_decls e :: o) ps.
Proof. reflexivity. Qed.
Lemma next_empty e r o ps : next_event (at_events (Empty e :: r) o ps) = at_events r o ps.
Proof. reflexivity. Qed.
Lemma next_end a b r o ps : next_event (at_events (End a b :: r) o ps) = at_events r (tl o) ps.
Proof. reflexivity. Qed.
Lemma next_leaf t r o ps : is_leaf t -> next_event (at_events (t :: r) o ps) = at_events r o ps.
Proof. destruct t; intros H; try destruct H; reflexivity. Qed.
Lemma skip_text_at ts o ps : skip_text (at_events ts o ps) = at_events (drop_text ts) o ps.
Proof. destruct ts as [|t r]; [reflexivity|]. destruct t; reflexivity. Qed.
Lemma drop_white b ts : Forall white b -> drop_text (b ++ ts) = drop_text ts.
Proof. induction 1 as [|t b H _ IH]; [reflexivity|]. destruct t; try destruct H; exact IH. Qed.
Lemma skip_text_white b ts o ps : Forall white b ->
  drop_text ts = ts -> skip_text (at_events (b ++ ts) o ps) = at_events ts o ps.
Proof. intros H D. rewrite skip_text_at, (drop_white _ _ H), D. reflexivity. Qed.
Lemma is_tag_start e r o ps ns key : named o e ns key -> is_tag (at_events (Start e :: r) o ps) ns key = true.
Proof.
  intros [A B]. unfold is_tag, at_events; cbn [toks]. unfold is_name. cbn [scopes enter]. rewrite B, A, !eqb_refl'. reflexivity.
Qed.
Lemma is_tag_other e r o ps ns key ns' key' : named o e ns key -> (ns <> ns' \/ key <> key') ->
  is_tag (at_events (Start e :: r) o ps) ns' key' = false.
Proof.
  intros [A B] D. unfold is_tag, at_events; cbn [toks]. unfold is_name. cbn [scopes enter]. rewrite B, A.
  destruct (String.eqb_spec key key'); [|reflexivity].
  destruct (String.eqb_spec ns ns'); [|reflexivity]. destruct D; contradiction.
Qed.
Lemma open_start e r o ps ns key : named o e ns key ->
  open (at_events (Start e :: r) o ps) ns key = Ok e (at_events r (e_decls e :: o) (true :: ps)).
Proof.
  intros H. unfold open. rewrite (is_tag_start _ _ _ _ _ _ H). reflexivity.
Qed.
Lemma close_end a b r o ps : close (at_events (End a b :: r) o (true :: ps)) = Ok tt (at_events r (tl o) ps).
Proof. reflexivity. Qed.
Lemma tag_string_at ts x a b r o ps : stands_for ts x ->
  tag_string (at_events (ts ++ End a b :: r) o (true :: ps)) = Ok x (at_events (End a b :: r) o (true :: ps)).
Proof.
  intros H. unfold tag_string. cbn [parent_has_child at_events parents toks].
  rewrite (read_string_stands _ _ _ _ _ _ H). cbn [append].
  destruct H; reflexivity.
Qed.
Lemma read_name_at ns key e ts x r o ps : named o e ns key -> stands_for ts x ->
  read_name ns key (at_events (element e ts ++ r) o ps) = Ok (trim x) (at_events r o ps).
Proof.
  intros A B. unfold read_name, element. cbn [app]. rewrite <- app_assoc. cbn [app].
  rewrite (open_start _ _ _ _ _ _ A). cbn [bind]. rewrite (tag_string_at _ _ _ _ _ _ _ B). cbn [bind].
  rewrite close_end. reflexivity.
Qed.
