From Coq Require Import NArith List Bool String Ascii Lia.
Import ListNotations.
From Verif Require Import CaModel CaSpec.
Open Scope N_scope.
Local Notation length := List.length.

Lemma is_white_spec c : is_white c = true <-> white c.
Proof.
  unfold is_white, white. split.
  - intro H. rewrite !orb_true_iff, !andb_true_iff, !N.eqb_eq, !N.leb_le in H.
    cbn [In]. lia.
  - cbn [In]. intro H.
    repeat (destruct H as [<-|H]; [reflexivity|]). destruct H.
Qed.
Lemma is_white_false c : is_white c = false <-> ~ white c.
Proof. rewrite <- is_white_spec. destruct (is_white c); split; congruence. Qed.

Lemma text_eqb_spec a b : text_eqb a b = true <-> a = b.
Proof.
  revert b; induction a as [|x a IH]; intros [|y b]; cbn; split; try congruence.
  - rewrite andb_true_iff, N.eqb_eq, IH. now intros [-> ->].
  - intro H; injection H as -> ->. rewrite andb_true_iff, N.eqb_eq, IH; auto.
Qed.
Lemma text_eqb_refl a : text_eqb a a = true.
Proof. now apply text_eqb_spec. Qed.

Lemma strip_spec p s r : strip_prefix p s = Some r <-> s = p ++ r.
Proof.
  revert s; induction p as [|x p IH]; intros s; cbn.
  - split; congruence.
  - destruct s as [|y s]; [split; discriminate|].
    destruct (x =? y) eqn:E.
    + apply N.eqb_eq in E; subst. rewrite IH. split; congruence.
    + apply N.eqb_neq in E. split; [discriminate|]. intro H; injection H; congruence.
Qed.
Lemma starts_spec p s : starts_with p s = true <-> exists r, s = p ++ r.
Proof.
  unfold starts_with. destruct (strip_prefix p s) as [r|] eqn:E.
  - apply strip_spec in E. split; eauto.
  - split; [discriminate|]. intros [r H]. apply strip_spec in H. congruence.
Qed.
Lemma starts_false p s : ~ (exists r, s = p ++ r) -> starts_with p s = false.
Proof. rewrite <- starts_spec. destruct (starts_with p s); tauto. Qed.

(* trimming *)
Lemma trim_start_app w s : blank w -> trim_start (w ++ s) = trim_start s.
Proof.
  induction 1 as [|c w Hc _ IH]; [reflexivity|]. cbn.
  apply is_white_spec in Hc. now rewrite Hc.
Qed.
Lemma trim_start_blank w : blank w -> trim_start w = [].
Proof. intro H. rewrite <- (app_nil_r w), trim_start_app by auto. reflexivity. Qed.
Lemma trim_start_eq s : exists w, blank w /\ s = w ++ trim_start s.
Proof.
  induction s as [|c s (w & Hw & E)]; [exists []; split; [constructor|reflexivity]|].
  cbn. destruct (is_white c) eqn:Ec.
  - exists (c :: w). split; [constructor; auto; now apply is_white_spec|]. cbn. congruence.
  - exists []. split; [constructor|reflexivity].
Qed.
Definition firm (s : text) : Prop := s = [] \/ exists c r, s = c :: r /\ ~ white c.
Lemma trim_start_firm s : firm s -> trim_start s = s.
Proof. intros [->|(c & r & -> & H)]; [reflexivity|]. cbn. apply is_white_false in H. now rewrite H. Qed.
Lemma trim_start_is_firm s : firm (trim_start s).
Proof.
  induction s as [|c s IH]; [now left|]. cbn. destruct (is_white c) eqn:E; auto.
  right. exists c, s. split; auto. now apply is_white_false.
Qed.
Lemma blank_rev w : blank w -> blank (rev w).
Proof. unfold blank. rewrite !Forall_forall. intros H x Hx. apply H. now apply in_rev. Qed.
Lemma trim_eq s : exists a b, blank a /\ blank b /\ s = a ++ trim s ++ b.
Proof.
  unfold trim. destruct (trim_start_eq s) as (a & Ha & Ea).
  destruct (trim_start_eq (rev (trim_start s))) as (b & Hb & Eb).
  exists a, (rev b). split; [auto|]. split; [now apply blank_rev|].
  rewrite Ea at 1. f_equal. apply (f_equal (@rev N)) in Eb.
  rewrite rev_involutive, rev_app_distr in Eb. exact Eb.
Qed.
Lemma trim_app a s b : blank a -> blank b -> firm s -> firm (rev s) -> s <> [] ->
  trim (a ++ s ++ b) = s.
Proof.
  intros Ha Hb F R NE. unfold trim. rewrite trim_start_app by auto.
  destruct F as [->|(c & r & -> & Hc)]; [congruence|].
  rewrite (trim_start_firm ((c :: r) ++ b)) by (right; exists c, (r ++ b); split; [reflexivity|exact Hc]).
  rewrite rev_app_distr, trim_start_app by now apply blank_rev.
  rewrite trim_start_firm by auto. apply rev_involutive.
Qed.
Lemma solid_firm s : solid s -> firm s.
Proof. intros [|c r H _]; [now left|]. right; eauto. Qed.
Lemma solid_rev s : solid s -> solid (rev s).
Proof. unfold solid. rewrite !Forall_forall. intros H x Hx. apply H. now apply in_rev. Qed.
Lemma trim_around a s b : blank a -> blank b -> solid s -> s <> [] ->
  trim (a ++ s ++ b) = s.
Proof. intros. apply trim_app; auto using solid_firm, solid_rev. Qed.
Lemma trim_solid s : solid s -> trim s = s.
Proof.
  intro H. destruct s as [|c r]; [reflexivity|].
  rewrite <- (trim_around [] (c :: r) []) at 2; auto; [now rewrite app_nil_r| | |discriminate]; constructor.
Qed.
Lemma in_trim c s : ~ white c -> In c s -> In c (trim s).
Proof.
  intros Hc Hi. destruct (trim_eq s) as (a & b & Ha & Hb & E).
  rewrite E, !in_app_iff in Hi. unfold blank in *. rewrite Forall_forall in Ha, Hb.
  destruct Hi as [Hi|[Hi|Hi]]; auto; exfalso; auto.
Qed.
Lemma solid_app a b : solid (a ++ b) <-> solid a /\ solid b.
Proof. apply Forall_app. Qed.

(* splitting *)
Lemma split_none c s : ~ In c s -> split c s = [s].
Proof.
  induction s as [|x r IH]; [reflexivity|]. cbn. intro H.
  destruct (x =? c) eqn:E; [apply N.eqb_eq in E; tauto|]. rewrite IH by tauto. reflexivity.
Qed.
Lemma split_app c a b : ~ In c a -> split c (a ++ c :: b) = a :: split c b.
Proof.
  induction a as [|x r IH]; cbn; intro H.
  - now rewrite N.eqb_refl.
  - destruct (x =? c) eqn:E; [apply N.eqb_eq in E; tauto|]. rewrite IH by tauto. reflexivity.
Qed.
Lemma split_join c l : l <> [] -> Forall (fun s => ~ In c s) l -> split c (join c l) = l.
Proof.
  intros NE H. induction H as [|x r Hx Hr IH]; [congruence|].
  destruct r as [|y r]; [now apply split_none|].
  change (join c (x :: y :: r)) with (x ++ c :: join c (y :: r)).
  rewrite split_app by auto. f_equal. apply IH. discriminate.
Qed.
Lemma split_shape c s : split c s <> [] /\ Forall (fun p => ~ In c p) (split c s)
  /\ join c (split c s) = s.
Proof.
  induction s as [|x r (NE & F & J)].
  - cbn. repeat split; auto; discriminate.
  - cbn [split]. destruct (x =? c) eqn:E.
    + apply N.eqb_eq in E; subst. split; [discriminate|]. split; [constructor; auto|].
      destruct (split c r) as [|h t]; [congruence|]. change (c :: join c (h :: t) = c :: r). congruence.
    + apply N.eqb_neq in E. destruct (split c r) as [|h t]; [congruence|].
      inversion F; subst. split; [discriminate|]. split.
      * constructor; auto. cbn. tauto.
      * destruct t as [|y t]; cbn in *; congruence.
Qed.
Lemma split_in c s p x : In p (split c s) -> In x p -> In x s.
Proof.
  revert p. induction s as [|y r IH]; cbn; intros p Hp Hx.
  - destruct Hp as [<-|[]]; auto.
  - destruct (y =? c).
    + destruct Hp as [<-|Hp]; [destruct Hx|]. right; eauto.
    + destruct (split c r) as [|h t] eqn:E.
      * destruct Hp as [<-|[]]. destruct Hx as [|[]]; auto.
      * destruct Hp as [<-|Hp].
        -- destruct Hx as [|Hx]; auto. right. apply (IH h); cbn; auto.
        -- right. apply (IH p); cbn; auto.
Qed.
Lemma split_once_spec c s a b :
  split_once c s = Some (a, b) <-> s = a ++ c :: b /\ ~ In c a.
Proof.
  revert a b; induction s as [|x r IH]; intros a b; cbn.
  - split; [discriminate|]. intros [H _]. destruct a; discriminate.
  - destruct (x =? c) eqn:E.
    + apply N.eqb_eq in E; subst. split.
      * intro H; injection H as <- <-. auto.
      * intros [H Hn]. destruct a as [|y a]; [injection H as ->; reflexivity|].
        injection H as -> ->. exfalso. apply Hn. now left.
    + apply N.eqb_neq in E. destruct (split_once c r) as [[a' b']|] eqn:E'.
      * pose proof (proj1 (IH a' b') eq_refl) as [-> Hn]. split.
        -- intro H; injection H as <- <-. split; auto. cbn. tauto.
        -- intros [H Hn']. destruct a as [|y a]; [injection H as H _; congruence|]; cbn in Hn'.
           injection H as -> H.
           assert (X : Some (a', b') = Some (a, b)) by (apply IH; split; [auto|tauto]).
           injection X as -> ->. reflexivity.
      * split; [discriminate|]. intros [H Hn]. destruct a as [|y a]; [injection H as H _; congruence|]; cbn in Hn.
        injection H as -> H. assert (X : None = Some (a, b)) by (apply IH; split; [auto|tauto]).
        discriminate.
Qed.
Lemma split_once_none c s : split_once c s = None <-> ~ In c s.
Proof.
  induction s as [|x r IH]; cbn; [tauto|].
  destruct (x =? c) eqn:E; [apply N.eqb_eq in E; split; [discriminate|tauto]|].
  apply N.eqb_neq in E. destruct (split_once c r) as [[a b]|]; split; intro H; try discriminate.
  - exfalso. assert (X : Some (a, b) = None) by (apply IH; tauto). discriminate.
  - pose proof (proj1 IH eq_refl). tauto.
  - reflexivity.
Qed.
Lemma split_once_app c a b : ~ In c a -> split_once c (a ++ c :: b) = Some (a, b).
Proof. intro. now apply split_once_spec. Qed.

Ltac noin := solve [let H := fresh in intro H; cbn in H; repeat (destruct H as [H|H]; [discriminate|]); destruct H].

Lemma solid_list s : forallb (fun c => negb (is_white c)) s = true -> solid s.
Proof.
  intro H. unfold solid. apply Forall_forall. intros x Hx. rewrite forallb_forall in H.
  apply H in Hx. apply is_white_false. now destruct (is_white x).
Qed.
Ltac sol := apply solid_list; reflexivity.

Section D.
Context {date : Type}.
Variable date_of : text -> option date.
Variable date_text : date -> text.

Lemma fixed_no_question s c : lookup (date:=date) s fixed = Some c -> ~ In question s.
Proof.
  assert (G : forall l : list (text * capability date),
             Forall (fun p => ~ In question (fst p)) l ->
             lookup s l = Some c -> ~ In question s).
  { induction 1 as [|[k v] l H _ IH]; cbn; [discriminate|].
    destruct (text_eqb s k) eqn:E; auto. apply text_eqb_spec in E; subst. intros _. exact H. }
  apply G. unfold fixed. repeat (constructor; [noin|]). constructor.
Qed.
Lemma lookup_question s : In question s -> lookup (date:=date) s fixed = None.
Proof. intro H. destruct (lookup s fixed) eqn:E; auto. apply fixed_no_question in E. tauto. Qed.

Lemma question_solid : ~ white question.
Proof. apply is_white_false. reflexivity. Qed.

Lemma lookup_in s c : lookup (date:=date) s fixed = Some c ->
  (exists k, c = Standard k /\ (forall l, k <> Url l) /\ s = registered k)
  \/ (exists v, c = NetconfBase v /\ s = base_name v).
Proof.
  unfold fixed. cbn [lookup]. intro H.
  repeat match type of H with
  | (if text_eqb s ?x then _ else _) = _ =>
      destruct (text_eqb s x) eqn:?E;
      [ apply text_eqb_spec in E; injection H as <-; subst s;
        first [ left; eexists; split; [reflexivity|]; split; [discriminate|reflexivity]
              | right; eexists; split; [reflexivity|reflexivity] ] | clear E ]
  end. discriminate.
Qed.

Lemma lookup_standard k : (forall l, k <> Url l) ->
  lookup (date:=date) (registered k) fixed = Some (Standard k).
Proof. intro H. destruct k; try reflexivity. exfalso. eapply H. reflexivity. Qed.
Lemma lookup_base v : lookup (date:=date) (base_name v) fixed = Some (NetconfBase v).
Proof. destruct v; reflexivity. Qed.

Lemma registered_solid k : solid (registered k).
Proof. destruct k; sol. Qed.
Lemma base_solid v : solid (base_name v).
Proof. destruct v; sol. Qed.

Lemma fixed_around a b s c : blank a -> blank b -> solid s -> s <> [] ->
  lookup s fixed = Some c -> from_str date_of (a ++ s ++ b) = Ok c.
Proof. intros Ha Hb S NE L. unfold from_str. rewrite trim_around by auto. now rewrite L. Qed.

(* ---- url ---- *)
Lemma scheme_text_name k : scheme_text k = lit (scheme_name k).
Proof. destruct k; reflexivity. Qed.
Lemma scheme_of_text k : scheme_of (scheme_text k) = Some k.
Proof. destruct k; reflexivity. Qed.
Lemma scheme_of_inv s k : scheme_of s = Some k -> s = scheme_text k.
Proof.
  unfold scheme_of. intro H.
  repeat match type of H with
  | (if text_eqb s ?x then _ else _) = _ =>
      destruct (text_eqb s x) eqn:?E;
      [ apply text_eqb_spec in E; injection H as <-; subst s; reflexivity | clear E ]
  end. discriminate.
Qed.
Lemma schemes_of_text l : schemes_of (map scheme_text l) = Some l.
Proof. induction l as [|k l IH]; cbn [map schemes_of]; [reflexivity|]. now rewrite scheme_of_text, IH. Qed.
Lemma schemes_of_inv l ks : schemes_of l = Some ks -> l = map scheme_text ks.
Proof.
  revert ks; induction l as [|x l IH]; cbn [schemes_of]; intros ks H.
  - injection H as <-. reflexivity.
  - destruct (scheme_of x) eqn:E; [|discriminate]. destruct (schemes_of l); [|discriminate].
    injection H as <-. cbn [map]. rewrite <- (IH l0) by auto. now rewrite (scheme_of_inv _ _ E).
Qed.
Lemma schemes_no_comma l : Forall (fun s => ~ In 44 s) (map scheme_text l).
Proof. induction l as [|k l IH]; cbn [map]; constructor; auto. destruct k; noin. Qed.
Lemma comma_list_join l : l <> [] -> comma_list l (join 44 (map scheme_text l)).
Proof.
  induction l as [|k l IH]; [congruence|]. intros _. destruct l as [|k' l].
  - cbn [map join]. rewrite scheme_text_name. constructor.
  - change (join 44 (map scheme_text (k :: k' :: l)))
      with (scheme_text k ++ 44 :: join 44 (map scheme_text (k' :: l))).
    rewrite scheme_text_name. change (44 :: ?x) with (lit "," ++ x). constructor. apply IH. discriminate.
Qed.
Lemma comma_list_inv l s : comma_list l s -> l <> [] /\ s = join 44 (map scheme_text l).
Proof.
  induction 1 as [k|k l s _ [NE IH]]; split; try discriminate.
  - cbn [map join]. now rewrite scheme_text_name.
  - destruct l as [|k' l]; [congruence|].
    change (join 44 (map scheme_text (k :: k' :: l)))
      with (scheme_text k ++ 44 :: join 44 (map scheme_text (k' :: l))).
    rewrite <- IH, scheme_text_name. reflexivity.
Qed.
Lemma join_solid c l : ~ white c -> Forall solid l -> solid (join c l).
Proof.
  intros Hc H. induction H as [|x l Hx Hl IH]; [constructor|].
  destruct l as [|y l]; [exact Hx|].
  change (join c (x :: y :: l)) with (x ++ c :: join c (y :: l)).
  apply solid_app. split; auto. constructor; auto.
Qed.
Lemma schemes_solid l : solid (join 44 (map scheme_text l)).
Proof.
  apply join_solid; [now apply is_white_false|].
  induction l as [|k l IH]; cbn [map]; constructor; auto. destruct k; sol.
Qed.

Lemma app_starts p a s : starts_with p ((p ++ a) ++ s) = true.
Proof. apply starts_spec. exists (a ++ s). now rewrite app_assoc. Qed.

Lemma app_starts' p a s : starts_with (lit p) ((lit p ++ a) ++ s) = true.
Proof. apply starts_spec. exists (a ++ s). now rewrite app_assoc. Qed.

Lemma url_text l : standard_text (Url l) =
  CAP_URL ++ lit "?scheme=" ++ join 44 (map scheme_text l).
Proof. reflexivity. Qed.

Lemma url_read l w : l <> [] -> blank w ->
  from_str date_of (standard_text (Url l) ++ w) = Ok (Standard (Url l)).
Proof.
  intros NE Hw. unfold from_str.
  assert (S : solid (standard_text (Url l))).
  { rewrite url_text. apply solid_app; split; [sol|]. apply solid_app; split; [sol|].
    apply schemes_solid. }
  replace (trim (standard_text (Url l) ++ w)) with (standard_text (Url l))
    by (symmetry; apply (trim_around [] (standard_text (Url l)) w); auto; [constructor|discriminate]).
  rewrite lookup_question by (rewrite url_text, in_app_iff; right; left; reflexivity).
  rewrite (proj2 (starts_spec CAP_URL (standard_text (Url l) ++ w)))
    by (rewrite url_text, <- app_assoc; eauto).
  rewrite url_text. unfold parse_url.
  rewrite (proj2 (strip_spec _ _ _) eq_refl). rewrite (proj2 (strip_spec _ _ _) eq_refl).
  rewrite split_join by (auto using schemes_no_comma; destruct l; cbn; congruence).
  now rewrite schemes_of_text.
Qed.

(* ---- the library ---- *)
Notation LIB v := (match v with V1_0 => CAP_LIB_1_0 | V1_1 => CAP_LIB_1_1 end).
Notation KEY v := (match v with V1_0 => lit "module-set-id" | V1_1 => lit "content-id" end).
Lemma lib_text v d id : to_text date_text (YangLibrary v d id) =
  LIB v ++ lit "?" ++ (lit "revision=" ++ date_text d) ++ 38 :: KEY v ++ lit "=" ++ id.
Proof. destruct v; reflexivity. Qed.

Lemma from_lib v s : In question s -> starts_with (LIB v) s = true ->
  from_str date_of s = parse_lib date_of v (LIB v) (KEY v) s.
Proof.
  intros Q H. unfold from_str.
  rewrite lookup_question by (apply in_trim; auto using question_solid).
  apply starts_spec in H. destruct H as [r ->]. destruct v; reflexivity.
Qed.

Lemma eqb_app_false (a b : text) x : text_eqb a b = true -> text_eqb a b = x -> x = true.
Proof. congruence. Qed.

Lemma lib_read v d id : good_dates date_of date_text -> ~ In ampersand id ->
  from_str date_of (to_text date_text (YangLibrary v d id)) = Ok (YangLibrary v d id).
Proof.
  intros G Hid. destruct (G d) as (G1 & G2 & G3). rewrite lib_text.
  rewrite from_lib with (v := v);
    [ | rewrite in_app_iff; right; left; reflexivity | apply starts_spec; eauto ].
  unfold parse_lib. rewrite !(proj2 (strip_spec _ _ _) eq_refl).
  rewrite split_app by (rewrite in_app_iff; intros [H|H]; [revert H; noin|auto]).
  rewrite split_none by (rewrite !in_app_iff; intros [H|[H|H]];
    [destruct v; revert H; noin|revert H; noin|auto]).
  cbn [lib_params].
  change (lit "revision=" ++ date_text d) with (lit "revision" ++ 61 :: date_text d).
  change (lit "=" ++ id) with (61 :: id).
  rewrite split_once_app by noin. rewrite text_eqb_refl, G1.
  rewrite split_once_app by (destruct v; noin). rewrite text_eqb_refl.
  destruct v; reflexivity.
Qed.

(* ---- modules ---- *)
Lemma starts_app p a b : starts_with p (a ++ b) = true -> ~ In question p ->
  ~ In question a -> (exists b', b = question :: b') ->
  starts_with p a = true.
Proof.
  revert a; induction p as [|x p IH]; intros a H Hp Ha (b' & ->); [reflexivity|].
  destruct a as [|y a].
  - exfalso. cbn in H. unfold starts_with in H. cbn [strip_prefix app] in H.
    destruct (x =? question) eqn:E; [|discriminate]. apply N.eqb_eq in E. apply Hp. now left.
  - unfold starts_with in *. cbn [strip_prefix app] in *.
    destruct (x =? y); [|discriminate]. apply IH; auto.
    + intro; apply Hp; now right.
    + intro; apply Ha; now right.
    + eauto.
Qed.

Lemma reserved_false u q : ~ reserved u -> ~ In question u ->
  starts_with CAP_URL (u ++ question :: q) = false
  /\ starts_with CAP_LIB_1_0 (u ++ question :: q) = false
  /\ starts_with CAP_LIB_1_1 (u ++ question :: q) = false.
Proof.
  intros R Hq.
  assert (X : forall p, ~ In question p -> starts_with p u = false ->
              starts_with p (u ++ question :: q) = false).
  { intros p Hp Hu. destruct (starts_with p (u ++ question :: q)) eqn:E; auto.
    apply starts_app in E; eauto. }
  unfold reserved, begins in R.
  repeat split; apply X; try noin; apply starts_false; intros [r Hr]; apply R; eauto.
Qed.

Lemma web_true u s : web_name u ->
  starts_with (lit "urn") (u ++ s) || starts_with (lit "http://") (u ++ s)
    || starts_with (lit "https://") (u ++ s) = true.
Proof.
  intros [[r ->]|[[r ->]|[r ->]]]; rewrite app_starts; rewrite ?orb_true_r; reflexivity.
Qed.

(* around a name with a query *)
Lemma from_query a u q b : blank a -> blank b -> web_name u -> ~ reserved u ->
  solid u -> ~ In question u -> solid q -> (a = [] \/ True) ->
  from_str date_of (a ++ (u ++ question :: q) ++ b)
  = parse_yang date_of (a ++ (u ++ question :: q) ++ b) (u ++ question :: q).
Proof.
  intros Ha Hb W R Su Hu Sq _. unfold from_str.
  rewrite trim_around; auto.
  2:{ apply solid_app; split; auto. constructor; auto. apply question_solid. }
  2:{ destruct u; discriminate. }
  rewrite lookup_question by (rewrite in_app_iff; right; now left).
  assert (N : forall p, ~ In question p -> p <> [] ->
     solid p -> starts_with p (u ++ question :: q) = false ->
     starts_with p (a ++ (u ++ question :: q) ++ b) = false).
  { intros p Hp NE Sp Hs. destruct a as [|c a].
    - destruct (starts_with p ([] ++ (u ++ question :: q) ++ b)) eqn:E; auto.
      cbn [app] in E. rewrite <- app_assoc in E. cbn [app] in E.
      apply starts_app in E; eauto. apply starts_spec in E. destruct E as [r ->].
      rewrite <- app_assoc in Hs.
      assert (starts_with p (p ++ r ++ question :: q) = true) by (apply starts_spec; eauto).
      congruence.
    - apply starts_false. intros [r Hr]. destruct p as [|x p]; [congruence|].
      injection Hr as -> _. inversion Ha; inversion Sp; subst. auto. }
  destruct (reserved_false u q R Hu) as (R1 & R2 & R3).
  rewrite !N by (first [assumption | discriminate | noin | sol]).
  rewrite web_true by auto. reflexivity.
Qed.

Lemma written_solid name revision features deviations :
  good_dates date_of date_text -> solid name ->
  Forall solid features -> Forall solid deviations ->
  solid (join 38 (yang_written date_text name revision features deviations)).
Proof.
  intros G Sn Sf Sd. apply join_solid; [now apply is_white_false|].
  unfold yang_written. apply Forall_app; split;
    [|apply Forall_app; split; [|apply Forall_app; split]].
  - constructor; auto. apply solid_app; split; [sol|auto].
  - destruct revision as [d|]; constructor; auto. apply solid_app; split; [sol|]. apply G.
  - destruct features; constructor; auto. apply solid_app; split; [sol|].
    apply join_solid; auto. now apply is_white_false.
  - destruct deviations; constructor; auto. apply solid_app; split; [sol|].
    apply join_solid; auto. now apply is_white_false.
Qed.

Definition no38 (s : text) := ~ In 38 s.
Lemma no38_app a b : no38 a -> no38 b -> no38 (a ++ b).
Proof. unfold no38. rewrite in_app_iff. tauto. Qed.
Lemma no38_join l : Forall no38 l -> no38 (join 44 l).
Proof.
  induction 1 as [|x l Hx Hl IH]; [intros []|]. destruct l as [|y l]; [exact Hx|].
  change (join 44 (x :: y :: l)) with (x ++ 44 :: join 44 (y :: l)).
  apply no38_app; auto. intros [H|H]; [discriminate|]. now apply IH.
Qed.
Lemma written_no38 name revision features deviations :
  good_dates date_of date_text -> no38 name ->
  Forall no38 features -> Forall no38 deviations ->
  Forall no38 (yang_written date_text name revision features deviations).
Proof.
  intros G Sn Sf Sd. unfold yang_written. apply Forall_app; split;
    [|apply Forall_app; split; [|apply Forall_app; split]].
  - constructor; auto. apply no38_app; [noin|auto].
  - destruct revision as [d|]; constructor; auto. apply no38_app; [noin|]. apply G.
  - destruct features; constructor; auto. apply no38_app; [noin|]. now apply no38_join.
  - destruct deviations; constructor; auto. apply no38_app; [noin|]. now apply no38_join.
Qed.

Lemma params_module v r g : yang_params date_of ((lit "module=" ++ v) :: r) g =
  yang_params date_of r (mk_gathered (Some v) (g_revision g) (g_features g) (g_deviations g)).
Proof.
  cbn [yang_params]. change (lit "module=" ++ v) with (lit "module" ++ 61 :: v).
  rewrite split_once_app by noin. reflexivity.
Qed.
Lemma params_features v r g : yang_params date_of ((lit "features=" ++ v) :: r) g =
  yang_params date_of r (mk_gathered (g_name g) (g_revision g) (split 44 v) (g_deviations g)).
Proof.
  cbn [yang_params]. change (lit "features=" ++ v) with (lit "features" ++ 61 :: v).
  rewrite split_once_app by noin. reflexivity.
Qed.
Lemma params_deviations v r g : yang_params date_of ((lit "deviations=" ++ v) :: r) g =
  yang_params date_of r (mk_gathered (g_name g) (g_revision g) (g_features g) (split 44 v)).
Proof.
  cbn [yang_params]. change (lit "deviations=" ++ v) with (lit "deviations" ++ 61 :: v).
  rewrite split_once_app by noin. reflexivity.
Qed.
Lemma params_revision d r g : good_dates date_of date_text ->
  yang_params date_of ((lit "revision=" ++ date_text d) :: r) g =
  yang_params date_of r (mk_gathered (g_name g) (Some d) (g_features g) (g_deviations g)).
Proof.
  intro G. cbn [yang_params].
  change (lit "revision=" ++ date_text d) with (lit "revision" ++ 61 :: date_text d).
  rewrite split_once_app by noin. rewrite (proj1 (G d)). reflexivity.
Qed.

Definition no44 (s : text) := ~ In 44 s.

Lemma yang_read_gen s urn name revision features deviations :
  good_dates date_of date_text -> ~ In question urn -> no38 name ->
  Forall no38 features -> Forall no38 deviations ->
  Forall no44 features -> Forall no44 deviations ->
  parse_yang date_of s
    (urn ++ question :: join 38 (yang_written date_text name revision features deviations))
  = Ok (Yang urn name revision features deviations).
Proof.
  intros G U N F D F4 D4. unfold parse_yang. rewrite split_once_app by auto.
  rewrite split_join; [|discriminate|now apply written_no38].
  unfold yang_written. cbn [app]. rewrite params_module. cbn [g_revision g_features g_deviations].
  destruct revision as [d|]; cbn [app]; [rewrite params_revision by auto|]; cbn [g_name g_features g_deviations].
  all: destruct features as [|f fs]; cbn [app]; [|rewrite params_features];
       cbn [g_name g_revision g_deviations];
       (destruct deviations as [|v vs]; [|rewrite params_deviations]);
       cbn [yang_params g_name g_revision g_features g_deviations];
       rewrite ?split_join by (auto; discriminate); reflexivity.
Qed.

Lemma yang_read a b urn name revision features deviations :
  good_dates date_of date_text -> blank a -> blank b ->
  sayable (Yang urn name revision features deviations) ->
  from_str date_of (a ++ to_text date_text (Yang urn name revision features deviations) ++ b)
  = Ok (Yang urn name revision features deviations).
Proof.
  intros G Ha Hb (W & R & Su & Qu & Sn & An & F & D).
  cbn [to_text]. change (lit "?" ++ ?x) with (question :: x).
  assert (X : forall l, Forall item l -> Forall solid l /\ Forall no38 l /\ Forall no44 l).
  { intros l H. repeat split; (eapply Forall_impl; [|exact H]); intros x Hx; apply Hx. }
  destruct (X _ F) as (F1 & F2 & F3). destruct (X _ D) as (D1 & D2 & D3).
  rewrite from_query; auto; [|now apply written_solid].
  apply yang_read_gen; auto.
Qed.

Lemma custom_kept s : (forall w r, s = w ++ r -> blank w -> ~ web_name r) ->
  from_str date_of s = Ok (Custom s).
Proof.
  intro H. destruct (trim_start_eq s) as (w & Hw & E).
  pose proof (H w _ E Hw) as H1.
  pose proof (H [] s eq_refl (Forall_nil _)) as H0.
  assert (T : forall p, p <> [] -> (forall c, In c p -> ~ white c) ->
     starts_with p (trim s) = true -> exists r, trim_start s = p ++ r).
  { intros p _ _ Hs. apply starts_spec in Hs. destruct Hs as [r Hr].
    destruct (trim_start_eq (rev (trim_start s))) as (b & Hb & Eb).
    apply (f_equal (@rev N)) in Eb. rewrite rev_involutive, rev_app_distr in Eb.
    change (rev (trim_start (rev (trim_start s)))) with (trim s) in Eb.
    rewrite Hr, <- app_assoc in Eb. eauto. }
  assert (U : ~ web_name (trim s)).
  { intro W. apply H1. destruct W as [W|[W|W]]; unfold begins in W;
      (eapply starts_spec in W; apply T in W;
        [ | discriminate
          | intros c Hc; apply is_white_false; revert c Hc; apply Forall_forall; repeat constructor ]);
      [left|right; left|right; right]; exact W. }
  unfold from_str.
  destruct (lookup (trim s) fixed) as [c|] eqn:L.
  { exfalso. apply U. left. apply lookup_in in L.
    destruct L as [(k & _ & _ & ->)|(v & _ & ->)]; unfold registered, base_name;
      eexists; change (lit "urn:ietf:params:netconf:capability:") with (lit "urn" ++ lit ":ietf:params:netconf:capability:");
      change (lit "urn:ietf:params:netconf:base:") with (lit "urn" ++ lit ":ietf:params:netconf:base:");
      rewrite <- app_assoc; reflexivity. }
  assert (P : forall p, starts_with (lit "urn" ++ p) s = false).
  { intro p. apply starts_false. intros [r Hr]. apply H0. left. exists (p ++ r).
    now rewrite app_assoc. }
  change CAP_URL with (lit "urn" ++ lit ":ietf:params:netconf:capability:url:1.0").
  change CAP_LIB_1_0 with (lit "urn" ++ lit ":ietf:params:netconf:capability:yang-library:1.0").
  change CAP_LIB_1_1 with (lit "urn" ++ lit ":ietf:params:netconf:capability:yang-library:1.1").
  rewrite !P.
  rewrite !starts_false; [reflexivity| | |]; intro W; apply U;
    [right; right|right; left|left]; exact W.
Qed.

Theorem to_text_read c : good_dates date_of date_text -> sayable c ->
  from_str date_of (to_text date_text c) = Ok c.
Proof.
  intros G W. destruct c as [v|v d id|k|urn name revision features deviations|s].
  - destruct v; reflexivity.
  - now apply lib_read.
  - destruct k; try reflexivity. destruct l as [|k l]; [destruct W|].
    rewrite <- (app_nil_r (to_text _ _)). apply url_read; [discriminate|constructor].
  - rewrite <- (app_nil_l (to_text _ _)), <- (app_nil_r (to_text _ _)).
    apply yang_read; auto; constructor.
  - now apply custom_kept.
Qed.

(* ---- what was read ---- *)
Lemma lead x p s a t : ~ white x -> starts_with (x :: p) s = true -> s = a ++ t ->
  blank a -> a = [].
Proof.
  intros Hx Hs -> Ha. destruct a as [|c a]; auto. exfalso.
  unfold starts_with in Hs. cbn [strip_prefix app] in Hs.
  destruct (x =? c) eqn:E; [|discriminate]. apply N.eqb_eq in E; subst c.
  inversion Ha; subst. auto.
Qed.

Lemma url_inv s c : starts_with CAP_URL s = true -> parse_url (date:=date) (trim s) = Ok c ->
  exists l w, l <> [] /\ blank w /\ c = Standard (Url l) /\ s = standard_text (Url l) ++ w.
Proof.
  unfold parse_url. intros Hs H.
  destruct (strip_prefix CAP_URL (trim s)) as [x|] eqn:E1; [|discriminate].
  destruct (strip_prefix (lit "?scheme=") x) as [y|] eqn:E2; [|discriminate].
  destruct (schemes_of (split 44 y)) as [ks|] eqn:E3; [|discriminate].
  injection H as <-. apply strip_spec in E1, E2. subst x.
  pose proof (split_shape 44 y) as (NE & _ & J).
  apply schemes_of_inv in E3. rewrite E3 in J, NE.
  destruct (trim_eq s) as (a & b & Ha & Hb & E).
  assert (a = []).
  { apply (lead 117 (lit "rn:ietf:params:netconf:capability:url:1.0") s a (trim s ++ b)); auto.
    now apply is_white_false. }
  subst a. exists ks, b. split; [destruct ks; cbn in NE; congruence|]. split; auto. split; auto.
  rewrite E, E1, <- J. rewrite url_text. cbn [app]. now rewrite <- !app_assoc.
Qed.

Lemma lib_params_id key ps r0 i0 r i :
  lib_params date_of key ps r0 i0 = inr (r, Some i) ->
  i0 = Some i \/ exists p x, In p ps /\ p = x ++ i.
Proof.
  revert r0 i0; induction ps as [|p ps IH]; cbn [lib_params]; intros r0 i0 H.
  - injection H as _ H. auto.
  - destruct (split_once 61 p) as [[k v]|] eqn:E.
    + destruct (text_eqb k (lit "revision")).
      * destruct (date_of v); [|discriminate]. apply IH in H.
        destruct H as [|(q & x & Hq & ->)]; auto. right. exists (x ++ i), x. split; auto. now right.
      * destruct (text_eqb k key); [|discriminate]. apply IH in H.
        destruct H as [H|(q & x & Hq & ->)].
        -- injection H as ->. right. apply split_once_spec in E. destruct E as [-> _].
           exists (k ++ 61 :: i), (k ++ [61]). split; [now left|]. now rewrite <- app_assoc.
        -- right. exists (x ++ i), x. split; auto. now right.
    + apply IH in H. destruct H as [|(q & x & Hq & ->)]; auto.
      right. exists (x ++ i), x. split; auto. now right.
Qed.

Lemma lib_inv v p key s c : parse_lib date_of v p key s = Ok c ->
  exists d id, c = YangLibrary v d id /\ ~ In ampersand id.
Proof.
  unfold parse_lib. destruct (strip_prefix p s) as [x|]; [|discriminate].
  destruct (strip_prefix (lit "?") x) as [y|]; [|discriminate].
  destruct (lib_params date_of key (split 38 y) None None) as [e|[[d|] [id|]]] eqn:E;
    try discriminate.
  intro H; injection H as <-. exists d, id. split; auto.
  apply lib_params_id in E. destruct E as [E|(q & w & Hq & ->)]; [discriminate|].
  destruct (split_shape 38 y) as (_ & F & _). rewrite Forall_forall in F.
  intro Hi. apply (F _ Hq). apply in_app_iff. now right.
Qed.

Definition gathered_ok (P : text -> Prop) (g : gathered date) : Prop :=
  (forall n, g_name g = Some n -> P n) /\
  Forall (fun s => P s /\ no44 s) (g_features g) /\
  Forall (fun s => P s /\ no44 s) (g_deviations g).

Lemma yang_params_ok (P : text -> Prop) ps g g' :
  (forall p x i y, In p ps -> p = x ++ i ++ y -> P i) -> gathered_ok P g ->
  yang_params date_of ps g = inr (Some g') -> gathered_ok P g'.
Proof.
  intros HP. revert g; induction ps as [|p ps IH]; cbn [yang_params]; intros g Hg H.
  - injection H as <-. exact Hg.
  - assert (IH' : forall g, gathered_ok P g -> yang_params date_of ps g = inr (Some g') -> gathered_ok P g').
    { intros g0. apply IH. intros q x i y Hq. apply HP. now right. }
    destruct (split_once 61 p) as [[k v]|] eqn:E; [|now apply IH' in H].
    apply split_once_spec in E. destruct E as [-> _].
    assert (Pv : P v) by (eapply (HP _ (k ++ [61]) v []); [now left|]; now rewrite app_nil_r, <- app_assoc).
    assert (Ps : Forall (fun s => P s /\ no44 s) (split 44 v)).
    { destruct (split_shape 44 v) as (_ & F & _). rewrite Forall_forall in *. intros q Hq.
      split; [|now apply F].
      assert (X : exists x y, v = x ++ q ++ y).
      { clear - Hq. revert q Hq; induction v as [|c v IH]; cbn; intros q Hq.
        - destruct Hq as [<-|[]]. exists [], []. reflexivity.
        - destruct (c =? 44).
          + destruct Hq as [<-|Hq]; [exists [], (c :: v); reflexivity|].
            apply IH in Hq. destruct Hq as (x & y & ->). exists (c :: x), y. reflexivity.
          + pose proof (split_shape 44 v) as (NE & _ & J).
            destruct (split 44 v) as [|h t]; [congruence|].
            destruct Hq as [<-|Hq].
            * destruct t as [|h' t]; [exists [], []; cbn in J |- *; rewrite app_nil_r; congruence|].
              exists [], (44 :: join 44 (h' :: t)). change (join 44 (h :: h' :: t)) with (h ++ 44 :: join 44 (h' :: t)) in J.
              cbn [app]. now rewrite J.
            * destruct (IH q (or_intror Hq)) as (x & y & ->). exists (c :: x), y. reflexivity. }
      destruct X as (x & y & ->).
      eapply (HP _ (k ++ 61 :: x) q y); [now left|]. rewrite <- !app_assoc. reflexivity. }
    destruct Hg as (G1 & G2 & G3).
    destruct (text_eqb k (lit "module")).
    { apply IH' in H; auto. split; [|split]; auto. cbn. intros n Hn. congruence. }
    destruct (text_eqb k (lit "revision")).
    { destruct (date_of v); [|discriminate]. apply IH' in H; auto. split; [|split]; auto. }
    destruct (text_eqb k (lit "features")).
    { apply IH' in H; auto. split; [|split]; auto. }
    destruct (text_eqb k (lit "deviations")); [|discriminate].
    apply IH' in H; auto. split; [|split]; auto.
Qed.

Lemma starts_web s : starts_with (lit "urn") s || starts_with (lit "http://") s
    || starts_with (lit "https://") s = true -> web_name s.
Proof.
  rewrite !orb_true_iff. unfold web_name, begins. rewrite !starts_spec. tauto.
Qed.

Lemma web_prefix u q : web_name (u ++ question :: q) -> ~ In question u -> web_name u.
Proof.
  intros W Hu. unfold web_name, begins in *.
  rewrite <- !starts_spec in *.
  destruct W as [W|[W|W]]; apply starts_app in W; auto; try noin; eauto.
Qed.

Theorem read_again s c : good_dates date_of date_text -> solid s ->
  from_str date_of s = Ok c -> from_str date_of (to_text date_text c) = Ok c.
Proof.
  intros G S H. pose proof H as H0. unfold from_str in H. rewrite (trim_solid s S) in H.
  destruct (lookup s fixed) as [c0|] eqn:L.
  { injection H as <-. apply lookup_in in L.
    destruct L as [(k & -> & Hk & ->)|(v & -> & ->)]; apply to_text_read; auto; cbn; auto.
    destruct k; auto. exfalso. eapply Hk. reflexivity. }
  destruct (starts_with CAP_URL s) eqn:U.
  { rewrite <- (trim_solid s S) in H at 1. apply url_inv in H; auto.
    destruct H as (l & w & NE & _ & -> & _). apply to_text_read; auto.
    destruct l; cbn; auto. }
  destruct (starts_with CAP_LIB_1_0 s) eqn:L0.
  { apply lib_inv in H. destruct H as (d & id & -> & Hi). now apply to_text_read. }
  destruct (starts_with CAP_LIB_1_1 s) eqn:L1.
  { apply lib_inv in H. destruct H as (d & id & -> & Hi). now apply to_text_read. }
  destruct (starts_with (lit "urn") s || starts_with (lit "http://") s
    || starts_with (lit "https://") s) eqn:W; [|injection H as <-; exact H0].
  unfold parse_yang in H. destruct (split_once 63 s) as [[u q]|] eqn:Q;
    [|injection H as <-; exact H0].
  apply split_once_spec in Q. destruct Q as [-> Hu].
  destruct (yang_params date_of (split 38 q) (mk_gathered None None [] [])) as [e|[g|]] eqn:Y;
    [discriminate| |injection H as <-; exact H0].
  destruct (g_name g) as [n|] eqn:Gn; [|discriminate]. injection H as <-.
  apply solid_app in S. destruct S as [Su Sq].
  apply yang_params_ok with (P := fun s => solid s /\ no38 s) in Y.
  2:{ intros p x i y Hp ->. destruct (split_shape 38 q) as (_ & F & _).
      rewrite Forall_forall in F. specialize (F _ Hp). split.
      - inversion Sq as [|? ? _ Sq']; subst. unfold solid in *. rewrite Forall_forall in *.
        intros z Hz. apply Sq'. eapply split_in; eauto. rewrite !in_app_iff. auto.
      - intro Hi. apply F. rewrite !in_app_iff. auto. }
  2:{ split; [|split]; cbn; auto; discriminate. }
  destruct Y as (Y1 & Y2 & Y3). apply to_text_read; auto. cbn [sayable].
  assert (I : forall l, Forall (fun s => (solid s /\ no38 s) /\ no44 s) l -> Forall item l).
  { intros l. apply Forall_impl. intros x [[? ?] ?]. repeat split; auto. }
  split; [eapply web_prefix; [apply starts_web; exact W|exact Hu]|].
  split.
  { unfold reserved, begins. intros [[r Hr]|[[r Hr]|[r Hr]]]; subst u;
      [change CAP_URL with (lit "urn:ietf:params:netconf:capability:url:1.0") in U; rewrite app_starts' in U|change CAP_LIB_1_0 with (lit "urn:ietf:params:netconf:capability:yang-library:1.0") in L0; rewrite app_starts' in L0|change CAP_LIB_1_1 with (lit "urn:ietf:params:netconf:capability:yang-library:1.1") in L1; rewrite app_starts' in L1]; discriminate. }
  repeat split; auto; try (apply Y1; exact Gn).
Qed.

(* ---- what is accepted ---- *)
Lemma no_query_accepted s : ~ In question s -> ~ reserved s ->
  exists c, from_str date_of s = Ok c.
Proof.
  intros Q R. unfold from_str. destruct (lookup (trim s) fixed) as [c|]; eauto.
  unfold reserved, begins in R.
  rewrite !starts_false by (intros [r Hr]; apply R; eauto).
  destruct (starts_with (lit "urn") (trim s) || starts_with (lit "http://") (trim s)
    || starts_with (lit "https://") (trim s)); eauto.
  unfold parse_yang. rewrite (proj2 (split_once_none 63 (trim s))); eauto.
  intro H. apply Q. destruct (trim_eq s) as (a & b & _ & _ & ->). rewrite !in_app_iff. auto.
Qed.

Lemma yang_params_skip ps g : Forall (fun p => ~ In 61 p) ps ->
  yang_params date_of ps g = inr (Some g).
Proof.
  induction 1 as [|p ps Hp _ IH]; [reflexivity|]. cbn [yang_params].
  now rewrite (proj2 (split_once_none 61 p)).
Qed.

Lemma bare_query_refused u q : web_name u -> ~ reserved u -> solid u -> ~ In question u ->
  solid q -> ~ In 61 q ->
  from_str date_of (u ++ question :: q) = Err InvalidYangUrnSchema.
Proof.
  intros W R Su Qu Sq E.
  rewrite <- (app_nil_l (u ++ _)), <- (app_nil_r (u ++ _)).
  rewrite from_query; auto; try constructor.
  unfold parse_yang. rewrite split_once_app by auto. rewrite yang_params_skip; [reflexivity|].
  apply Forall_forall. intros p Hp Hi. apply E. eapply split_in; eauto.
Qed.

Lemma unknown_key_custom u k v : web_name u -> ~ reserved u -> solid u -> ~ In question u ->
  solid k -> solid v -> ~ In 61 k -> ~ In 38 k ->
  k <> lit "module" -> k <> lit "revision" -> k <> lit "features" -> k <> lit "deviations" ->
  from_str date_of (u ++ question :: k ++ 61 :: v) = Ok (Custom (u ++ question :: k ++ 61 :: v)).
Proof.
  intros W R Su Qu Sk Sv E1 E2 K1 K2 K3 K4.
  rewrite <- (app_nil_l (u ++ _)) at 1. rewrite <- (app_nil_r (u ++ _)) at 1.
  rewrite from_query; auto; try constructor.
  2:{ apply solid_app; split; auto. constructor; auto. now apply is_white_false. }
  cbn [app]. rewrite app_nil_r. unfold parse_yang. rewrite split_once_app by auto.
  assert (X : exists v' r, split 38 (k ++ 61 :: v) = (k ++ 61 :: v') :: r).
  { clear - E2. induction k as [|c k IH]; cbn [app split].
    - change (61 =? 38) with false. cbv iota. pose proof (split_shape 38 v) as (NE & _).
      destruct (split 38 v) as [|h t]; [congruence|]. exists h, t. reflexivity.
    - destruct (c =? 38) eqn:E; [apply N.eqb_eq in E; exfalso; apply E2; now left|].
      destruct IH as (v' & r & ->); [intro; apply E2; now right|]. exists v', r. reflexivity. }
  destruct X as (v' & r & ->). cbn [yang_params]. rewrite split_once_app by auto.
  repeat match goal with |- context [text_eqb k ?x] =>
    destruct (text_eqb k x) eqn:?E; [apply text_eqb_spec in E; congruence|clear E] end.
  reflexivity.
Qed.

Lemma hello_refused l1 s e l2 : from_str date_of s = Err e ->
  exists e', hello_capabilities date_of (l1 ++ s :: l2) = inl e'.
Proof.
  intro H. induction l1 as [|x l1 (e' & IH)]; cbn [app hello_capabilities].
  - rewrite H. eauto.
  - rewrite IH. destruct (from_str date_of x); eauto.
Qed.
Lemma hello_all l cs : hello_capabilities date_of l = inr cs <->
  Forall2 (fun s c => from_str date_of s = Ok c) l cs.
Proof.
  split.
  - revert cs; induction l as [|x l IH]; cbn [hello_capabilities]; intros cs H.
    + injection H as <-. constructor.
    + destruct (from_str date_of x) eqn:E; [|discriminate].
      destruct (hello_capabilities date_of l); [discriminate|]. injection H as <-. constructor; auto.
  - induction 1 as [|x c l cs H _ IH]; cbn [hello_capabilities]; [reflexivity|]. now rewrite H, IH.
Qed.

(* ---- white space ---- *)
Lemma url_led w l : w <> [] -> blank w -> l <> [] ->
  from_str date_of (w ++ standard_text (Url l)) = Ok (Custom (w ++ standard_text (Url l))).
Proof.
  intros NW Hw NE. unfold from_str.
  assert (S : solid (standard_text (Url l))).
  { rewrite url_text. apply solid_app; split; [sol|]. apply solid_app; split; [sol|].
    apply schemes_solid. }
  replace (trim (w ++ standard_text (Url l))) with (standard_text (Url l)).
  2:{ symmetry. rewrite <- (app_nil_r (standard_text (Url l))) at 1.
      apply trim_around; auto; [constructor|discriminate]. }
  rewrite lookup_question by (rewrite url_text, in_app_iff; right; left; reflexivity).
  assert (P : forall p, starts_with (lit "urn" ++ p) (w ++ standard_text (Url l)) = false).
  { intro p. destruct (starts_with (lit "urn" ++ p) (w ++ standard_text (Url l))) eqn:Es; auto.
    exfalso. apply NW. change (lit "urn" ++ p) with (117 :: lit "rn" ++ p) in Es.
    eapply lead; [|exact Es|reflexivity|exact Hw]. now apply is_white_false. }
  change CAP_URL with (lit "urn" ++ lit ":ietf:params:netconf:capability:url:1.0") at 1.
  change CAP_LIB_1_0 with (lit "urn" ++ lit ":ietf:params:netconf:capability:yang-library:1.0").
  change CAP_LIB_1_1 with (lit "urn" ++ lit ":ietf:params:netconf:capability:yang-library:1.1").
  rewrite !P. rewrite url_text. 
  change (starts_with (lit "urn") (CAP_URL ++ lit "?scheme=" ++ join 44 (map scheme_text l))) with true.
  cbn [orb]. unfold parse_yang.
  change (lit "?scheme=" ++ ?x) with (63 :: lit "scheme" ++ 61 :: x).
  rewrite split_once_app by noin.
  set (v := join 44 (map scheme_text l)).
  assert (N : ~ In 38 v).
  { subst v. apply no38_join. clear. induction l as [|k l IH]; cbn [map]; constructor; auto.
    destruct k; noin. }
  rewrite split_none by (rewrite in_app_iff; intros [H|[H|H]]; [revert H; noin|discriminate|auto]).
  cbn [yang_params]. rewrite split_once_app by noin. reflexivity.
Qed.

Lemma lib_trailed v d id w : good_dates date_of date_text -> ~ In ampersand id -> blank w ->
  from_str date_of (to_text date_text (YangLibrary v d id) ++ w) = Ok (YangLibrary v d (id ++ w)).
Proof.
  intros G Hi Hw.
  replace (to_text date_text (YangLibrary v d id) ++ w)
    with (to_text date_text (YangLibrary v d (id ++ w))).
  - apply lib_read; auto. rewrite in_app_iff. intros [H|H]; auto.
    unfold blank in Hw. rewrite Forall_forall in Hw. apply Hw in H.
    eapply is_white_false; [|exact H]. reflexivity.
  - rewrite !lib_text. rewrite <- !app_assoc. cbn [app]. now rewrite <- !app_assoc.
Qed.

(* ---- recognition ---- *)
Lemma from_standard s k : from_str date_of s = Ok (Standard k) ->
  exists a b, blank a /\ blank b /\
  ((forall l, k <> Url l) /\ s = a ++ registered k ++ b
   \/ exists l y, k = Url l /\ comma_list l y
        /\ s = registered k ++ lit "?scheme=" ++ y ++ b).
Proof.
  intro H. unfold from_str in H. destruct (trim_eq s) as (a & b & Ha & Hb & E).
  destruct (lookup (trim s) fixed) as [c0|] eqn:L.
  { injection H as ->. apply lookup_in in L.
    destruct L as [(k' & Hk' & Hu & Es)|(v & Hv & _)]; [|discriminate].
    injection Hk' as <-. exists a, b. repeat split; auto. left. split; auto. congruence. }
  destruct (starts_with CAP_URL s) eqn:U.
  { apply url_inv in H; auto. destruct H as (l & w & NE & Hw & Hk & Es). injection Hk as ->.
    exists a, w. repeat split; auto. right. exists l, (join 44 (map scheme_text l)).
    split; [reflexivity|]. split; [now apply comma_list_join|].
    rewrite Es, url_text, <- !app_assoc. reflexivity. }
  destruct (starts_with CAP_LIB_1_0 s).
  { apply lib_inv in H. destruct H as (? & ? & ? & _). discriminate. }
  destruct (starts_with CAP_LIB_1_1 s).
  { apply lib_inv in H. destruct H as (? & ? & ? & _). discriminate. }
  destruct (_ || _); [|discriminate]. unfold parse_yang in H.
  destruct (split_once 63 (trim s)) as [[u q]|]; [|discriminate].
  destruct (yang_params date_of (split 38 q) _) as [e|[g|]]; try discriminate.
  destruct (g_name g); discriminate.
Qed.

Lemma from_base s v : from_str date_of s = Ok (NetconfBase v) ->
  exists a b, blank a /\ blank b /\ s = a ++ base_name v ++ b.
Proof.
  intro H. unfold from_str in H. destruct (trim_eq s) as (a & b & Ha & Hb & E).
  destruct (lookup (trim s) fixed) as [c0|] eqn:L.
  { injection H as ->. apply lookup_in in L.
    destruct L as [(k' & Hk' & _)|(v' & Hv & Es)]; [discriminate|].
    injection Hv as <-. exists a, b. repeat split; auto. congruence. }
  destruct (starts_with CAP_URL s) eqn:U.
  { apply url_inv in H; auto. destruct H as (l & w & _ & _ & Hk & _). discriminate. }
  destruct (starts_with CAP_LIB_1_0 s).
  { apply lib_inv in H. destruct H as (? & ? & ? & _). discriminate. }
  destruct (starts_with CAP_LIB_1_1 s).
  { apply lib_inv in H. destruct H as (? & ? & ? & _). discriminate. }
  destruct (_ || _); [|discriminate]. unfold parse_yang in H.
  destruct (split_once 63 (trim s)) as [[u q]|]; [|discriminate].
  destruct (yang_params date_of (split 38 q) _) as [e|[g|]]; try discriminate.
  destruct (g_name g); discriminate.
Qed.

End D.
