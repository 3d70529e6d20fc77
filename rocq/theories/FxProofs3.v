(* What is written is read back; reading ends. *)
From Coq Require Import List Bool Arith String Ascii Lia.
From Verif Require Import FxModel FxSpec FxProofs FxProofs2.
Import ListNotations.
Local Open Scope string_scope.
Local Open Scope list_scope.

Definition swap (x : string * string) : string * string := (snd x, fst x).
Lemma swap_swap l : map swap (map swap l) = l.
Proof. induction l as [|[a b] l IH]; cbn; [|rewrite IH]; reflexivity. Qed.
Lemma ns_fold l : NoDup (map snd l) -> forall m, (forall x, In x (map snd l) -> map_get x m = None) ->
  fold_left (fun m x => map_insert (snd x) (fst x) m) l m = m ++ map swap l.
Proof.
  induction l as [|[p n] l IH]; intros N m H; cbn [fold_left map]; [rewrite app_nil_r; reflexivity|].
  inversion N as [|? ? N1 N2]; subst. cbn [snd fst]. rewrite (map_get_insert_new n p m) by (apply H; left; reflexivity).
  rewrite (IH N2); [rewrite <- app_assoc; reflexivity|].
  intros x D. rewrite map_get_app, (H x) by (right; exact D). rewrite map_get_cons.
  destruct (String.eqb_spec n x); [subst; contradiction|reflexivity].
Qed.
Lemma no_dups l : NoDup l -> has_duplicates l = false.
Proof.
  induction 1 as [|x l H _ IH]; [reflexivity|]. cbn. rewrite IH, orb_false_r.
  destruct (existsb (String.eqb x) l) eqn:E; [|reflexivity]. apply existsb_exists in E. destruct E as (y & A & B).
  apply String.eqb_eq in B. subst; contradiction.
Qed.
Lemma map_snd_swap l : map snd (map swap l) = map fst l.
Proof. induction l as [|[a b] l IH]; cbn; [|rewrite IH]; reflexivity. Qed.
Lemma map_fst_swap l : map fst (map swap l) = map snd l.
Proof. induction l as [|[a b] l IH]; cbn; [|rewrite IH]; reflexivity. Qed.

(* outer declarations are of the default namespace only *)
Definition default_only (o : list scope) : Prop := Forall (Forall (fun x : string * string => fst x = "")) o.
Definition only_default (m : scope) : Prop := Forall (fun x : string * string => fst x = "") m.
Lemma insert_default n m : only_default m -> only_default (map_insert "" n m).
Proof.
  induction 1 as [|[k v] m H D IH]; cbn [map_insert].
  - constructor; [reflexivity|constructor].
  - cbn in H. subst. cbn. constructor; [reflexivity|exact D].
Qed.
Lemma fold_default o : default_only o -> forall m, only_default m ->
  only_default (fold_left (fun (m d : scope) => fold_left (fun (m : scope) x => map_insert (fst x) (snd x) m) d m) o m).
Proof.
  induction 1 as [|d o H _ IH]; intros m D; [exact D|]. cbn [fold_left]. apply IH. clear IH.
  revert m D. induction H as [|[k v] d H _ IH]; intros m D; [exact D|]. cbn [fold_left]. apply IH.
  cbn in H. subst. exact (insert_default _ _ D).
Qed.
Lemma fold_new (l : scope) : NoDup (map fst l) -> forall m, (forall p, In p (map fst l) -> map_get p m = None) ->
  fold_left (fun m x => map_insert (fst x) (snd x) m) l m = m ++ l.
Proof.
  induction l as [|[p n] l IH]; intros N m H; cbn [fold_left map]; [rewrite app_nil_r; reflexivity|].
  inversion N as [|? ? N1 N2]; subst. cbn [snd fst]. rewrite (map_get_insert_new p n m) by (apply H; left; reflexivity).
  rewrite (IH N2); [rewrite <- app_assoc; reflexivity|].
  intros x D. rewrite map_get_app, (H x) by (right; exact D). rewrite map_get_cons.
  destruct (String.eqb_spec p x); [subst; contradiction|reflexivity].
Qed.
Lemma filter_all {A} (f : A -> bool) l : (forall x, In x l -> f x = true) -> filter f l = l.
Proof.
  induction l as [|x l IH]; intros H; [reflexivity|]. cbn. rewrite (H x) by (left; reflexivity).
  rewrite IH by (intros y D; apply H; right; exact D). reflexivity.
Qed.
Lemma filter_none {A} (f : A -> bool) l : (forall x, In x l -> f x = false) -> filter f l = [].
Proof.
  induction l as [|x l IH]; intros H; [reflexivity|]. cbn. rewrite (H x) by (left; reflexivity).
  apply IH. intros y D; apply H; right; exact D.
Qed.
Lemma used_back l o ls : default_only o -> apart l -> well_formed ls -> (forall p, In p (map fst l) -> In p (prefixes ls)) ->
  used_of (render ls) (all_namespaces (l :: o)) = l.
Proof.
  intros D (A1 & A2 & A3) W U. unfold all_namespaces. cbn [rev]. rewrite fold_left_app. cbn [fold_left].
  assert (D' : default_only (rev o)) by (apply Forall_rev; exact D).
  assert (M := fold_default _ D' [] (Forall_nil _)).
  set (m := fold_left _ (rev o) []) in *. 
  assert (G : forall p, In p (map fst l) -> map_get p m = None).
  { intros p Hp. apply map_get_none. intros X. apply in_map_iff in X. destruct X as ([q v] & X1 & X2). cbn in X1. subst q.
    pose proof (proj1 (Forall_forall _ _) M _ X2) as Z. cbn in Z. subst p. apply in_map_iff in Hp. destruct Hp as ([q w] & Q1 & Q2).
    cbn in Q1. subst q. destruct (A3 _ _ Q2). contradiction. }
  rewrite (fold_new l A1 m G). unfold used_of. rewrite !filter_app.
  rewrite (filter_none _ (filter _ m)).
  - cbn [app]. rewrite (filter_all (fun x => negb (String.eqb (snd x) ""))).
    + apply filter_all. intros [p n] H. cbn [fst]. apply existsb_exists. exists p.
      split; [|apply eqb_refl']. unfold find_xpath_prefixes. rewrite (scan_lexemes _ W). apply U. apply (in_map fst) in H. exact H.
    + intros [p n] H. cbn [snd]. destruct (A3 _ _ H) as [_ Z]. apply String.eqb_neq in Z. rewrite Z. reflexivity.
  - intros [p n] H. apply filter_In in H. destruct H as [H _]. pose proof (proj1 (Forall_forall _ _) M _ H) as Z. cbn in Z. subst p.
    cbn [fst]. destruct (existsb (String.eqb "") (find_xpath_prefixes (render ls))) eqn:E; [|reflexivity].
    apply existsb_exists in E. destruct E as (q & E1 & E2). apply String.eqb_eq in E2. subst q.
    unfold find_xpath_prefixes in E1. rewrite (scan_lexemes _ W) in E1. destruct (prefixes_not_empty _ W E1).
Qed.

(* the tag of a filter's criteria *)
Lemma new_ns k l w p : NoDup (map snd l) -> get_namespace_prefix w (k_ns k) = Some p -> new_namespaces w k l = map swap l.
Proof.
  intros N G. unfold new_namespaces. rewrite G. rewrite (ns_fold l N []) by (intros; reflexivity). reflexivity.
Qed.
Lemma criteria_tag k l tag w : apart l -> get_namespace_prefix w (k_ns k) = Some "" -> applied w = true -> forall body,
  exists e, (let m := new_namespaces w k l in
   let added := match m with [] => false | _ => true end in
   obind (if added then push_namespace_binding w m else Some w) (fun w1 =>
   obind (create_ns_element w1 (k_ns k) tag) (fun '(e, w2) =>
   let w3 := write w2 ((Start e :: body) ++ [to_end e]) in
   Some (if added then pop_namespace_binding w3 else w3)))) = Some (Writer (out w ++ element e body) (bindings w) true)
  /\ e_decls e = l /\ forall o, resolve o "" = Some (k_ns k) -> named o e (k_ns k) tag.
Proof.
  intros (A1 & A2 & A3) G T body. rewrite (new_ns k l w "" A2 G). cbv zeta.
  destruct l as [|x l'] eqn:El.
  - cbn [map]. cbn [obind]. unfold create_ns_element. rewrite G, T. cbn [obind].
    exists (Elem "" tag []). split; [|split; [reflexivity|]].
    + unfold write. cbn. reflexivity.
    + intros o R. split; [reflexivity|]. exact R.
  - rewrite <- El in *. assert (Z : (match map swap l with [] => false | _ => true end) = true) by (rewrite El; reflexivity).
    rewrite Z. unfold push_namespace_binding. rewrite map_snd_swap, (no_dups _ A1). cbn [obind].
    unfold create_ns_element. cbn [applied bindings]. unfold get_namespace_prefix. cbn [bindings find_prefix].
    assert (P : exists pf, (match map_get (k_ns k) (map swap l) with Some p => Some p | None => find_prefix (bindings w) (k_ns k) end) = Some pf
      /\ forall o, resolve o "" = Some (k_ns k) -> resolve (l :: o) pf = Some (k_ns k)).
    { destruct (map_get (k_ns k) (map swap l)) as [pf|] eqn:M.
      - exists pf. split; [reflexivity|]. intros o _. apply map_get_some_in in M. apply in_map_iff in M.
        destruct M as ([p n] & M1 & M2). injection M1 as -> ->. cbn [resolve]. rewrite (map_get_in _ _ _ A1 M2).
        destruct (A3 _ _ M2) as [_ Q]. apply String.eqb_neq in Q. rewrite Q. reflexivity.
      - exists "". split; [exact G|]. intros o R. cbn [resolve]. rewrite map_get_none; [exact R|].
        intros X. apply in_map_iff in X. destruct X as ([p n] & X1 & X2). cbn in X1. subst p. destruct (A3 _ _ X2). contradiction. }
    destruct P as (pf & P1 & P2). rewrite P1. cbn [obind]. change (fun x : string * string => (snd x, fst x)) with swap. rewrite swap_swap.
    exists (Elem pf tag l). split; [|split; [reflexivity|]].
    + unfold write, pop_namespace_binding. cbn. reflexivity.
    + intros o R. split; [reflexivity|]. apply P2. exact R.
Qed.
Definition ns_in (l : scope) (p : string) : string := match map_get p l with Some n => n | None => "" end.
Lemma usage_back l o xml : apart l -> self_contained l xml -> usage xml (enter xml (l :: o)) [] = l.
Proof.
  intros (A1 & A2 & A3) (B & D & _ & F).
  assert (R : forall p, In p (map fst l) -> resolve (l :: o) p = Some (ns_in l p)).
  { intros p H. apply in_map_iff in H. destruct H as ([q n] & H1 & H2). cbn in H1. subst q. cbn [resolve]. unfold ns_in.
    rewrite (map_get_in _ _ _ A1 H2). destruct (A3 _ _ H2) as [_ Q]. apply String.eqb_neq in Q. rewrite Q. reflexivity. }
  change (l :: o) with ([] ++ (l :: o)). rewrite (usage_first xml [] (l :: o) [] [] (ns_in l)).
  - cbn [app]. rewrite F. rewrite map_map. rewrite <- (map_id l) at 2. apply map_ext_in. intros [p n] H. cbn [fst].
    unfold ns_in. rewrite (map_get_in _ _ _ A1 H). reflexivity.
  - exact B.
  - constructor.
  - intros p. cbn. tauto.
  - intros e He. split; [exact (D e He)|]. apply R. rewrite <- F. destruct (first_uses_complete xml [] e He) as [[]|H]. exact H.
Qed.
Lemma write_spec_ok k s w : known_kind k -> faithful s -> get_namespace_prefix w (k_ns k) = Some "" -> applied w = true ->
  exists d, write_spec k s w = Some (Writer (out w ++ d) (bindings w) true) /\
  forall o, resolve o "" = Some (k_ns k) -> default_only o ->
    spec_document o k d /\ forall r ps, read_spec k (at_events (d ++ r) o ps) = Ok s (at_events r o ps).
Proof.
  intros K F G T. destruct s as [l xml|l path].
  - destruct F as [A S]. destruct (criteria_tag k l (k_subtree k) w A G T xml) as (e & E1 & E2 & E3).
    exists (element e xml). split; [exact E1|]. intros o R D. specialize (E3 o R).
    pose proof S as (B & _ & N & _).
    assert (Q : no_end (k_subtree k) xml).
    { intros p n H. destruct (N p n H). destruct K as [-> | ->]; assumption. }
    split; [exact (sd_subtree o k e xml E3 B Q)|]. intros r ps. rewrite (read_subtree_at k o e xml r ps K E3 B Q).
    rewrite E2, (usage_back l o xml A S). reflexivity.
  - destruct F as (A & N & ls & W & Hr & U). destruct (criteria_tag k l (k_xpath k) w A G T (escaped path)) as (e & E1 & E2 & E3).
    exists (element e (escaped path)). split; [exact E1|]. intros o R D. specialize (E3 o R).
    split; [exact (sd_xpath o k e _ path E3 (escaped_stands path))|]. intros r ps.
    rewrite (read_xpath_at k o e _ path r ps K E3 (escaped_stands path)), E2, (trim_id _ N).
    rewrite <- Hr at 1. rewrite (used_back l o ls D A W U). reflexivity.
Qed.

Definition written_bindings : list scope := [[(SUBSCRIBED_NOTIFICATIONS_NS, "")]; [(NETCONF_NS, "")]].
Definition written_scopes : list scope := [[("", SUBSCRIBED_NOTIFICATIONS_NS)]].
Lemma write_filter_ok k f out : known_kind k -> faithful_filter f ->
  exists d, write_filter k f (Writer out written_bindings true) = Some (Writer (out ++ d) written_bindings true) /\ block written_scopes k d f.
Proof.
  intros K [N F].
  assert (H : exists e B, 
    (let w := Writer out written_bindings true in
     let added := match get_namespace_prefix w (k_ns k) with None => true | Some _ => false end in
     obind (if added then push_namespace_binding w [(k_ns k, "")] else Some w) (fun w1 => create_ns_element w1 (k_ns k) (k_tag k))) = Some (e, Writer out B true)
    /\ (let added := match get_namespace_prefix (Writer out written_bindings true) (k_ns k) with None => true | Some _ => false end in
        (if added then tl B else B) = written_bindings)
    /\ find_prefix B (k_ns k) = Some "" /\ named written_scopes e (k_ns k) (k_tag k)
    /\ resolve (e_decls e :: written_scopes) "" = Some (k_ns k) /\ default_only (e_decls e :: written_scopes)).
  { destruct K as [-> | ->].
    - exists (Elem "" "stream-filter" []), written_bindings. repeat split; try reflexivity. repeat constructor.
    - exists (Elem "" "selection-filter" [("", YANG_PUSH_NS)]), ([(YANG_PUSH_NS, "")] :: written_bindings). repeat split; try reflexivity. repeat constructor. }
  destruct H as (e & B & H1 & H2 & H3 & H4 & H5 & H6). cbv zeta in H1, H2.
  unfold write_filter. cbv zeta. set (added := match get_namespace_prefix _ _ with None => true | Some _ => false end) in *.
  destruct (if added then push_namespace_binding (Writer out written_bindings true) [(k_ns k, "")] else Some (Writer out written_bindings true)) as [w1|] eqn:P; [|discriminate].
  cbn [obind] in H1 |- *. rewrite H1. cbn [obind].
  unfold create_ns_element, write at 1. cbn [bindings applied FxModel.out]. unfold get_namespace_prefix. cbn [bindings]. rewrite H3. cbn [obind].
  set (n := Elem "" (k_name k) []).
  set (w3 := write _ _).
  assert (W3 : bindings w3 = B /\ applied w3 = true /\ FxModel.out w3 = (out ++ [Start e]) ++ element n (escaped (f_name f))).
  { unfold w3, write. cbn [bindings applied FxModel.out]. repeat split. }
  destruct W3 as (W1 & W2 & W3).
  destruct (write_spec_ok k (f_spec f) w3 K F) as (d & D1 & D2); [unfold get_namespace_prefix; rewrite W1; exact H3|exact W2|].
  rewrite D1. cbn [obind]. destruct (D2 _ H5 H6) as [D3 D4].
  exists (element e (element n (escaped (f_name f)) ++ d)). split.
  - rewrite W1, W3. unfold write, pop_namespace_binding. cbn [FxModel.out bindings applied].
    assert (Z : forall o' a, Some (if added then Writer o' (tl B) a else Writer o' B a) = Some (Writer o' written_bindings a))
      by (intros; destruct added; rewrite H2; reflexivity).
    rewrite Z. f_equal. f_equal. unfold element. unfold to_end. rewrite <- !app_assoc. cbn [app]. rewrite <- !app_assoc. reflexivity.
  - split.
    + intros r ps. pose proof (read_filter_at k written_scopes e [] n (escaped (f_name f)) (f_name f) [] d (f_spec f) [] r ps K H4
        (Forall_nil _) (Forall_nil _) (Forall_nil _) (conj eq_refl H5) (escaped_stands _) D3 D4) as Q.
      cbn [app] in Q. rewrite app_nil_r in Q. rewrite Q, (trim_id _ N). destruct f; reflexivity.
    + exists e. eexists. split; [reflexivity|exact H4].
Qed.
Lemma write_all_ok k l : known_kind k -> Forall faithful_filter l -> forall out,
  exists d, write_all k l (Writer out written_bindings true) = Some (Writer (out ++ d) written_bindings true) /\
  forall w a b, seq written_scopes w a b ->
    seq written_scopes (d ++ w) (match k_late_name_ns k, k_tag k with _, "stream-filter" => l ++ a | _, _ => a end)
                                (match k_late_name_ns k, k_tag k with _, "stream-filter" => b | _, _ => l ++ b end).
Proof.
  intros K H. induction H as [|f l F _ IH]; intros out.
  - exists []. rewrite app_nil_r. split; [reflexivity|]. intros w a b S. destruct K as [-> | ->]; exact S.
  - cbn [write_all]. destruct (write_filter_ok k f out K F) as (d & D1 & D2). rewrite D1. cbn [obind].
    destruct (IH (out ++ d)) as (d' & E1 & E2). exists (d ++ d'). rewrite app_assoc. split; [exact E1|].
    intros w a b S. rewrite <- app_assoc. specialize (E2 _ _ _ S). destruct K as [-> | ->]; cbn in E2 |- *.
    + exact (sq_stream _ _ _ _ _ _ D2 E2).
    + exact (sq_selection _ _ _ _ _ _ D2 E2).
Qed.
Lemma by_name_new f l : ~ In (f_name f) (map f_name l) -> by_name f l = l ++ [f].
Proof.
  induction l as [|g l IH]; intros H; [reflexivity|]. cbn in *. destruct (String.eqb_spec (f_name g) (f_name f)); [tauto|].
  rewrite IH by tauto. reflexivity.
Qed.
Lemma by_name_all l : forall m, NoDup (map f_name (m ++ l)) -> fold_left (fun l f => by_name f l) l m = m ++ l.
Proof.
  induction l as [|f l IH]; intros m N; [rewrite app_nil_r; reflexivity|]. cbn [fold_left].
  rewrite by_name_new.
  - rewrite IH; [rewrite <- app_assoc; reflexivity|]. rewrite <- app_assoc. exact N.
  - rewrite map_app in N. cbn in N. apply NoDup_remove_2 in N. intros H. apply N. apply in_or_app. left; exact H.
Qed.
Lemma filters_back x : faithful_filters x -> round_trips x.
Proof.
  intros (N1 & N2 & F1 & F2). unfold round_trips, write_filters.
  change (get_namespace_prefix writer_new SUBSCRIBED_NOTIFICATIONS_NS) with (@None string). cbn [obind].
  change (push_namespace_binding writer_new [(SUBSCRIBED_NOTIFICATIONS_NS, "")]) with (Some (Writer [] written_bindings false)).
  cbn [obind].
  set (e := Elem "" "filters" [("", SUBSCRIBED_NOTIFICATIONS_NS)]).
  change (create_ns_element (Writer [] written_bindings false) SUBSCRIBED_NOTIFICATIONS_NS "filters") with (Some (e, Writer [] written_bindings true)).
  cbn [obind]. change (write (Writer [] written_bindings true) [Start e]) with (Writer [Start e] written_bindings true).
  destruct (write_all_ok stream_kind (stream_filters x) (or_introl eq_refl) F1 [Start e]) as (d1 & D1 & S1). rewrite D1. cbn [obind].
  destruct (write_all_ok selection_kind (selection_filters x) (or_intror eq_refl) F2 ([Start e] ++ d1)) as (d2 & D2 & S2). rewrite D2. cbn [obind].
  eexists. eexists. split; [reflexivity|].
  specialize (S2 [] [] [] (sq_nil _)). specialize (S1 _ _ _ S2). cbn in S1. rewrite !app_nil_r in S1.
  pose proof (read_filters_at e (d1 ++ d2) _ _ [] [] (conj eq_refl eq_refl) S1) as Q. rewrite app_nil_r in Q.
  assert (Z : out (pop_namespace_binding (write (Writer (([Start e] ++ d1) ++ d2) written_bindings true) [to_end e])) = element e (d1 ++ d2)).
  { unfold pop_namespace_binding, write, element, to_end. cbn. rewrite <- app_assoc. reflexivity. }
  rewrite Z. change (parser_new (element e (d1 ++ d2))) with (at_events (element e (d1 ++ d2)) [] []).
  rewrite Q. unfold filters_new. rewrite (by_name_all _ [] N1), (by_name_all _ [] N2). cbn [app].
  split; [destruct x; reflexivity|reflexivity].
Qed.

(* ---- what is not a filter changes nothing ---- *)
Lemma document_block k o d : known_kind k -> filter_document o k d -> exists f, block o k d f.
Proof.
  intros K H. destruct H as [e b0 n b1 s b2 N W0 W1 W2 [ne ts x Nn Sn] Ds].
  destruct (spec_read k _ s K Ds) as (sp & Hs). exists (Filter (trim x) sp). split.
  - intros r ps. exact (read_filter_at k o e b0 ne ts x b1 s sp b2 r ps K N W0 W1 W2 Nn Sn Ds Hs).
  - exists e. eexists. split; [reflexivity|exact N].
Qed.
Lemma extends_seq o w v : extends o w v -> exists a b, seq o w a b /\ seq o v a b.
Proof.
  induction 1 as [|t w v W _ (a & b & A & B)|t w v P U _ (a & b & A & B)|d w v D _ (a & b & A & B)|d w v D _ (a & b & A & B)].
  - exists [], []. split; constructor.
  - exists a, b. split; constructor; assumption.
  - exists a, b. split; [constructor; assumption|assumption].
  - destruct (document_block stream_kind o d (or_introl eq_refl) D) as (f & Bf). exists (f :: a), b. split; constructor; assumption.
  - destruct (document_block selection_kind o d (or_intror eq_refl) D) as (f & Bf). exists a, (f :: b). split; constructor; assumption.
Qed.

(* ---- reading ends ---- *)
Definition fin_toks (ts : list tok) : Prop := ts = [] \/ ends_with_end ts.
Lemma ends_tl t r : ends_with_end (t :: r) -> (r = [] /\ exists a b, t = End a b) \/ ends_with_end r.
Proof.
  intros (q & a & b & H). destruct q as [|x q]; cbn in H; injection H as -> ->.
  - left. split; [reflexivity|eauto].
  - right. exists q, a, b. reflexivity.
Qed.
Lemma fin_tl t r : fin_toks (t :: r) -> fin_toks r.
Proof. intros [H|H]; [discriminate|]. destruct (ends_tl _ _ H) as [[-> _]|X]; [left; reflexivity|right; exact X]. Qed.
Definition good {A} (p : parser) (r : res A) : Prop :=
  match r with Ok _ q => fin_toks (toks q) /\ List.length (toks q) <= List.length (toks p) | Err _ => True | Hang => False end.
Definition good_lt {A} (p : parser) (r : res A) : Prop :=
  match r with Ok _ q => fin_toks (toks q) /\ (List.length (toks q) < List.length (toks p) \/ toks q = []) | Err _ => True | Hang => False end.
Definition fin (p : parser) : Prop := fin_toks (toks p).
Lemma good_bind {A B} p (r : res A) (f : A -> parser -> res B) :
  good p r -> (forall a q, r = Ok a q -> fin q -> good q (f a q)) -> good p (bind r f).
Proof.
  intros H K. destruct r as [a q|e|]; [|exact I|destruct H]. cbn in *. destruct H as [H1 H2].
  specialize (K a q eq_refl H1). destruct (f a q); cbn in *; [|exact I|exact K]. destruct K; split; [assumption|lia].
Qed.
Lemma good_bind_lt {A B} p (r : res A) (f : A -> parser -> res B) :
  good p r -> (forall a q, r = Ok a q -> fin q -> good_lt q (f a q)) -> good_lt p (bind r f).
Proof.
  intros H K. destruct r as [a q|e|]; [|exact I|destruct H]. cbn in *. destruct H as [H1 H2].
  specialize (K a q eq_refl H1). destruct (f a q); cbn in *; [|exact I|exact K]. destruct K as [K1 [K2|K2]]; split; auto. left; lia.
Qed.
Lemma next_good p : fin p -> fin (next_event p) /\ (List.length (toks (next_event p)) < List.length (toks p) \/ toks (next_event p) = []).
Proof.
  unfold fin, next_event. destruct (toks p) as [|t r] eqn:E; intros H; cbn [toks].
  - rewrite E. split; [left; reflexivity|right; reflexivity].
  - split; [exact (fin_tl _ _ H)|left; cbn; lia].
Qed.
Lemma to_end_good a b ts : forall d u, read_to_end a b d ts = Some u -> fin_toks ts -> fin_toks u /\ List.length u <= List.length ts.
Proof.
  induction ts as [|t ts IH]; intros d u H F; [discriminate|]. pose proof (fin_tl _ _ F) as F'. cbn [read_to_end] in H.
  destruct t; try (destruct (IH _ _ H F') as [X Y]; split; [exact X|cbn; lia]).
  destruct (same_name a b prefix local).
  - destruct d; [injection H as <-; split; [exact F'|cbn; lia]|]. destruct (IH _ _ H F') as [X Y]; split; [exact X|cbn; lia].
  - destruct (IH _ _ H F') as [X Y]; split; [exact X|cbn; lia].
Qed.
Lemma skip_good p : fin p -> match skip p with Ok _ q => fin q /\ List.length (toks q) < List.length (toks p) | Err _ => True | Hang => False end.
Proof.
  intros F. unfold skip, next_event. unfold fin in *. destruct (toks p) as [|t r] eqn:E; [exact I|]. pose proof (fin_tl _ _ F) as F'.
  destruct t; cbn [toks]; try (split; [exact F'|cbn; lia]); [|exact I].
  destruct (read_to_end (e_prefix e) (e_local e) 0 r) eqn:R; [|exact I]. destruct (to_end_good _ _ _ _ _ R F'). cbn. split; [assumption|lia].
Qed.
Lemma drop_fin ts : fin_toks ts -> fin_toks (drop_text ts).
Proof. induction ts as [|[] ts IH]; intros F; try exact F; exact (IH (fin_tl _ _ F)). Qed.
Lemma skip_text_good p : fin p -> fin (skip_text p) /\ List.length (toks (skip_text p)) <= List.length (toks p).
Proof.
  unfold fin, skip_text. intros F. destruct (toks p) as [|t r] eqn:E; [rewrite E; split; [exact F|lia]|].
  pose proof (drop_fin _ F). pose proof (drop_length (t :: r)).
  destruct t; try (rewrite E; split; [exact F|lia]); cbn [toks]; split; assumption.
Qed.
Lemma close_good p : fin p -> good_lt p (close p).
Proof.
  intros F. unfold close. destruct (parent_has_child p).
  - assert (L : forall n q, fin q -> List.length (toks q) < n -> good_lt q (close_loop n q)).
    { induction n as [|n IH]; intros q Fq H; [lia|]. cbn [close_loop]. unfold fin in Fq.
      assert (S : good_lt q (bind (skip q) (fun _ q => close_loop n q))).
      { pose proof (skip_good q Fq) as S. destruct (skip q) as [u q'|e|]; cbn [bind]; [|exact I|destruct S].
        destruct S as [S1 S2]. specialize (IH q' S1 ltac:(lia)). destruct (close_loop n q'); cbn in *; [|exact I|exact IH].
        destruct IH as [I1 [I2|I2]]; split; auto. left; lia. }
      destruct (toks q) as [|t r] eqn:E; [exact S|]. destruct t; try exact S.
      unfold next_event. rewrite E. cbn. rewrite E. split; [exact (fin_tl _ _ Fq)|left; cbn; lia]. }
    apply L; [exact F|lia].
  - destruct (next_good p F) as [A B]. cbn. exact (conj A B).
Qed.
Lemma good_weaken {A} p (r : res A) : good_lt p r -> good p r.
Proof. destruct r; cbn; auto. intros [H [D|D]]; split; auto; [lia|rewrite D; cbn; lia]. Qed.
Lemma open_good p ns key : fin p -> good p (open p ns key) /\
  forall e q, open p ns key = Ok e q -> parent_has_child q = false \/ ends_with_end (toks q).
Proof.
  intros F. unfold open, fin in *. destruct (toks p) as [|t r] eqn:E; [split; [exact I|discriminate]|].
  destruct t; try (split; [exact I|discriminate]).
  - destruct (is_tag p ns key); [|split; [exact I|discriminate]]. unfold next_event. rewrite E. cbn. split.
    + split; [exact (fin_tl _ _ F)|rewrite E; cbn; lia].
    + intros e' q H. injection H as <- <-. right. cbn. destruct F as [F|F]; [discriminate|].
      destruct (ends_tl _ _ F) as [[_ (a & b & X)]|X]; [discriminate|exact X].
  - destruct (is_tag p ns key); [|split; [exact I|discriminate]]. split.
    + cbn. split; [exact F|rewrite E; cbn; lia].
    + intros e' q H. injection H as <- <-. left. reflexivity.
Qed.
Lemma read_string_good ts : forall acc, fin_toks ts ->
  match read_string ts acc with RText _ u => fin_toks u /\ List.length u <= List.length ts | RWrong => True | RForever => ~ ends_with_end ts end.
Proof.
  induction ts as [|t ts IH]; intros acc F; cbn [read_string].
  - intros (q & a & b & H). destruct q; discriminate.
  - pose proof (fin_tl _ _ F) as F'.
    assert (X : forall acc', (forall a b, t <> End a b) -> match read_string ts acc' with RText _ u => fin_toks u /\ List.length u <= List.length (t :: ts) | RWrong => True | RForever => ~ ends_with_end (t :: ts) end).
    { intros acc' N. specialize (IH acc' F'). destruct (read_string ts acc').
      - destruct IH; split; [assumption|cbn; lia].
      - exact I.
      - intros H. destruct (ends_tl _ _ H) as [[_ (a & b & Y)]|Y]; [exact (N _ _ Y)|exact (IH Y)]. }
    destruct t; try (apply X; intros; discriminate).
    + destruct (String.eqb acc ""); [exact I|split; [exact F|lia]].
    + destruct (String.eqb acc ""); [exact I|split; [exact F|lia]].
    + split; [exact F|lia].
Qed.
Lemma tag_string_good p : fin p -> parent_has_child p = false \/ ends_with_end (toks p) -> good p (tag_string p).
Proof.
  intros F H. unfold tag_string. destruct (parent_has_child p).
  - destruct H as [H|H]; [discriminate|]. pose proof (read_string_good (toks p) "" F) as R. destruct (read_string (toks p) ""); cbn; auto.
  - cbn. split; [exact F|lia].
Qed.
Lemma copy_good tag ts : forall sc m acc x n u s, copy_till tag ts sc m acc = Some (x, n, u, s) -> fin_toks ts -> fin_toks u /\ List.length u <= List.length ts.
Proof.
  induction ts as [|t ts IH]; intros sc m acc x n u s H F; [discriminate|]. cbn [copy_till] in H.
  destruct (match t with End _ l => String.eqb l tag | _ => false end).
  - injection H as <- <- <- <-. split; [exact F|lia].
  - destruct (IH _ _ _ _ _ _ _ H (fin_tl _ _ F)). split; [assumption|cbn; lia].
Qed.
Lemma skipping {A} p (f : parser -> res A) : fin p -> (forall q, fin q -> good q (f q)) -> good p (f (skip_text p)).
Proof.
  intros F H. destruct (skip_text_good p F) as [A1 A2]. specialize (H _ A1). destruct (f (skip_text p)); cbn in *; auto.
  destruct H; split; [assumption|lia].
Qed.
Ltac skipped p F := cbv zeta; match goal with |- good p ?r =>
  let g := (eval pattern (skip_text p) in r) in match g with ?f _ => apply (skipping p f F) end end;
  clear p F; intros p F; cbv beta.
Lemma read_name_good ns key p : fin p -> good p (read_name ns key p).
Proof.
  intros F. unfold read_name. destruct (open_good p ns key F) as [O1 O2]. apply good_bind; [exact O1|]. intros e q E Fq.
  apply good_bind; [exact (tag_string_good q Fq (O2 e q E))|]. intros s q' _ Fq'.
  apply good_bind; [exact (good_weaken _ _ (close_good q' Fq'))|]. intros u q'' _ F''. cbn. split; [exact F''|lia].
Qed.
Lemma read_spec_good k p : fin p -> good p (read_spec k p).
Proof.
  intros F. unfold read_spec. skipped p F.
  destruct (is_tag p (k_ns k) (k_subtree k)).
  - unfold read_subtree_filter. skipped p F. destruct (is_tag p (k_ns k) (k_subtree k)); [|exact I].
    destruct (open_good p (k_ns k) (k_subtree k) F) as [O1 O2]. apply good_bind; [exact O1|]. intros e q E Fq.
    apply good_bind.
    + unfold copy_buffer_till_with_namespaces. destruct (copy_till (k_subtree k) (toks q) (scopes q) [] []) as [[[[x n] u] s]|] eqn:C; [|exact I].
      cbn. exact (copy_good _ _ _ _ _ _ _ _ _ C Fq).
    + intros [x n] q' _ Fq'. apply good_bind; [exact (good_weaken _ _ (close_good q' Fq'))|]. intros u q'' _ F''. cbn. split; [exact F''|lia].
  - destruct (is_tag p (k_ns k) (k_xpath k)); [|exact I].
    unfold read_xpath_filter. skipped p F. destruct (is_tag p (k_ns k) (k_xpath k)); [|exact I].
    destruct (open_good p (k_ns k) (k_xpath k) F) as [O1 O2]. apply good_bind; [exact O1|]. intros e q E Fq.
    apply good_bind.
    + unfold read_xpath_with_namespaces. apply good_bind; [exact (tag_string_good q Fq (O2 e q E))|].
      intros s q' _ Fq'. cbn. split; [exact Fq'|lia].
    + intros [x n] q' _ Fq'. apply good_bind; [exact (good_weaken _ _ (close_good q' Fq'))|]. intros u q'' _ F''. cbn. split; [exact F''|lia].
Qed.
Lemma read_filter_good k p : fin p -> good_lt p (read_filter k p).
Proof.
  intros F. unfold read_filter. destruct (skip_text_good p F) as [A1 A2].
  assert (G : forall q, fin q -> good_lt q (if is_tag q (k_ns k) (k_tag k) then
    bind (open q (k_ns k) (k_tag k)) (fun _ p =>
    let p := skip_text p in
    bind (if is_tag p (k_ns k) (k_name k) then
            bind (read_name (k_ns k) (k_name k) p) (fun n p =>
            bind (read_spec k (skip_text p)) (fun s p => Ok (Filter n s) p))
          else
            bind (read_spec k p) (fun s p =>
            bind (read_name (k_late_name_ns k) (k_name k) (skip_text p)) (fun n p => Ok (Filter n s) p)))
         (fun f p => bind (close (skip_text p)) (fun _ p => Ok f p)))
  else Err WrongToken)).
  { clear p F A1 A2. intros p F. destruct (is_tag p (k_ns k) (k_tag k)); [|exact I].
    destruct (open_good p (k_ns k) (k_tag k) F) as [O1 _]. apply good_bind_lt; [exact O1|]. intros e q _ Fq. cbv zeta.
    apply good_bind_lt.
    - skipped q Fq.
      destruct (is_tag q (k_ns k) (k_name k)).
      + apply good_bind; [exact (read_name_good _ _ q Fq)|]. intros n q' _ Fq'. apply good_bind.
        * exact (skipping q' (read_spec k) Fq' (read_spec_good k)).
        * intros s q'' _ F''. cbn. split; [exact F''|lia].
      + apply good_bind; [exact (read_spec_good _ q Fq)|]. intros n q' _ Fq'. apply good_bind.
        * exact (skipping q' (read_name _ _) Fq' (read_name_good _ _)).
        * intros s q'' _ F''. cbn. split; [exact F''|lia].
    - intros f q' _ Fq'. destruct (skip_text_good q' Fq') as [B1 B2]. pose proof (close_good _ B1) as C.
      destruct (close (skip_text q')); cbn in *; auto. destruct C as [C1 [C2|C2]]; split; auto. left; lia. }
  specialize (G _ A1). cbv zeta in *. match goal with |- good_lt p ?r => destruct r end; cbn in *; auto.
  destruct G as [G1 [G2|G2]]; split; auto. left; lia.
Qed.
Lemma read_loop_good start n : forall A B p, fin p -> List.length (toks p) < n -> good p (read_loop n start A B p).
Proof.
  induction n as [|n IH]; intros A B p F L; [lia|]. cbn [read_loop].
  destruct (match toks p with End a b :: _ => same_name (e_prefix start) (e_local start) a b | _ => false end) eqn:X; [cbn; split; [exact F|lia]|].
  assert (G : forall (C D : Type) (r : res C) (f : C -> parser -> res D), good_lt p r -> toks p <> [] ->
    (forall a q, fin q -> List.length (toks q) < n -> good q (f a q)) -> good p (bind r f)).
  { intros C D r f H N K. destruct r as [a q|e|]; [|exact I|destruct H]. cbn in *. destruct H as [H1 H2].
    assert (Z : List.length (toks q) < List.length (toks p)) by (destruct H2 as [H2|H2]; [exact H2|rewrite H2; destruct (toks p); [contradiction|cbn; lia]]).
    specialize (K a q H1 ltac:(lia)). destruct (f a q); cbn in *; auto. destruct K; split; [assumption|lia]. }
  assert (T : forall ns key, is_tag p ns key = true -> toks p <> []) by (intros ns key H E; unfold is_tag in H; rewrite E in H; discriminate).
  assert (N : forall A B q, fin q -> List.length (toks q) < n -> good q (read_loop n start A B (skip_text q))).
  { intros A' B' q Fq Lq. destruct (skip_text_good q Fq) as [S1 S2]. specialize (IH A' B' _ S1 ltac:(lia)).
    destruct (read_loop n start A' B' (skip_text q)); cbn in *; auto. destruct IH; split; [assumption|lia]. }
  destruct (is_tag p SUBSCRIBED_NOTIFICATIONS_NS "stream-filter") eqn:T1; [|destruct (is_tag p YANG_PUSH_NS "selection-filter") eqn:T2].
  - apply G; [exact (read_filter_good _ p F)|exact (T _ _ T1)|]. intros; apply N; assumption.
  - apply G; [exact (read_filter_good _ p F)|exact (T _ _ T2)|]. intros; apply N; assumption.
  - pose proof (skip_good p F) as S. destruct (skip p) as [u q|e|]; cbn [bind]; [|exact I|destruct S]. destruct S as [S1 S2].
    specialize (N A B q S1 ltac:(lia)). destruct (read_loop n start A B (skip_text q)); cbn in *; auto. destruct N; split; [assumption|lia].
Qed.
Lemma read_filters_good p : fin p -> good p (read_filters p).
Proof.
  intros F. unfold read_filters. skipped p F. destruct (is_tag p SUBSCRIBED_NOTIFICATIONS_NS "filters"); [|exact I].
  destruct (open_good p SUBSCRIBED_NOTIFICATIONS_NS "filters" F) as [O1 _]. apply good_bind; [exact O1|]. intros e q _ Fq. cbv zeta.
  apply good_bind.
  - apply (skipping q (fun p => read_loop (S (List.length (toks p))) e [] [] p) Fq). intros q' Fq'. apply read_loop_good; [exact Fq'|lia].
  - intros [a b] q' _ Fq'. apply good_bind.
    + exact (skipping q' close Fq' (fun q F => good_weaken _ _ (close_good q F))).
    + intros u q'' _ F''. cbn. split; [exact F''|lia].
Qed.

(* ---- the bindings in force ---- *)
Lemma map_get_insert (k v p : string) (m : scope) : map_get p (map_insert k v m) = if String.eqb k p then Some v else map_get p m.
Proof.
  induction m as [|[k' v'] m IH]; cbn [map_insert].
  - rewrite map_get_cons. reflexivity.
  - destruct (String.eqb_spec k' k) as [->|N]; rewrite !map_get_cons.
    + destruct (String.eqb k p); reflexivity.
    + rewrite IH. destruct (String.eqb_spec k' p) as [->|N']; [|reflexivity].
      destruct (String.eqb_spec k p); [subst; contradiction|reflexivity].
Qed.
Lemma map_get_fold (d : scope) p : NoDup (map fst d) -> forall m : scope,
  map_get p (fold_left (fun m x => map_insert (fst x) (snd x) m) d m) = match map_get p d with Some v => Some v | None => map_get p m end.
Proof.
  induction d as [|[k v] d IH]; intros N m; [reflexivity|]. inversion N as [|? ? N1 N2]; subst. cbn [fold_left fst snd].
  rewrite (IH N2), map_get_insert, map_get_cons. destruct (String.eqb_spec k p) as [->|X]; [|reflexivity].
  rewrite (map_get_none p d N1). reflexivity.
Qed.
Lemma insert_keys (k v : string) (m : scope) x : In x (map fst (map_insert k v m)) -> x = k \/ In x (map fst m).
Proof.
  induction m as [|[k' v'] m IH]; cbn [map_insert].
  - intros [H|[]]; left; symmetry; exact H.
  - destruct (String.eqb k' k); cbn [map fst In]; [tauto|]. intros [H|H]; [tauto|]. destruct (IH H); tauto.
Qed.
Lemma insert_nodup (k v : string) (m : scope) : NoDup (map fst m) -> NoDup (map fst (map_insert k v m)).
Proof.
  induction m as [|[k' v'] m IH]; cbn [map_insert map fst]; intros N; [repeat constructor; auto|].
  inversion N; subst. destruct (String.eqb_spec k' k); cbn [map fst]; constructor; auto.
  intros X. destruct (insert_keys _ _ _ _ X); [congruence|contradiction].
Qed.
Lemma fold_nodup (d : scope) : forall m : scope, NoDup (map fst m) ->
  NoDup (map fst (fold_left (fun (m : scope) x => map_insert (fst x) (snd x) m) d m)).
Proof. induction d as [|[k v] d IH]; intros m N; [exact N|]. cbn [fold_left]. apply IH, insert_nodup, N. Qed.
Definition gathered (o : list scope) : scope :=
  fold_left (fun (m d : scope) => fold_left (fun (m : scope) x => map_insert (fst x) (snd x) m) d m) (rev o) [].
Lemma gathered_cons d o : gathered (d :: o) = fold_left (fun (m : scope) x => map_insert (fst x) (snd x) m) d (gathered o).
Proof. unfold gathered. cbn [rev]. rewrite fold_left_app. reflexivity. Qed.
Lemma gathered_nodup o : NoDup (map fst (gathered o)).
Proof. induction o as [|d o IH]; [constructor|]. rewrite gathered_cons. exact (fold_nodup d _ IH). Qed.
Lemma gathered_force o p n : declared_once o -> n <> "" -> (map_get p (gathered o) = Some n <-> in_force o p n).
Proof.
  intros D Hn. induction D as [|d o N _ IH].
  - split; [discriminate|intros H; inversion H].
  - rewrite gathered_cons, (map_get_fold d p N). destruct (map_get p d) eqn:E.
    + split.
      * intros H. injection H as ->. apply if_here; [exact (map_get_some_in _ _ _ E)|exact Hn].
      * intros H. inversion H as [d' o' p' n' I1 I2|d' o' p' n' I1 I2]; subst.
        -- rewrite (map_get_in _ _ _ N I1) in E. congruence.
        -- rewrite (map_get_none _ _ I1) in E. discriminate.
    + rewrite IH. split.
      * intros H. apply if_outer; [|exact H]. intros X. apply in_map_iff in X. destruct X as ([q w] & X1 & X2). cbn in X1. subst q.
        rewrite (map_get_in _ _ _ N X2) in E. discriminate.
      * intros H. inversion H as [d' o' p' n' I1 I2|d' o' p' n' I1 I2]; subst; [|assumption]. rewrite (map_get_in _ _ _ N I1) in E. discriminate.
Qed.
Lemma in_force_named o p n : in_force o p n -> n <> "".
Proof. induction 1; assumption. Qed.
Lemma all_force o p n : declared_once o -> (In (p, n) (all_namespaces o) <-> in_force o p n).
Proof.
  intros D. unfold all_namespaces. fold (gathered o). rewrite filter_In. cbn [snd]. rewrite negb_true_iff, String.eqb_neq. split.
  - intros [H N]. apply gathered_force; [exact D|exact N|]. exact (map_get_in _ _ _ (gathered_nodup o) H).
  - intros H. pose proof (in_force_named _ _ _ H) as N. split; [|exact N]. apply map_get_some_in. apply gathered_force; assumption.
Qed.
Lemma xpath_namespaces ts ls a b r o ps : stands_for ts (render ls) -> well_formed ls -> declared_once o ->
  exists m, read_xpath_with_namespaces (at_events (ts ++ End a b :: r) o (true :: ps)) = Ok (render ls, m) (at_events (End a b :: r) o (true :: ps)) /\
  forall p n, In (p, n) m <-> In p (prefixes ls) /\ in_force o p n.
Proof.
  intros S W D. unfold read_xpath_with_namespaces. rewrite (tag_string_at _ _ _ _ _ _ _ S). cbn [bind].
  eexists. split; [reflexivity|]. intros p n. unfold at_events at 1. cbn [scopes]. rewrite (enter_stands _ _ _ _ _ _ S).
  rewrite filter_In, (all_force o p n D). cbn [fst]. unfold find_xpath_prefixes. rewrite (scan_lexemes _ W).
  rewrite existsb_exists. split.
  - intros [H (q & A & B)]. apply String.eqb_eq in B. subst q. tauto.
  - intros [A B]. split; [exact B|]. exists p. split; [exact A|apply eqb_refl'].
Qed.
